From Verif Require Import Base BaseProofs CdfModel CdfSpec.
From Coq Require Import ZifyBool ZifyNat Lqa.

Open Scope Q_scope.

Lemma Qle_bool_false a b : Qle_bool a b = false <-> b < a.
Proof.
  split.
  - intros H. apply Qnot_le_lt. intros X. apply Qle_bool_iff in X. congruence.
  - intros H. destruct (Qle_bool a b) eqn:E; [|reflexivity]. apply Qle_bool_iff in E. lra.
Qed.

(* ----------------------------------------------------------------- sort *)

Lemma q_insert_perm x l : Permutation (q_insert x l) (x :: l).
Proof.
  induction l as [|y l IH]; cbn [q_insert]; [reflexivity|]. destruct (Qle_bool x y); [reflexivity|].
  rewrite IH. apply perm_swap.
Qed.
Lemma q_sort_perm l : Permutation (q_sort l) l.
Proof. induction l as [|x l IH]; cbn [q_sort fold_right]; [reflexivity|]. rewrite q_insert_perm. constructor. exact IH. Qed.
Lemma q_insert_sorted x l : non_decreasing l -> non_decreasing (q_insert x l).
Proof.
  unfold non_decreasing. induction 1 as [|y l S IH F]; cbn [q_insert]; [repeat constructor|].
  destruct (Qle_bool x y) eqn:E.
  - apply Qle_bool_iff in E. constructor; [constructor; assumption|]. constructor; [exact E|].
    eapply Forall_impl; [|exact F]. cbn. intros; lra.
  - apply Qle_bool_false in E. constructor; [exact IH|].
    apply Forall_forall. intros a Ha. apply (Permutation_in _ (q_insert_perm x l)) in Ha as [<-|Ha]; [lra|].
    rewrite Forall_forall in F. apply F. exact Ha.
Qed.
Lemma q_sort_sorted l : non_decreasing (q_sort l).
Proof. induction l; cbn; [constructor|]. apply q_insert_sorted. assumption. Qed.
Lemma q_sort_in l x : In x (q_sort l) <-> In x l.
Proof. split; apply Permutation_in; [|symmetry]; apply q_sort_perm. Qed.
Lemma q_sort_length l : List.length (q_sort l) = List.length l.
Proof. apply Permutation_length, q_sort_perm. Qed.

(* ------------------------------------------------- piecewise linear maps *)

Definition inc_table (r : list (Q * Q)) : Prop :=
  StronglySorted (fun a b => fst a < fst b /\ snd a <= snd b) r.

Lemma slope_nonneg a b c d : a < b -> c <= d -> 0 <= (d - c) / (b - a).
Proof. intros H1 H2. apply Qle_shift_div_l; lra. Qed.
Lemma slope_pos a b c d : a < b -> c < d -> 0 < (d - c) / (b - a).
Proof. intros H1 H2. apply Qlt_shift_div_l; lra. Qed.

Lemma seg_left a b : seg a b (fst a) == snd a.
Proof. unfold seg. ring. Qed.
Lemma seg_right a b : fst a < fst b -> seg a b (fst b) == snd b.
Proof. intros H. unfold seg. field. lra. Qed.
Lemma seg_mono a b x y : fst a < fst b -> snd a <= snd b -> x <= y -> seg a b x <= seg a b y.
Proof.
  intros H1 H2 H. unfold seg. pose proof (slope_nonneg _ _ _ _ H1 H2) as S.
  pose proof (Qmult_le_0_compat (y - x) _ ltac:(lra) S). lra.
Qed.
Lemma seg_strict a b x y : fst a < fst b -> snd a < snd b -> x < y -> seg a b x < seg a b y.
Proof.
  intros H1 H2 H. unfold seg. pose proof (slope_pos _ _ _ _ H1 H2) as S.
  pose proof (Qmult_lt_0_compat (y - x) _ ltac:(lra) S). lra.
Qed.

Lemma seg_compat a b x y : x == y -> seg a b x == seg a b y.
Proof. intros H. unfold seg. rewrite H. reflexivity. Qed.
Lemma lin_interp_compat a r x y : x == y -> lin_interp a r x == lin_interp a r y.
Proof.
  revert a; induction r as [|b r IH]; intros a H; cbn [lin_interp]; [reflexivity|].
  destruct r as [|c r]; [apply seg_compat; exact H|].
  rewrite (Qleb_comp _ _ H (fst b) (fst b) ltac:(reflexivity)).
  destruct (Qle_bool y (fst b)); [apply seg_compat; exact H|apply IH; exact H].
Qed.

Lemma lin_at_start a r : inc_table (a :: r) -> lin_interp a r (fst a) == snd a.
Proof.
  destruct r as [|b r]; intros S; cbn [lin_interp]; [reflexivity|].
  inversion S as [|? ? S1 F]; subst. inversion F as [|? ? Hb _]; subst. cbn in Hb.
  destruct r; [apply seg_left|].
  replace (Qle_bool (fst a) (fst b)) with true by (symmetry; apply Qle_bool_iff; lra). apply seg_left.
Qed.

Lemma lin_above a r x : inc_table (a :: r) -> fst a <= x -> snd a <= lin_interp a r x.
Proof.
  revert a; induction r as [|b r IH]; intros a S H; cbn [lin_interp]; [lra|].
  inversion S as [|? ? S1 F]; subst. inversion F as [|? ? Hb _]; subst. cbn in Hb.
  assert (G : snd a <= seg a b x).
  { rewrite <- (seg_left a b) at 1. apply seg_mono; lra. }
  destruct r as [|c r]; [exact G|]. destruct (Qle_bool x (fst b)) eqn:E; [exact G|].
  apply Qle_bool_false in E. specialize (IH b S1 ltac:(lra)). lra.
Qed.

Lemma lin_mono a r x y : inc_table (a :: r) -> x <= y -> lin_interp a r x <= lin_interp a r y.
Proof.
  revert a; induction r as [|b r IH]; intros a S H; cbn [lin_interp]; [lra|].
  inversion S as [|? ? S1 F]; subst. inversion F as [|? ? Hb _]; subst. cbn in Hb.
  destruct r as [|c r]; [apply seg_mono; lra|].
  destruct (Qle_bool x (fst b)) eqn:E1, (Qle_bool y (fst b)) eqn:E2.
  - apply seg_mono; lra.
  - apply Qle_bool_iff in E1. apply Qle_bool_false in E2.
    pose proof (lin_above b (c :: r) y S1 ltac:(lra)). pose proof (seg_mono a b x (fst b) (proj1 Hb) (proj2 Hb) E1).
    pose proof (seg_right a b (proj1 Hb)). lra.
  - apply Qle_bool_false in E1. apply Qle_bool_iff in E2. lra.
  - apply IH; assumption.
Qed.

Lemma lin_node a r p : inc_table (a :: r) -> In p (a :: r) -> lin_interp a r (fst p) == snd p.
Proof.
  revert a; induction r as [|b r IH]; intros a S [<-|H]; try (apply lin_at_start; exact S); [destruct H|].
  cbn [lin_interp]. inversion S as [|? ? S1 F]; subst. inversion F as [|? ? Hb _]; subst. cbn in Hb.
  destruct r as [|c r].
  - destruct H as [<-|[]]. apply seg_right. lra.
  - destruct H as [<-|H].
    + rewrite (proj2 (Qle_bool_iff _ _)) by lra. apply seg_right. lra.
    + inversion S1 as [|? ? S2 F2]; subst. rewrite Forall_forall in F2. pose proof (F2 p H) as Hp. cbn in Hp.
      rewrite (proj2 (Qle_bool_false _ _)) by lra. apply IH; [exact S1|right; exact H].
Qed.

Definition strict_table (r : list (Q * Q)) : Prop :=
  StronglySorted (fun a b => fst a < fst b /\ snd a < snd b) r.
Lemma strict_inc r : strict_table r -> inc_table r.
Proof.
  induction 1 as [|a l S IH F]; constructor; [exact IH|]. eapply Forall_impl; [|exact F]. cbn; intros; lra.
Qed.
Lemma lin_strict a b r x y : strict_table (a :: b :: r) -> x < y ->
  lin_interp a (b :: r) x < lin_interp a (b :: r) y.
Proof.
  revert a b x y; induction r as [|c r IH]; intros a b x y S H.
  - cbn [lin_interp]. inversion S as [|? ? S1 F]; subst. inversion F as [|? ? Hb _]; subst. cbn in Hb.
    apply seg_strict; lra.
  - change (lin_interp a (b :: c :: r) x) with (if Qle_bool x (fst b) then seg a b x else lin_interp b (c :: r) x).
    change (lin_interp a (b :: c :: r) y) with (if Qle_bool y (fst b) then seg a b y else lin_interp b (c :: r) y).
    inversion S as [|? ? S1 F]; subst. inversion F as [|? ? Hb _]; subst. cbn in Hb.
    destruct (Qle_bool x (fst b)) eqn:E1, (Qle_bool y (fst b)) eqn:E2.
    + apply seg_strict; lra.
    + apply Qle_bool_iff in E1. apply Qle_bool_false in E2.
      pose proof (seg_mono a b x (fst b) (proj1 Hb) ltac:(lra) E1). pose proof (seg_right a b (proj1 Hb)).
      specialize (IH b c _ _ S1 E2). pose proof (lin_at_start b (c :: r) (strict_inc _ S1)). lra.
    + apply Qle_bool_false in E1. apply Qle_bool_iff in E2. lra.
    + apply IH; assumption.
Qed.

Lemma last_cons_ne {A} (a b : A) r d : last (a :: b :: r) d = last (b :: r) d.
Proof. reflexivity. Qed.
Lemma last_in {A} (a : A) r : In (last r a) (a :: r).
Proof.
  revert a; induction r as [|b r IH]; intros a; [left; reflexivity|].
  destruct r as [|c r]; [right; left; reflexivity|]. specialize (IH b). change (last (b :: c :: r) a) with (last (c :: r) a).
  assert (E : last (c :: r) a = last (c :: r) b) by (clear; revert c; induction r as [|d r IH]; intros c; [reflexivity|apply (IH d)]).
  rewrite E. right. exact IH.
Qed.

Lemma lin_below a r x : inc_table (a :: r) -> r <> [] -> x <= fst (last r a) -> lin_interp a r x <= snd (last r a).
Proof.
  intros S Hr H. rewrite <- (lin_node a r (last r a) S (last_in a r)). apply lin_mono; assumption.
Qed.

(* np.interp is the piecewise linear map of the argument clamped to the table *)
Definition clampq (lo hi p : Q) : Q := if Qle_bool p lo then lo else if Qle_bool hi p then hi else p.
Lemma clampq_mono lo hi p q : lo <= hi -> p <= q -> clampq lo hi p <= clampq lo hi q.
Proof.
  intros H1 H2. unfold clampq.
  destruct (Qle_bool p lo) eqn:A; [apply Qle_bool_iff in A|apply Qle_bool_false in A];
  destruct (Qle_bool q lo) eqn:B; [apply Qle_bool_iff in B|apply Qle_bool_false in B|apply Qle_bool_iff in B|apply Qle_bool_false in B];
  try lra;
  destruct (Qle_bool hi p) eqn:C; [apply Qle_bool_iff in C|apply Qle_bool_false in C|apply Qle_bool_iff in C|apply Qle_bool_false in C];
  destruct (Qle_bool hi q) eqn:D; [apply Qle_bool_iff in D|apply Qle_bool_false in D|apply Qle_bool_iff in D|apply Qle_bool_false in D
    |apply Qle_bool_iff in D|apply Qle_bool_false in D|apply Qle_bool_iff in D|apply Qle_bool_false in D]; lra.
Qed.
Lemma np_interp_clamp a r p : inc_table (a :: r) ->
  np_interp a r p == lin_interp a r (clampq (fst a) (fst (last r a)) p).
Proof.
  intros S. unfold np_interp, clampq. destruct (Qle_bool p (fst a)); [symmetry; apply lin_at_start; exact S|].
  destruct (Qle_bool (fst (last r a)) p); [|reflexivity].
  symmetry. apply lin_node; [exact S|apply last_in].
Qed.
Lemma table_ends a r : inc_table (a :: r) -> fst a <= fst (last r a) /\ snd a <= snd (last r a).
Proof.
  intros S. destruct r as [|b r]; [cbn; split; lra|].
  inversion S as [|? ? _ F]; subst. rewrite Forall_forall in F.
  destruct (last_in a (b :: r)) as [E|H].
  - rewrite <- E. split; lra.
  - destruct (F _ H) as [F1 F2]. split; lra.
Qed.
Lemma np_interp_mono a r p q : inc_table (a :: r) -> p <= q -> np_interp a r p <= np_interp a r q.
Proof.
  intros S H. rewrite !np_interp_clamp by exact S. apply lin_mono; [exact S|].
  apply clampq_mono; [apply table_ends; exact S|exact H].
Qed.
Lemma np_interp_range a r p : inc_table (a :: r) -> snd a <= np_interp a r p <= snd (last r a).
Proof.
  intros S. pose proof (table_ends a r S) as [E1 E2]. unfold np_interp.
  destruct (Qle_bool p (fst a)) eqn:A; [lra|]. apply Qle_bool_false in A.
  destruct (Qle_bool (fst (last r a)) p) eqn:B; [lra|]. apply Qle_bool_false in B. split.
  - apply lin_above; [exact S|lra].
  - destruct r as [|b r]; [cbn in *; lra|]. apply lin_below; [exact S|discriminate|lra].
Qed.

(* ------------------------------------------------------------- p_rank *)

Lemma qnat_S n : qnat (S n) == qnat n + 1.
Proof. unfold qnat. rewrite Nat2Z.inj_succ, <- Z.add_1_r, inject_Z_plus. reflexivity. Qed.
Lemma qnat_nonneg n : 0 <= qnat n.
Proof. unfold qnat. rewrite <- (Zle_Qle 0). lia. Qed.
Lemma qnat_pos n : (0 < n)%nat -> 0 < qnat n.
Proof. intros H. unfold qnat. rewrite <- (Zlt_Qlt 0). lia. Qed.
Lemma qnat_lt a b : (a < b)%nat -> qnat a < qnat b.
Proof. intros H. unfold qnat. rewrite <- Zlt_Qlt. lia. Qed.
Lemma qnat_le a b : (a <= b)%nat -> qnat a <= qnat b.
Proof. intros H. unfold qnat. rewrite <- Zle_Qle. lia. Qed.

Lemma p_rank_lt n i j : (0 < n)%nat -> (i < j)%nat -> p_rank n i < p_rank n j.
Proof.
  intros Hn H. unfold p_rank. pose proof (qnat_pos n Hn). pose proof (qnat_lt i j H).
  apply Qlt_shift_div_l; [assumption|]. unfold Qdiv. 
  setoid_replace (100 * (qnat i + (1 # 2)) * / qnat n * qnat n) with (100 * (qnat i + (1 # 2))) by (field; lra). lra.
Qed.
Lemma p_rank_pos n i : (0 < n)%nat -> 0 < p_rank n i.
Proof.
  intros Hn. unfold p_rank. pose proof (qnat_pos n Hn). pose proof (qnat_nonneg i).
  apply Qlt_shift_div_l; [assumption|]. lra.
Qed.
Lemma p_rank_100 n i : (i < n)%nat -> p_rank n i < 100.
Proof.
  intros Hn. unfold p_rank. pose proof (qnat_pos n ltac:(lia)). pose proof (qnat_le (S i) n ltac:(lia)) as G.
  rewrite qnat_S in G. apply Qlt_shift_div_r; [assumption|]. lra.
Qed.

Lemma rank_table_sorted n k (data : list Q) : (0 < n)%nat -> non_decreasing data ->
  inc_table (combine (map (p_rank n) (seq k (List.length data))) data).
Proof.
  intros Hn. revert k. induction data as [|v data IH]; intros k S; cbn; [constructor|].
  inversion S as [|? ? S1 F]; subst. constructor; [apply IH; exact S1|].
  apply Forall_forall. intros [p w] H. cbn. 
  pose proof (in_combine_r _ _ _ _ H) as H2. apply in_combine_l in H.
  apply in_map_iff in H as (j & <- & Hj). apply in_seq in Hj. split; [apply p_rank_lt; lia|].
  rewrite Forall_forall in F. apply F. exact H2.
Qed.

Lemma combine_last {A B} (l : list A) (m : list B) a b : List.length l = List.length m ->
  last (combine l m) (a, b) = (last l a, last m b).
Proof.
  revert m; induction l as [|x l IH]; intros [|y m] H; try discriminate; [reflexivity|].
  injection H as H. destruct l as [|x' l], m as [|y' m]; try discriminate; [reflexivity|].
  exact (IH (y' :: m) H).
Qed.
Lemma last_map {A B} (f : A -> B) l d : last (map f l) (f d) = f (last l d).
Proof. induction l as [|x l IH]; [reflexivity|]. destruct l; [reflexivity|exact IH]. Qed.
Lemma last_seq k n d : last (seq k (S n)) d = (k + n)%nat.
Proof. revert k; induction n as [|n IH]; intros k; [cbn; lia|]. change (last (seq (S k) (S n)) d = (k + S n)%nat). rewrite IH. lia. Qed.
Lemma last_default {A} (l : list A) a d e : last (a :: l) d = last (a :: l) e.
Proof. revert a; induction l as [|b l IH]; intros a; [reflexivity|]. exact (IH b). Qed.

(* everything about matlab percentiles in one place *)
Lemma matlab_spec data percentiles : data <> [] -> non_decreasing data ->
  exists f, matlab_percentiles data percentiles = Ok (map f percentiles) /\
    (forall p q, p <= q -> f p <= f q) /\
    (forall p, hd 0 data <= f p <= last data 0) /\
    (forall p, p <= 0 -> f p = hd 0 data) /\
    (forall p, 100 <= p -> f p = last data 0).
Proof.
  intros Hne S. unfold matlab_percentiles.
  destruct data as [|v data]; [congruence|].
  set (n := List.length (v :: data)). assert (Hn : (0 < n)%nat) by (unfold n; cbn; lia).
  pose proof (rank_table_sorted n 0 (v :: data) Hn S) as T. fold n in T.
  assert (En : n = Datatypes.S (List.length data)) by reflexivity.
  set (r := combine (map (p_rank n) (seq 1 (List.length data))) data).
  assert (E : combine (map (p_rank n) (seq 0 n)) (v :: data) = (p_rank n 0, v) :: r).
  { rewrite En at 2. reflexivity. }
  rewrite E in *.
  exists (np_interp (p_rank n 0, v) r). split; [reflexivity|].
  assert (L : last r (p_rank n 0, v) = (p_rank n (List.length data), last (v :: data) 0)).
  { unfold r. rewrite combine_last by (rewrite map_length, seq_length; reflexivity).
    rewrite last_map. destruct data as [|w data]; [reflexivity|].
    cbn [List.length] in *. rewrite last_seq. f_equal. exact (last_default data w v 0). }
  split; [intros; apply np_interp_mono; assumption|].
  split; [|split].
  - intros p. pose proof (np_interp_range _ _ p T) as G. rewrite L in G. exact G.
  - intros p Hp. unfold np_interp. cbn [fst snd]. pose proof (p_rank_pos n 0 Hn).
    rewrite (proj2 (Qle_bool_iff _ _)) by lra. reflexivity.
  - intros p Hp. unfold np_interp. rewrite L. cbn [fst snd].
    pose proof (p_rank_100 n 0 ltac:(lia)). rewrite (proj2 (Qle_bool_false _ _)) by lra.
    pose proof (p_rank_100 n (List.length data) ltac:(lia)). rewrite (proj2 (Qle_bool_iff _ _)) by lra. reflexivity.
Qed.

(* ------------------------------------------------ unique percentile values *)

Lemma inc_table_combine (ps : list Q) (f : Q -> Q) : increasing ps ->
  (forall p q, p <= q -> f p <= f q) -> inc_table (combine ps (map f ps)).
Proof.
  intros S M. induction S as [|p ps S IH F]; cbn; [constructor|]. constructor; [exact IH|].
  apply Forall_forall. intros [q v] H. cbn. rewrite Forall_forall in F.
  assert (Hq : In q ps) by (apply in_combine_l in H; exact H). specialize (F q Hq). split; [exact F|].
  assert (Ev : v = f q).
  { clear - H. induction ps as [|x ps IH]; cbn in H; [contradiction|]. destruct H as [H|H]; [congruence|apply IH; exact H]. }
  subst v. apply M. lra.
Qed.

Lemma fo_incl last l x : In x (first_occurrences last l) -> In x l.
Proof.
  revert last; induction l as [|[p v] l IH]; intros last H; cbn [first_occurrences] in H; [contradiction|].
  destruct (match last with Some w => Qeq_bool v w | None => false end); [right; eapply IH; exact H|].
  destruct H as [H|H]; [left; exact H|right; eapply IH; exact H].
Qed.

Lemma fo_length last l : (List.length (first_occurrences last l) <= List.length l)%nat.
Proof.
  revert last; induction l as [|[p v] l IH]; intros last; cbn [first_occurrences]; [cbn; lia|].
  destruct (match last with Some w => Qeq_bool v w | None => false end); cbn [List.length]; [specialize (IH last); lia|].
  specialize (IH (Some v)). lia.
Qed.

Lemma fo_full last l : List.length (first_occurrences last l) = List.length l -> first_occurrences last l = l.
Proof.
  revert last; induction l as [|[p v] l IH]; intros last H; cbn [first_occurrences] in *; [reflexivity|].
  destruct (match last with Some w => Qeq_bool v w | None => false end).
  - pose proof (fo_length last l). cbn [List.length] in *. lia.
  - cbn [List.length] in H. f_equal. apply IH. lia.
Qed.

Lemma fo_strict last l : inc_table l ->
  (match last with Some w => forall x, In x l -> w <= snd x | None => True end) ->
  strict_table (first_occurrences last l) /\
  (match last with Some w => forall x, In x (first_occurrences last l) -> w < snd x | None => True end).
Proof.
  intros S. revert last. induction S as [|[p v] l S IH F]; intros last Hw; cbn [first_occurrences].
  - split; [constructor|]. destruct last; [intros x []|exact I].
  - rewrite Forall_forall in F.
    destruct (match last with Some w => Qeq_bool v w | None => false end) eqn:E.
    + apply IH. destruct last as [w|]; [|exact I]. intros x Hx. apply Hw. right; exact Hx.
    + destruct (IH (Some v)) as [I1 I2].
      { intros x Hx. destruct (F x Hx) as [_ G]. exact G. }
      split.
      * constructor; [exact I1|]. apply Forall_forall. intros x Hx. cbn. split; [|apply I2; exact Hx].
        apply fo_incl in Hx. apply (F x Hx).
      * destruct last as [w|]; [|exact I]. intros x [<-|Hx].
        -- cbn. specialize (Hw (p, v) (or_introl eq_refl)). cbn in Hw.
           apply Qeq_bool_neq in E. apply Qle_lteq in Hw as [Hw|Hw]; [exact Hw|]. exfalso. apply E. rewrite Hw. reflexivity.
        -- specialize (I2 x Hx). specialize (Hw (p, v) (or_introl eq_refl)). cbn in Hw. lra.
Qed.

Lemma fo_last last l d : inc_table l -> l <> [] ->
  (match last with Some w => forall x, In x l -> w <= snd x | None => True end) ->
  match first_occurrences last l with
  | [] => match last with Some w => snd (List.last l d) == w | None => False end
  | _ => snd (List.last (first_occurrences last l) d) == snd (List.last l d)
  end.
Proof.
  intros S. revert last. induction S as [|[p v] l S IH F]; intros last Hl Hw; [congruence|].
  cbn [first_occurrences].
  destruct (match last with Some w => Qeq_bool v w | None => false end) eqn:E.
  - destruct last as [w|]; [|discriminate]. apply Qeq_bool_iff in E. destruct l as [|y l].
    + cbn. exact E.
    + specialize (IH (Some w) ltac:(discriminate)). 
      assert (Hw' : forall x, In x (y :: l) -> w <= snd x) by (intros; apply Hw; right; assumption).
      specialize (IH Hw'). exact IH.
  - destruct l as [|y l].
    + cbn. reflexivity.
    + rewrite Forall_forall in F. specialize (IH (Some v) ltac:(discriminate)).
      assert (Hv : forall x, In x (y :: l) -> v <= snd x) by (intros x Hx; destruct (F x Hx) as [_ G]; exact G).
      specialize (IH Hv). destruct (first_occurrences (Some v) (y :: l)) as [|z m] eqn:Ef.
      * cbn [List.last]. cbn [List.last snd] in *. symmetry. exact IH.
      * exact IH.
Qed.

Lemma fo_head l : first_occurrences None l = match l with [] => [] | (p, v) :: r => (p, v) :: first_occurrences (Some v) r end.
Proof. destruct l as [|[p v] r]; reflexivity. Qed.

Lemma set_last_fst_strict l p : strict_table l -> (forall x, In x l -> fst x <= p) -> strict_table (set_last_fst l p).
Proof.
  intros S. induction S as [|[q v] l S IH F]; intros H; cbn [set_last_fst]; [constructor|].
  destruct l as [|y l]; [repeat constructor|].
  constructor; [apply IH; intros; apply H; right; assumption|].
  rewrite Forall_forall in F. apply Forall_forall. intros x Hx.
  assert (G : forall m x, (forall x, In x m -> q < fst x /\ v < snd x /\ fst x <= p) ->
             In x (set_last_fst m p) -> q < fst x /\ v < snd x).
  { clear. induction m as [|[a b] m IH]; intros x Hm Hx; cbn [set_last_fst] in Hx; [contradiction|].
    destruct m as [|c m].
    - destruct Hx as [<-|[]]. cbn. destruct (Hm (a, b) (or_introl eq_refl)) as (A & B & C). cbn in *. split; lra.
    - destruct Hx as [<-|Hx]; [destruct (Hm (a, b) (or_introl eq_refl)) as (A & B & C); cbn in *; split; assumption|].
      apply IH; [intros; apply Hm; right; assumption|exact Hx]. }
  cbn [fst snd]. apply (G (y :: l)); [|exact Hx]. intros z Hz. destruct (F z Hz) as [F1 F2].
  cbn in F1, F2. split; [exact F1|]. split; [exact F2|]. apply H. right; exact Hz.
Qed.

Lemma set_last_fst_length l p : List.length (set_last_fst l p) = List.length l.
Proof. induction l as [|[q v] l IH]; [reflexivity|]. cbn [set_last_fst]. destruct l; [reflexivity|]. cbn [List.length] in *. lia. Qed.

Lemma set_last_fst_last l p d : l <> [] -> List.last (set_last_fst l p) d = (p, snd (List.last l d)).
Proof.
  induction l as [|[q v] l IH]; intros H; [congruence|]. cbn [set_last_fst]. destruct l as [|y l]; [reflexivity|].
  specialize (IH ltac:(discriminate)). destruct (set_last_fst (y :: l) p) as [|z m] eqn:E.
  - pose proof (set_last_fst_length (y :: l) p). rewrite E in H0. discriminate.
  - rewrite last_cons_ne. rewrite IH. reflexivity.
Qed.

Lemma strictly_incb_spec l : strictly_incb l = true <-> increasing l.
Proof.
  unfold increasing. induction l as [|x l IH]; cbn [strictly_incb]; [split; [constructor|reflexivity]|].
  destruct l as [|y l]; [split; [repeat constructor|reflexivity]|].
  rewrite andb_true_iff, negb_true_iff, Qle_bool_false, IH. split.
  - intros [H S]. constructor; [exact S|]. inversion S as [|? ? S1 F]; subst. constructor; [exact H|].
    eapply Forall_impl; [|exact F]. cbn; intros; lra.
  - intros S. inversion S as [|? ? S1 F]; subst. inversion F; subst. split; assumption.
Qed.

Lemma map_fst_combine' {A B} (l : list A) (m : list B) : List.length l = List.length m -> map fst (combine l m) = l.
Proof. revert m; induction l as [|a l IH]; intros [|b m] H; try discriminate; [reflexivity|]. cbn. rewrite IH; [reflexivity|]. injection H; auto. Qed.
Lemma map_snd_combine' {A B} (l : list A) (m : list B) : List.length l = List.length m -> map snd (combine l m) = m.
Proof. revert m; induction l as [|a l IH]; intros [|b m] H; try discriminate; [reflexivity|]. cbn. rewrite IH; [reflexivity|]. injection H; auto. Qed.
Lemma combine_map_fst_snd {A B} (l : list (A * B)) : combine (map fst l) (map snd l) = l.
Proof. induction l as [|[a b] l IH]; cbn; congruence. Qed.

Lemma inc_table_fst l : inc_table l -> increasing (map fst l).
Proof.
  induction 1 as [|a l S IH F]; cbn; constructor; [exact IH|].
  rewrite Forall_forall in *. intros p Hp. apply in_map_iff in Hp as (x & <- & Hx). apply (F x Hx).
Qed.

Lemma spline_ok (l : list (Q * Q)) a b r : l = a :: b :: r -> inc_table l ->
  spline (map fst l) (map snd l) = Ok (lin_interp a (b :: r)).
Proof.
  intros E S. unfold spline. rewrite !map_length, Nat.eqb_refl.
  rewrite (proj2 (strictly_incb_spec _)) by (apply inc_table_fst; exact S).
  cbn [andb]. rewrite combine_map_fst_snd, E. reflexivity.
Qed.

Lemma last_map_ne {A B} (f : A -> B) l d e : l <> [] -> last (map f l) d = f (last l e).
Proof.
  induction l as [|x l IH]; intros H; [congruence|]. destruct l as [|y l]; [reflexivity|].
  exact (IH ltac:(discriminate)).
Qed.

Lemma sorted_last_max (l : list Q) x : increasing l -> In x l -> x <= last l 0.
Proof.
  intros S. revert x. induction S as [|y l S IH F]; intros x H; [contradiction|].
  destruct l as [|z l].
  - destruct H as [<-|[]]. cbn. lra.
  - rewrite last_cons_ne. destruct H as [<-|H]; [|apply IH; exact H].
    inversion F as [|? ? Hz _]; subst. specialize (IH z (or_introl eq_refl)). lra.
Qed.
Lemma sorted_hd_min (l : list Q) x : increasing l -> In x l -> hd 0 l <= x.
Proof.
  intros S H. destruct S as [|y l S F]; [contradiction|]. cbn. destruct H as [<-|H]; [lra|].
  rewrite Forall_forall in F. specialize (F x H). lra.
Qed.

Lemma map_strict (f : Q -> Q) ps : (forall p q, p < q -> f p < f q) -> increasing ps -> increasing (map f ps).
Proof.
  intros M S. induction S as [|p ps S IH F]; cbn; constructor; [exact IH|].
  rewrite Forall_forall in *. intros x Hx. apply in_map_iff in Hx as (q & <- & Hq). apply M, F, Hq.
Qed.
Lemma map_mono (f : Q -> Q) ps : (forall p q, p <= q -> f p <= f q) -> increasing ps -> non_decreasing (map f ps).
Proof.
  intros M S. induction S as [|p ps S IH F]; cbn; constructor; [exact IH|].
  rewrite Forall_forall in *. intros x Hx. apply in_map_iff in Hx as (q & <- & Hq). apply M.
  specialize (F q Hq). lra.
Qed.

Lemma unique_spec ps f : increasing ps -> ps <> [] -> (forall p q, p <= q -> f p <= f q) ->
  exists g, unique_percentiles (map f ps) ps = Ok (map g ps) /\
    (forall p q, p <= q -> g p <= g q) /\
    g (hd 0 ps) == f (hd 0 ps) /\ g (last ps 0) == f (last ps 0) /\
    (~ f (hd 0 ps) == f (last ps 0) -> increasing (map g ps)).
Proof.
  intros S Hne M. unfold unique_percentiles.
  pose proof (inc_table_combine ps f S M) as T.
  set (l := combine ps (map f ps)) in *.
  assert (Ll : List.length l = List.length ps) by (unfold l; rewrite combine_length, map_length, Nat.min_id; reflexivity).
  set (u := first_occurrences None l).
  destruct (fo_strict None l T I) as [US _]. fold u in US.
  assert (Hl : l <> []) by (intros E; rewrite E in Ll; destruct ps; [congruence|discriminate]).
  pose proof (fo_last None l (0, 0) T Hl I) as UL. fold u in UL.
  assert (Llast : List.last l (0, 0) = (last ps 0, f (last ps 0))).
  { unfold l. rewrite combine_last by (rewrite map_length; reflexivity). f_equal. apply last_map_ne. exact Hne. }
  destruct ps as [|p0 ps0] eqn:Eps; [congruence|].
  assert (Eu : u = (p0, f p0) :: first_occurrences (Some (f p0)) (combine ps0 (map f ps0))) by reflexivity.
  set (tl := first_occurrences (Some (f p0)) (combine ps0 (map f ps0))) in *.
  rewrite Eu in UL. rewrite <- Eu in UL. rewrite Llast in UL. cbn [snd] in UL.
  destruct (Nat.eqb_spec (List.length u) (List.length (p0 :: ps0))) as [E1|E1]; cbn [negb andb].
  - exists f. split; [reflexivity|]. split; [exact M|]. split; [reflexivity|]. split; [reflexivity|].
    intros _. assert (Euq : u = l) by (apply fo_full; rewrite Ll; exact E1).
    assert (Es : map snd l = map f (p0 :: ps0)) by (unfold l; apply map_snd_combine'; rewrite map_length; reflexivity).
    rewrite <- Es. rewrite Euq in US. clear - US. 
    induction US as [|a l S IH F]; cbn; constructor; [exact IH|].
    rewrite Forall_forall in *. intros p Hp. apply in_map_iff in Hp as (x & <- & Hx). apply (F x Hx).
  - destruct tl as [|y tl'] eqn:Etl.
    + (* one distinct value only *)
      rewrite Eu. cbn [List.length Nat.ltb Nat.leb]. exists f.
      split; [reflexivity|]. split; [exact M|]. split; [reflexivity|]. split; [reflexivity|].
      rewrite Eu in UL. cbn in UL. intros N. exfalso. apply N. exact UL.
    + assert (G : Nat.ltb 1 (List.length u) = true) by (rewrite Eu; reflexivity). rewrite G.
      set (tab := set_last_fst u (last (p0 :: ps0) 0)).
      assert (TS : strict_table tab).
      { apply set_last_fst_strict; [exact US|]. intros x Hx. unfold u in Hx. apply fo_incl in Hx. destruct x as [a b]. cbn [fst].
        apply in_combine_l in Hx. apply sorted_last_max; assumption. }
      assert (Etab : exists b r, tab = (p0, f p0) :: b :: r).
      { unfold tab. rewrite Eu. change (set_last_fst ((p0, f p0) :: y :: tl') (last (p0 :: ps0) 0))
          with ((p0, f p0) :: set_last_fst (y :: tl') (last (p0 :: ps0) 0)).
        destruct (set_last_fst (y :: tl') (last (p0 :: ps0) 0)) as [|b r] eqn:E.
        - pose proof (set_last_fst_length (y :: tl') (last (p0 :: ps0) 0)) as X. rewrite E in X. discriminate.
        - exists b, r. reflexivity. }
      destruct Etab as (b & r & Etab).
      rewrite (spline_ok tab (p0, f p0) b r Etab (strict_inc _ TS)). cbn [bindR].
      rewrite Etab in TS. exists (lin_interp (p0, f p0) (b :: r)).
      split; [reflexivity|]. split; [intros; apply lin_mono; [apply strict_inc; exact TS|assumption]|].
      split; [|split].
      * cbn [hd]. apply (lin_at_start (p0, f p0) (b :: r)). apply strict_inc; exact TS.
      * assert (EL : List.last (b :: r) (p0, f p0) = (last (p0 :: ps0) 0, snd (List.last u (0, 0)))).
        { assert (X : List.last tab (0, 0) = (last (p0 :: ps0) 0, snd (List.last u (0, 0))))
            by (apply set_last_fst_last; rewrite Eu; discriminate).
          rewrite Etab in X. rewrite last_cons_ne in X. rewrite <- X. apply last_default. }
        pose proof (lin_node (p0, f p0) (b :: r) (List.last (b :: r) (p0, f p0)) (strict_inc _ TS) (last_in _ _)) as N.
        rewrite EL in N. cbn [fst snd] in N. rewrite N. rewrite Eu in UL. rewrite Eu. exact UL.
      * intros _. apply map_strict; [|exact S]. intros; apply lin_strict; assumption.
Qed.

Lemma percentile_list_hd ps : percentile_list ps -> hd 0 ps == 0 /\ ps <> [].
Proof. intros (S & H1 & H2). destruct ps; cbn in *; [lra|]. split; [exact H1|discriminate]. Qed.

Lemma percentile_values_spec data ps : data <> [] -> non_decreasing data -> percentile_list ps ->
  exists g, percentile_values data ps = Ok (map g ps) /\
    (forall p q, p <= q -> g p <= g q) /\
    g (hd 0 ps) == hd 0 data /\ g (last ps 0) == last data 0 /\
    (~ hd 0 data == last data 0 -> increasing (map g ps)).
Proof.
  intros Hd S P. unfold percentile_values.
  destruct (matlab_spec data ps Hd S) as (f & E & M & _ & F0 & F100). rewrite E. cbn [bindR].
  destruct (percentile_list_hd ps P) as [H0 Hne]. destruct P as (PS & _ & H100).
  destruct (unique_spec ps f PS Hne M) as (g & Eg & Mg & G0 & G100 & Gs).
  exists g. split; [exact Eg|]. split; [exact Mg|].
  rewrite (F0 (hd 0 ps)) in * by lra. rewrite (F100 (last ps 0)) in * by lra.
  split; [exact G0|]. split; [exact G100|]. exact Gs.
Qed.
