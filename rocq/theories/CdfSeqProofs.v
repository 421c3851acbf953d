(* Proofs about percentiles given as a list. *)
From Verif Require Import CdfSeqModel CdfSeqSpec CdfProofs CdfFitProofs.
From Coq Require Import Lqa Lia Permutation.
Open Scope Q_scope.

(* ---- arrays ---- *)
Lemma unique_array perc ps : unique_percentiles_seq AsArray perc ps = unique_percentiles perc ps.
Proof. reflexivity. Qed.
Lemma values_array d ps : percentile_values_seq AsArray d ps = percentile_values d ps.
Proof. reflexivity. Qed.
Lemma calc_seq k o n : calc_percentiles_seq k o n =
  mapR (fun pn => (pn, match c_percentiles o with
                       | None => AsArray
                       | Some p => match q_minimum (diffs p) with
                                   | Ok w => match c_minobs o with
                                             | None => k
                                             | Some m => if Qle_bool (inject_Z m) (qnat n * w / 100) then k else AsArray
                                             end
                                   | Err _ => k
                                   end
                       end)) (calc_percentiles o n).
Proof.
  unfold calc_percentiles_seq, calc_percentiles. destruct (c_percentiles o) as [p|].
  - destruct (q_minimum (diffs p)) as [w|e]; [|reflexivity]. cbn [bindR mapR]. destruct (c_minobs o) as [m|]; [|reflexivity].
    destruct (Qle_bool _ _); reflexivity.
  - destruct (q_minimum _) as [w|e]; [|reflexivity]. cbn [bindR mapR]. destruct (c_minobs o) as [m|]; [|reflexivity].
    destruct (Qle_bool _ _); reflexivity.
Qed.

(* the part of fit after the percentiles are known *)
Definition after (k : sequence) (o : cdf_opts) (xu yu ps : list Q) (nbins : nat) : res (list Q * list Q) :=
  if Nat.eqb nbins 1 && c_linear_edges o
  then linreg_percentiles xu yu
  else bindR (percentile_values_seq k (q_sort xu) ps) (fun xp =>
       bindR (percentile_values_seq k (q_sort yu) ps) (fun yp =>
       if c_linear_edges o
       then mapR (fun yp' => (xp, yp')) (linear_edge_scaling (q_sort xu) (q_sort yu) xp yp)
       else Ok (xp, yp))).
Definition packed (o : cdf_opts) (t : list Q * list Q) : cdf_table :=
  mkTable (pad (S (self_nbins o)) (fst t)) (pad (S (self_nbins o)) (snd t)).
Lemma fit_seq_unfold k o X Y : cdf_fit_seq k o X Y =
  let xu := fit_source o X Y in let yu := fit_reference o X Y in
  bindR (calc_percentiles_seq k o (Nat.min (List.length xu) (List.length yu))) (fun pn =>
  let '(ps, nbins, kind) := pn in mapR (packed o) (after kind o xu yu ps nbins)).
Proof.
  unfold cdf_fit_seq. destruct (used_spec o X Y) as [-> ->]. cbn zeta. rewrite !q_sort_length.
  destruct (calc_percentiles_seq _ _ _) as [[[ps nb] kind]|e]; [|reflexivity]. cbn [bindR]. unfold after.
  destruct (if Nat.eqb nb 1 && c_linear_edges o then _ else _); reflexivity.
Qed.
Lemma fit_array o X Y : cdf_fit_seq AsArray o X Y = cdf_fit o X Y.
Proof.
  rewrite fit_seq_unfold, fit_unfold. cbn zeta. rewrite calc_seq. destruct (calc_percentiles _ _) as [[ps nb]|e]; [|reflexivity].
  cbn [mapR bindR].
  set (kk := match c_percentiles o with Some _ => _ | None => _ end).
  assert (E : kk = AsArray).
  { unfold kk. destruct (c_percentiles o); [|reflexivity]. destruct (q_minimum _); [|reflexivity]. destruct (c_minobs o); [|reflexivity]. destruct (Qle_bool _ _); reflexivity. }
  rewrite E. unfold after. rewrite !values_array. destruct (if Nat.eqb nb 1 && c_linear_edges o then _ else _); reflexivity.
Qed.

(* ---- a list gives the same or raises ---- *)
Lemma unique_list perc ps : unique_percentiles_seq AsList perc ps = unique_percentiles perc ps \/ unique_percentiles_seq AsList perc ps = Err EType.
Proof. unfold unique_percentiles_seq, unique_percentiles. destruct (_ && _); [right|left]; reflexivity. Qed.
Lemma values_list d ps : percentile_values_seq AsList d ps = percentile_values d ps \/ percentile_values_seq AsList d ps = Err EType.
Proof.
  unfold percentile_values_seq, percentile_values. destruct (matlab_percentiles d ps) as [v|e]; [|left; reflexivity]. cbn [bindR]. apply unique_list.
Qed.
Lemma after_list o xu yu ps nb : after AsList o xu yu ps nb = after AsArray o xu yu ps nb \/ after AsList o xu yu ps nb = Err EType.
Proof.
  unfold after. destruct (_ && _); [left; reflexivity|].
  destruct (values_list (q_sort xu) ps) as [E|E]; rewrite E; [|right; reflexivity]. change (percentile_values_seq AsArray) with percentile_values.
  destruct (percentile_values (q_sort xu) ps) as [xp|e]; [|left; reflexivity]. cbn [bindR].
  destruct (values_list (q_sort yu) ps) as [E'|E']; rewrite E'; [|right; reflexivity]. left. reflexivity.
Qed.
Lemma fit_list o X Y : cdf_fit_seq AsList o X Y = cdf_fit o X Y \/ cdf_fit_seq AsList o X Y = Err EType.
Proof.
  rewrite <- fit_array, !fit_seq_unfold. cbn zeta. rewrite !calc_seq. destruct (calc_percentiles _ _) as [[ps nb]|e]; [|left; reflexivity].
  cbn [mapR bindR].
  assert (A : forall k, mapR (packed o) (after k o (fit_source o X Y) (fit_reference o X Y) ps nb) = mapR (packed o) (after AsArray o (fit_source o X Y) (fit_reference o X Y) ps nb) \/
     mapR (packed o) (after k o (fit_source o X Y) (fit_reference o X Y) ps nb) = Err EType).
  { intros [|]; [|left; reflexivity]. destruct (after_list o (fit_source o X Y) (fit_reference o X Y) ps nb) as [E|E]; rewrite E; [left|right]; reflexivity. }
  replace (match c_percentiles o with Some p => match q_minimum (diffs p) with Ok w => match c_minobs o with Some m => if Qle_bool (inject_Z m) (qnat (Nat.min (List.length (fit_source o X Y)) (List.length (fit_reference o X Y))) * w / 100) then AsArray else AsArray | None => AsArray end | Err _ => AsArray end | None => AsArray end) with AsArray; [apply A|].
  destruct (c_percentiles o); [|reflexivity]. destruct (q_minimum _); [|reflexivity]. destruct (c_minobs o); [|reflexivity]. destruct (Qle_bool _ _); reflexivity.
Qed.

(* ---- two ways to sort the same observations ---- *)
Definition cnt (v : Q) (s : list Q) : nat := List.length (filter (fun x => Qle_bool x v) s).
Lemma cnt_perm v s t : Permutation s t -> cnt v s = cnt v t.
Proof.
  unfold cnt. intros P. induction P as [|x s t P IH|x y s|s t w P1 I1 P2 I2]; [reflexivity| | |congruence]; cbn [filter].
  - destruct (Qle_bool x v); cbn [List.length]; congruence.
  - destruct (Qle_bool x v), (Qle_bool y v); reflexivity.
Qed.
Lemma cnt_low s : non_decreasing s -> forall i a, nth_error s i = Some a -> (i < cnt a s)%nat.
Proof.
  intros S. induction S as [|x s S IH F]; intros i a H; [destruct i; discriminate|]. rewrite Forall_forall in F. unfold cnt. cbn [filter].
  destruct i as [|i].
  - cbn in H. injection H as ->. rewrite (proj2 (Qle_bool_iff a a)) by lra. cbn. lia.
  - cbn in H. specialize (IH i a H). pose proof (F a (nth_error_In _ _ H)) as L. rewrite (proj2 (Qle_bool_iff x a)) by exact L. cbn. unfold cnt in IH. lia.
Qed.
Lemma cnt_none s v : (forall x, In x s -> v < x) -> cnt v s = 0%nat.
Proof.
  intros H. unfold cnt. induction s as [|x s IH]; [reflexivity|]. cbn [filter]. rewrite (proj2 (Qle_bool_false x v)) by (apply H; left; reflexivity).
  apply IH. intros y Hy. apply H. right. exact Hy.
Qed.
Lemma cnt_high s : non_decreasing s -> forall i b v, nth_error s i = Some b -> v < b -> (cnt v s <= i)%nat.
Proof.
  intros S. induction S as [|x s S IH F]; intros i b v H L; [destruct i; discriminate|]. destruct i as [|i].
  - cbn in H. injection H as ->. rewrite cnt_none; [lia|]. intros y [<-|Hy]; [exact L|]. rewrite Forall_forall in F. specialize (F y Hy). lra.
  - cbn in H. specialize (IH i b v H L). unfold cnt in *. cbn [filter]. destruct (Qle_bool x v); cbn [List.length]; lia.
Qed.
Lemma sorted_same s t : Permutation s t -> non_decreasing s -> non_decreasing t ->
  forall i a, nth_error s i = Some a -> exists b, nth_error t i = Some b /\ a == b.
Proof.
  intros P S T i a H.
  assert (L : (i < List.length t)%nat) by (rewrite <- (Permutation_length P); apply nth_error_Some; congruence).
  destruct (nth_error t i) as [b|] eqn:E; [|apply nth_error_None in E; lia]. exists b. split; [reflexivity|].
  destruct (Q_dec a b) as [[C|C]|C]; [| |exact C]; exfalso.
  - pose proof (cnt_low s S i a H) as A. pose proof (cnt_high t T i b a E C) as B. rewrite (cnt_perm a s t P) in A. lia.
  - pose proof (cnt_low t T i b E) as A. pose proof (cnt_high s S i a b H C) as B. rewrite (cnt_perm b s t P) in B. lia.
Qed.

(* ---- the table of ranks ---- *)
Lemma seg_at a b p : seg a b p = snd a + (p - fst a) * ((snd b - snd a) / (fst b - fst a)).
Proof. reflexivity. Qed.
Lemma lin_two a b r p : lin_interp a (b :: r) p = match r with [] => seg a b p | _ => if Qle_bool p (fst b) then seg a b p else lin_interp b r p end.
Proof. reflexivity. Qed.
Lemma lin_seg r : forall a i x y p, inc_table (a :: r) -> nth_error (a :: r) i = Some x -> nth_error (a :: r) (S i) = Some y ->
  fst x <= p -> p <= fst y -> lin_interp a r p == seg x y p.
Proof.
  induction r as [|b r IH]; intros a i x y p T Hx Hy L1 L2; [destruct i as [|[|i]]; discriminate|].
  inversion T as [|? ? T1 F]; subst. rewrite Forall_forall in F. rewrite lin_two.
  destruct i as [|i].
  - cbn in Hx, Hy. injection Hx as ->. injection Hy as ->. destruct r; [reflexivity|]. rewrite (proj2 (Qle_bool_iff _ _)) by exact L2. reflexivity.
  - cbn in Hx. destruct r as [|c r]; [destruct i as [|[|i]]; discriminate|].
    destruct (Qle_bool p (fst b)) eqn:E; [|apply (IH b i x y p T1 Hx Hy L1 L2)]. apply Qle_bool_iff in E.
    assert (G : lin_interp b (c :: r) p == seg x y p) by (apply (IH b i x y p T1 Hx Hy L1 L2)).
    rewrite <- G. inversion T1 as [|? ? T2 F2]; subst. rewrite Forall_forall in F2.
    assert (B : fst b <= fst x).
    { destruct i as [|i]; [cbn in Hx; injection Hx as ->; lra|]. cbn in Hx. apply nth_error_In in Hx. destruct (F2 _ Hx). lra. }
    assert (Ep : p == fst b) by lra.
    rewrite (seg_compat a b p (fst b) Ep), (lin_interp_compat b (c :: r) p (fst b) Ep).
    rewrite (lin_at_start b (c :: r) T1). apply seg_right. destruct (F b (or_introl eq_refl)). assumption.
Qed.
Lemma lin_find r : forall a p, inc_table (a :: r) -> r <> [] -> fst a <= p -> p <= fst (last r a) ->
  exists i x y, nth_error (a :: r) i = Some x /\ nth_error (a :: r) (S i) = Some y /\ fst x <= p /\ p <= fst y.
Proof.
  induction r as [|b r IH]; intros a p T N L1 L2; [congruence|]. destruct (Qlt_le_dec (fst b) p) as [C|C].
  - destruct r as [|c r]; [cbn in L2; lra|]. inversion T as [|? ? T1 F]; subst.
    assert (EL : last (b :: c :: r) a = last (c :: r) b) by (rewrite last_cons_ne; apply last_default). rewrite EL in L2.
    destruct (IH b p T1 ltac:(discriminate) ltac:(lra) L2) as (i & x & y & A & B & D & E). exists (S i), x, y. repeat split; assumption.
  - exists 0%nat, a, b. repeat split; assumption.
Qed.

(* what a table says, with the sample already sorted *)
Definition percentile_s (s : list Q) (p v : Q) : Prop :=
  let n := List.length s in
  (exists a, nth_error s 0 = Some a /\ p <= rank n 0 /\ v == a) \/
  (exists a, nth_error s (n - 1) = Some a /\ rank n (n - 1) <= p /\ v == a) \/
  (exists i a b, nth_error s i = Some a /\ nth_error s (S i) = Some b /\ rank n i <= p /\ p <= rank n (S i) /\
     v == a + (p - rank n i) * ((b - a) / (rank n (S i) - rank n i))).
Lemma percentile_move s t p v : Permutation s t -> non_decreasing s -> non_decreasing t -> percentile_s s p v -> percentile_s t p v.
Proof.
  intros P S T H. unfold percentile_s in *. cbn zeta in *. rewrite (Permutation_length P) in H.
  destruct H as [(a & A & B & C)|[(a & A & B & C)|(i & a & b & A & B & C & D & E)]].
  - left. destruct (sorted_same s t P S T _ _ A) as (a' & A' & Q'). exists a'. split; [exact A'|]. split; [exact B|]. rewrite C; exact Q'.
  - right; left. destruct (sorted_same s t P S T _ _ A) as (a' & A' & Q'). exists a'. split; [exact A'|]. split; [exact B|]. rewrite C; exact Q'.
  - right; right. destruct (sorted_same s t P S T _ _ A) as (a' & A' & Q'). destruct (sorted_same s t P S T _ _ B) as (b' & B' & R').
    exists i, a', b'. split; [exact A'|]. split; [exact B'|]. split; [exact C|]. split; [exact D|]. rewrite E, Q', R'. reflexivity.
Qed.

Lemma rank_nth n k (s : list Q) i (a : Q) : nth_error s i = Some a ->
  nth_error (combine (map (p_rank n) (seq k (List.length s))) s) i = Some (p_rank n (k + i), a).
Proof.
  revert k i; induction s as [|x s IH]; intros k i H; [destruct i; discriminate|]. destruct i as [|i]; cbn in *.
  - injection H as ->. rewrite Nat.add_0_r. reflexivity.
  - rewrite (IH (S k) i H). do 2 f_equal. f_equal. lia.
Qed.
Lemma matlab_table s : s <> [] -> non_decreasing s ->
  exists f, (forall ps, matlab_percentiles s ps = Ok (map f ps)) /\ (forall p q, p <= q -> f p <= f q) /\
    forall p v, percentile_s s p v <-> v == f p.
Proof.
  intros N ND. set (n := List.length s). assert (Hn : (0 < n)%nat) by (unfold n; destruct s; [congruence|cbn; lia]).
  pose proof (rank_table_sorted n 0 s Hn ND) as T. fold n in T.
  assert (NT : forall i a, nth_error s i = Some a -> nth_error (combine (map (p_rank n) (seq 0 n)) s) i = Some (p_rank n i, a))
    by (intros i a H; exact (rank_nth n 0 s i a H)).
  assert (LT : List.length (combine (map (p_rank n) (seq 0 n)) s) = n) by (rewrite combine_length, map_length, seq_length; unfold n; apply Nat.min_id).
  assert (BK : forall i x, nth_error (combine (map (p_rank n) (seq 0 n)) s) i = Some x -> exists a, nth_error s i = Some a /\ x = (p_rank n i, a)).
  { intros i x H. assert (L : (i < n)%nat) by (rewrite <- LT; apply nth_error_Some; congruence).
    destruct (nth_error s i) as [a|] eqn:E; [|apply nth_error_None in E; fold n in E; lia]. exists a. split; [reflexivity|]. rewrite (NT i a E) in H. congruence. }
  unfold matlab_percentiles. fold n.
  destruct (combine (map (p_rank n) (seq 0 n)) s) as [|a r] eqn:E; [cbn in LT; lia|].
  exists (np_interp a r). split; [reflexivity|]. split; [intros; apply np_interp_mono; assumption|].
  destruct (BK 0%nat a eq_refl) as (s0 & H0 & Ea).
  assert (EL : nth_error (a :: r) (n - 1) = Some (last r a)).
  { replace (last r a) with (last (a :: r) a) by (destruct r; [reflexivity|rewrite last_cons_ne; reflexivity]).
    rewrite last_nth, LT. apply nth_error_nth'. rewrite LT. lia. }
  destruct (BK _ _ EL) as (s1 & H1 & El).
  assert (V0 : forall p, p <= rank n 0 -> np_interp a r p == s0).
  { intros p Hp. unfold np_interp. rewrite Ea. cbn [fst snd]. rewrite (proj2 (Qle_bool_iff _ _)) by exact Hp. reflexivity. }
  assert (V1 : forall p, rank n (n - 1) <= p -> np_interp a r p == s1).
  { intros p Hp. unfold np_interp. rewrite El. cbn [fst snd]. rewrite (proj2 (Qle_bool_iff _ p)) by exact Hp.
    destruct (Qle_bool p (fst a)) eqn:C; [|reflexivity]. apply Qle_bool_iff in C. rewrite Ea in C |- *. cbn [fst snd] in C |- *.
    assert (Z : (n - 1 = 0)%nat).
    { destruct (Nat.eq_dec (n - 1) 0) as [Z|Z]; [exact Z|]. exfalso. pose proof (p_rank_lt n 0 (n - 1) Hn ltac:(lia)) as W. unfold rank in Hp. unfold p_rank, qnat in *. lra. }
    rewrite Z in H1. assert (X : s1 = s0) by congruence. rewrite X. reflexivity. }
  assert (VM : forall i u v p, nth_error s i = Some u -> nth_error s (S i) = Some v -> rank n i <= p -> p <= rank n (S i) ->
     np_interp a r p == u + (p - rank n i) * ((v - u) / (rank n (S i) - rank n i))).
  { intros i u v p Hu Hv L1 L2.
    assert (SG : lin_interp a r p == u + (p - rank n i) * ((v - u) / (rank n (S i) - rank n i)))
      by (exact (lin_seg r a i (p_rank n i, u) (p_rank n (S i), v) p T (NT i u Hu) (NT (S i) v Hv) L1 L2)).
    unfold np_interp. destruct (Qle_bool p (fst a)) eqn:C.
    - apply Qle_bool_iff in C. rewrite <- SG. rewrite Ea in C. cbn [fst] in C.
      assert (EP : p == fst a).
      { rewrite Ea. cbn [fst]. destruct i as [|i]; [unfold rank in L1; unfold p_rank, qnat in *; lra|].
        pose proof (p_rank_lt n 0 (S i) Hn ltac:(lia)) as W. unfold rank in L1. unfold p_rank, qnat in *. lra. }
      rewrite (lin_interp_compat a r p (fst a) EP). symmetry. apply lin_at_start. exact T.
    - destruct (Qle_bool (fst (last r a)) p) eqn:D; [|exact SG]. apply Qle_bool_iff in D. rewrite <- SG.
      assert (Li : (S i < n)%nat) by (apply nth_error_Some; congruence).
      assert (EP : p == fst (last r a)).
      { rewrite El in D |- *. cbn [fst] in D |- *. destruct (Nat.eq_dec (S i) (n - 1)) as [Z|Z]; [rewrite <- Z in D |- *; unfold rank in L2; unfold p_rank, qnat in *; lra|].
        pose proof (p_rank_lt n (S i) (n - 1) Hn ltac:(lia)) as W. unfold rank in L2. unfold p_rank, qnat in *. lra. }
      rewrite (lin_interp_compat a r p _ EP). symmetry. apply lin_node; [exact T|]. apply last_in. }
  intros p v. unfold percentile_s. cbn zeta. fold n. split.
  - intros [(u & A & B & C)|[(u & A & B & C)|(i & u & w & A & B & C & D & G)]].
    + rewrite C, (V0 p B). assert (X : u = s0) by congruence. rewrite X. reflexivity.
    + rewrite C, (V1 p B). assert (X : u = s1) by congruence. rewrite X. reflexivity.
    + rewrite G, (VM i u w p A B C D). reflexivity.
  - intros Hv. destruct (Qlt_le_dec (rank n 0) p) as [A|A]; [|left; exists s0; repeat split; [exact H0|exact A|rewrite Hv; apply V0; exact A]].
    destruct (Qlt_le_dec p (rank n (n - 1))) as [B|B]; [|right; left; exists s1; repeat split; [exact H1|exact B|rewrite Hv; apply V1; exact B]].
    right; right.
    assert (NR : r <> []).
    { intros Z. rewrite Z in El. cbn in El. assert (X : p_rank n 0 = p_rank n (n - 1)) by congruence. unfold rank in A, B. unfold p_rank, qnat in X. rewrite <- X in B. lra. }
    destruct (lin_find r a p T NR) as (i & x & y & A1 & A2 & A3 & A4).
    { rewrite Ea. cbn [fst]. apply Qlt_le_weak. exact A. }
    { rewrite El. cbn [fst]. apply Qlt_le_weak. exact B. }
    destruct (BK _ _ A1) as (u & U1 & U2). destruct (BK _ _ A2) as (w & W1 & W2). subst x y. cbn [fst] in A3, A4.
    exists i, u, w. repeat split; [exact U1|exact W1|exact A3|exact A4|]. rewrite Hv. apply VM; assumption.
Qed.

(* ---- ties ---- *)
Lemma fo_short last l : inc_table l -> List.length (first_occurrences last l) <> List.length l ->
  (exists w x, last = Some w /\ In x l /\ snd x == w) \/ (exists x y, In x l /\ In y l /\ fst x < fst y /\ snd x == snd y).
Proof.
  intros T. revert last. induction T as [|[p v] l T IH F]; intros last H; [cbn in H; congruence|]. cbn [first_occurrences] in H.
  rewrite Forall_forall in F.
  destruct last as [w|].
  - destruct (Qeq_bool v w) eqn:E.
    + left. exists w, (p, v). repeat split; [left; reflexivity|]. apply Qeq_bool_iff in E. exact E.
    + cbn [List.length] in H. destruct (IH (Some v) ltac:(lia)) as [(w' & x & A & B & C)|(x & y & A & B & C)].
      * right. assert (v = w') by congruence. subst w'. exists (p, v), x. repeat split; [left; reflexivity|right; exact B|apply (F x B)|symmetry; exact C].
      * right. exists x, y. repeat split; try (right; assumption); apply C.
  - cbn [List.length] in H. destruct (IH (Some v) ltac:(lia)) as [(w' & x & A & B & C)|(x & y & A & B & C)].
    + right. assert (v = w') by congruence. subst w'. exists (p, v), x. repeat split; [left; reflexivity|right; exact B|apply (F x B)|symmetry; exact C].
    + right. exists x, y. repeat split; try (right; assumption); apply C.
Qed.
Lemma combine_map_in (f : Q -> Q) ps x : In x (combine ps (map f ps)) <-> In (fst x) ps /\ snd x = f (fst x).
Proof.
  induction ps as [|p ps IH]; cbn; [tauto|]. rewrite IH. destruct x as [u v]. cbn. split.
  - intros [H|[H1 H2]]; [injection H as <- <-; auto|auto].
  - intros [[<-|H] E]; [left; rewrite E; reflexivity|right; auto].
Qed.
Lemma strict_pair l x y : strict_table l -> In x l -> In y l -> fst x < fst y -> snd x < snd y.
Proof.
  intros T. induction T as [|a l T IH F]; [intros []|]. rewrite Forall_forall in F. intros [<-|Hx] [<-|Hy] L; [lra| | |].
  - apply (F y Hy).
  - destruct (F x Hx). lra.
  - apply IH; assumption.
Qed.
Lemma fo_one ps f : increasing ps -> (forall p q, p <= q -> f p <= f q) -> ps <> [] ->
  ((1 < List.length (first_occurrences None (combine ps (map f ps))))%nat <-> ~ f (hd 0 ps) == f (last ps 0)).
Proof.
  intros S M N. pose proof (inc_table_combine ps f S M) as T. set (l := combine ps (map f ps)) in *.
  destruct (fo_strict None l T Logic.I) as [US _].
  assert (Hl : l <> []) by (unfold l; destruct ps; [congruence|discriminate]).
  pose proof (fo_last None l (0, 0) T Hl Logic.I) as UL.
  assert (Llast : List.last l (0, 0) = (last ps 0, f (last ps 0))).
  { unfold l. rewrite combine_last by (rewrite map_length; reflexivity). f_equal. apply last_map_ne. exact N. }
  rewrite Llast in UL. cbn [snd] in UL.
  destruct ps as [|p0 ps0]; [congruence|]. cbn [hd].
  assert (Eu : first_occurrences None l = (p0, f p0) :: first_occurrences (Some (f p0)) (combine ps0 (map f ps0))) by reflexivity.
  rewrite Eu in *. destruct (first_occurrences (Some (f p0)) (combine ps0 (map f ps0))) as [|y tl].
  - cbn [List.length]. cbn [List.last snd] in UL. split; [lia|]. intros H. exfalso. apply H. exact UL.
  - cbn [List.length]. split; [|lia]. intros _ H. rewrite last_cons_ne in UL.
    inversion US as [|? ? _ F]; subst. rewrite Forall_forall in F. destruct (F _ (last_In (y :: tl) (0, 0) ltac:(discriminate))) as [_ G]. cbn [snd] in G. lra.
Qed.
Lemma unique_condition ps f : increasing ps -> (forall p q, p <= q -> f p <= f q) -> ps <> [] ->
  let u := first_occurrences None (combine ps (map f ps)) in
  (negb (Nat.eqb (List.length u) (List.length ps)) && Nat.ltb 1 (List.length u) = true <->
   ~ f (hd 0 ps) == f (last ps 0) /\ exists p q, In p ps /\ In q ps /\ p < q /\ f p == f q).
Proof.
  intros S M N. cbn zeta. pose proof (fo_one ps f S M N) as O1. pose proof (inc_table_combine ps f S M) as T.
  set (l := combine ps (map f ps)) in *.
  assert (Ll : List.length l = List.length ps) by (unfold l; rewrite combine_length, map_length, Nat.min_id; reflexivity).
  rewrite andb_true_iff, negb_true_iff, Nat.eqb_neq, Nat.ltb_lt, O1. split.
  - intros [A B]. split; [exact B|]. rewrite <- Ll in A. destruct (fo_short None l T A) as [(w & x & C & _)|(x & y & C & D & E & F)]; [discriminate|].
    apply combine_map_in in C as [C1 C2]. apply combine_map_in in D as [D1 D2]. exists (fst x), (fst y). rewrite <- C2, <- D2. auto.
  - intros [A (p & q & Hp & Hq & L & E)]. split; [|exact A]. intros C. rewrite <- Ll in C. apply fo_full in C.
    destruct (fo_strict None l T Logic.I) as [US _]. rewrite C in US.
    assert (X : snd (p, f p) < snd (q, f q)) by (apply (strict_pair l (p, f p) (q, f q) US); [apply combine_map_in; auto|apply combine_map_in; auto|exact L]).
    cbn in X. lra.
Qed.

Lemma percentile_of_sorted data p v : percentile_of data p v <-> percentile_s (q_sort data) p v.
Proof.
  split.
  - intros (s & P & S & H). apply (percentile_move s); [|exact S|apply q_sort_sorted|exact H].
    apply Permutation_trans with (1 := P). apply Permutation_sym, q_sort_perm.
  - intros H. exists (q_sort data). split; [apply q_sort_perm|]. split; [apply q_sort_sorted|exact H].
Qed.
Lemma sort_ne data : data <> [] -> q_sort data <> [].
Proof. intros N E. apply N. apply Permutation_nil. rewrite <- E. apply q_sort_perm. Qed.
Lemma values_raise data ps : data <> [] -> percentile_list ps ->
  (percentile_values_seq AsList (q_sort data) ps = Err EType <-> tied data ps) /\
  (~ tied data ps -> percentile_values_seq AsList (q_sort data) ps = percentile_values (q_sort data) ps) /\
  (exists v, percentile_values (q_sort data) ps = Ok v).
Proof.
  intros N P. pose proof (sort_ne data N) as NS. destruct (percentile_list_hd ps P) as [H0 Hne].
  destruct (matlab_table (q_sort data) NS (q_sort_sorted data)) as (f & E & M & V).
  destruct (matlab_spec (q_sort data) ps NS (q_sort_sorted data)) as (f' & E' & _ & _ & F0 & F100).
  assert (Ef : map f ps = map f' ps) by (rewrite E in E'; congruence).
  destruct (percentile_values_spec (q_sort data) ps NS (q_sort_sorted data) P) as (g & Eg & _).
  destruct P as (PS & _ & H100).
  assert (Eh : f (hd 0 ps) = hd 0 (q_sort data)).
  { rewrite <- (F0 (hd 0 ps)) by lra. destruct ps as [|p ps]; [congruence|]. cbn in Ef |- *. congruence. }
  assert (El : f (last ps 0) = last (q_sort data) 0).
  { rewrite <- (F100 (last ps 0)) by lra. rewrite <- (last_map_ne f ps 0 0 Hne), <- (last_map_ne f' ps 0 0 Hne), Ef. reflexivity. }
  pose proof (unique_condition ps f PS M Hne) as UC. cbn zeta in UC.
  assert (TD : (~ f (hd 0 ps) == f (last ps 0) /\ exists p q, In p ps /\ In q ps /\ p < q /\ f p == f q) <-> tied data ps).
  { rewrite Eh, El, (sorted_const _ (q_sort_sorted data)), non_constant_sort. unfold tied. split; intros [A (p & q & B)]; split; try exact A.
    - exists p, q, (f p). destruct B as (B1 & B2 & B3 & B4). repeat split; try assumption; apply percentile_of_sorted, V; [reflexivity|exact B4].
    - destruct B as (v & B1 & B2 & B3 & B4 & B5). exists p, q. repeat split; try assumption.
      apply percentile_of_sorted, V in B4. apply percentile_of_sorted, V in B5. rewrite <- B4, <- B5. reflexivity. }
  rewrite <- TD, <- UC. unfold percentile_values_seq. rewrite E. cbn [bindR].
  split; [|split].
  - unfold unique_percentiles_seq. destruct (_ && _); split; congruence.
  - intros H. unfold percentile_values. rewrite E. cbn [bindR]. unfold unique_percentiles_seq, unique_percentiles.
    destruct (_ && _); [congruence|reflexivity].
  - exists (map g ps). exact Eg.
Qed.
Lemma tied_dec data ps : data <> [] -> percentile_list ps -> tied data ps \/ ~ tied data ps.
Proof.
  intros N P. destruct (values_raise data ps N P) as (A & _). rewrite <- A. destruct (percentile_values_seq AsList (q_sort data) ps) as [v|[]]; try (right; discriminate). left; reflexivity.
Qed.

(* ---- which errors the edges raise ---- *)
Lemma spline_type xs ys : spline xs ys <> Err EType.
Proof. unfold spline. destruct (_ && _); [|discriminate]. destruct (combine xs ys) as [|? [|? ?]]; discriminate. Qed.
Lemma pv_type d ps : percentile_values d ps <> Err EType.
Proof.
  unfold percentile_values, matlab_percentiles. destruct (combine _ d) as [|a r]; [discriminate|]. cbn [bindR]. unfold unique_percentiles.
  destruct (_ && _); [|discriminate]. match goal with |- bindR (spline ?a ?b) _ <> _ => pose proof (spline_type a b); destruct (spline a b) end; cbn [bindR]; congruence.
Qed.
Lemma slope_type x y : edge_slope x y <> Err EType.
Proof.
  unfold edge_slope. assert (L : forall a b, lstsq1 a b <> Err EType) by (intros a b; unfold lstsq1; destruct (Nat.eqb _ _); discriminate).
  destruct (Nat.eqb _ _); [cbn [bindR]; apply L|]. unfold resample_ecdf. destruct (List.length y) as [|[|m]]; cbn [bindR]; [apply L|discriminate|].
  pose proof (pv_type x (uniform_percentiles (S m))). destruct (percentile_values x (uniform_percentiles (S m))); cbn [bindR]; [apply L|congruence].
Qed.
Lemma edges_type x y xp yp : linear_edge_scaling x y xp yp <> Err EType.
Proof.
  unfold linear_edge_scaling. match goal with |- bindR (edge_slope ?a ?b) _ <> _ => pose proof (slope_type a b); destruct (edge_slope a b) end; cbn [bindR]; [|congruence].
  match goal with |- bindR (edge_slope ?a ?b) _ <> _ => pose proof (slope_type a b); destruct (edge_slope a b) end; cbn [bindR]; congruence.
Qed.

(* ---- the bins ---- *)
Lemma in_diffs l d : In d (diffs l) -> exists i a b, nth_error l i = Some a /\ nth_error l (S i) = Some b /\ d = b - a.
Proof.
  induction l as [|x l IH]; [intros []|]. destruct l as [|y l]; [intros []|]. intros [<-|H].
  - exists 0%nat, x, y. repeat split.
  - destruct (IH H) as (i & a & b & A & B & C). exists (S i), a, b. repeat split; assumption.
Qed.
Lemma kept_dec o ps n : percentile_list ps ->
  exists w, q_minimum (diffs ps) = Ok w /\
    (bins_kept o ps n <-> match c_minobs o with None => True | Some m => Qle_bool (inject_Z m) (qnat n * w / 100) = true end).
Proof.
  intros P. pose proof (percentile_list_length ps P) as L2.
  assert (Dn : diffs ps <> []) by (destruct ps as [|a [|b r]]; cbn in *; try lia; discriminate).
  destruct (q_minimum_spec _ Dn) as (w & E & (v & Hv & Ev) & M). exists w. split; [exact E|]. unfold bins_kept. destruct (c_minobs o) as [m|]; [|tauto].
  rewrite Qle_bool_iff. pose proof (qnat_nonneg n) as Pn. unfold qnat in *. split.
  - intros H. destruct (in_diffs ps v Hv) as (i & a & b & A & B & C). specialize (H i a b A B). rewrite <- Ev, C. exact H.
  - intros H i a b A B. pose proof (M _ (diffs_in _ _ _ _ A B)). apply Qle_trans with (1 := H). unfold Qdiv. change (/ 100)%Q with (1 # 100)%Q. nra.
Qed.
Lemma linreg_type x y : linreg_percentiles x y <> Err EType.
Proof. unfold linreg_percentiles, lstsq1. destruct (Nat.eqb _ _); cbn [bindR]; discriminate. Qed.
Lemma after_array_type o xu yu ps nb : after AsArray o xu yu ps nb <> Err EType.
Proof.
  unfold after. destruct (_ && _); [apply linreg_type|]. change (percentile_values_seq AsArray) with percentile_values.
  pose proof (pv_type (q_sort xu) ps). destruct (percentile_values (q_sort xu) ps) as [xp|]; cbn [bindR]; [|congruence].
  pose proof (pv_type (q_sort yu) ps). destruct (percentile_values (q_sort yu) ps) as [yp|]; cbn [bindR]; [|congruence].
  destruct (c_linear_edges o); [|discriminate]. pose proof (edges_type (q_sort xu) (q_sort yu) xp yp).
  destruct (linear_edge_scaling (q_sort xu) (q_sort yu) xp yp); cbn [mapR bindR]; congruence.
Qed.
Lemma mapR_err {A B} (f : A -> B) r e : mapR f r = Err e <-> r = Err e.
Proof. destruct r; cbn; split; congruence. Qed.

Lemma list_raises o ps X Y : c_percentiles o = Some ps -> percentile_list ps ->
  fit_source o X Y <> [] -> fit_reference o X Y <> [] ->
  (c_linear_edges o = false \/ (3 <= List.length ps)%nat) ->
  (cdf_fit_seq AsList o X Y = Err EType <->
   bins_kept o ps (Nat.min (List.length (fit_source o X Y)) (List.length (fit_reference o X Y))) /\
   (tied (fit_source o X Y) ps \/ tied (fit_reference o X Y) ps)).
Proof.
  intros Ep P NX NY D. set (xu := fit_source o X Y) in *. set (yu := fit_reference o X Y) in *. set (n := Nat.min (List.length xu) (List.length yu)).
  rewrite fit_seq_unfold. cbn zeta. fold xu. fold yu. fold n.
  destruct (kept_dec o ps n P) as (w & Ew & K). unfold calc_percentiles_seq. rewrite Ep, Ew. cbn [bindR]. rewrite K.
  assert (CORE : forall nb, nb = (List.length ps - 1)%nat -> mapR (packed o) (after AsList o xu yu ps nb) = Err EType <-> tied xu ps \/ tied yu ps).
  { intros nb Enb. rewrite mapR_err. destruct (values_raise xu ps NX P) as (A1 & A2 & (vx & Ax)). destruct (values_raise yu ps NY P) as (B1 & B2 & (vy & By)).
    unfold after. replace (Nat.eqb nb 1 && c_linear_edges o) with false.
    2:{ destruct D as [D|D]; [rewrite D, andb_false_r; reflexivity|]. destruct (Nat.eqb_spec nb 1); [lia|reflexivity]. }
    destruct (tied_dec xu ps NX P) as [TX|TX].
    - rewrite (proj2 A1 TX). cbn [bindR]. tauto.
    - rewrite (A2 TX), Ax. cbn [bindR]. destruct (tied_dec yu ps NY P) as [TY|TY].
      + rewrite (proj2 B1 TY). cbn [bindR]. tauto.
      + rewrite (B2 TY), By. cbn [bindR]. destruct (c_linear_edges o); [|split; [discriminate|tauto]].
        rewrite mapR_err. split; [intros H; exfalso; exact (edges_type _ _ _ _ H)|tauto]. }
  destruct (c_minobs o) as [m|]; [|rewrite CORE by reflexivity; tauto].
  destruct (Qle_bool (inject_Z m) (qnat n * w / 100)); [rewrite CORE by reflexivity; tauto|].
  rewrite mapR_err. split; [intros H; exfalso; exact (after_array_type _ _ _ _ _ H)|intros [H _]; discriminate].
Qed.

(* ---- different observations ---- *)
Definition all_different (l : list Q) : Prop := forall i j a b, nth_error l i = Some a -> nth_error l j = Some b -> a == b -> i = j.
Lemma different_nodup l : all_different l -> NoDup (map Qred l).
Proof.
  intros H. apply NoDup_nth_error. intros i j Li E. rewrite map_length in Li. rewrite !nth_error_map in E.
  destruct (nth_error l i) as [a|] eqn:A; [|apply nth_error_None in A; lia]. destruct (nth_error l j) as [b|] eqn:B; [|discriminate].
  cbn in E. apply (H i j a b A B). rewrite <- (Qred_correct a), <- (Qred_correct b). assert (X : Qred a = Qred b) by congruence. rewrite X. reflexivity.
Qed.
Lemma nodup_increasing s : non_decreasing s -> NoDup (map Qred s) -> increasing s.
Proof.
  intros S. induction S as [|a s S IH F]; intros N; [constructor|]. cbn in N. inversion N as [|? ? N1 N2]; subst. constructor; [apply IH; exact N2|].
  rewrite Forall_forall in *. intros x Hx. specialize (F x Hx). destruct (Qlt_le_dec a x) as [C|C]; [exact C|]. exfalso. apply N1.
  assert (E : a == x) by lra. rewrite (Qred_complete _ _ E). apply in_map. exact Hx.
Qed.
Lemma strict_combine ks (s : list Q) : increasing ks -> increasing s -> strict_table (combine ks s).
Proof.
  intros S. revert s. induction S as [|k ks S IH F]; intros s T; [constructor|]. destruct s as [|v s]; [constructor|]. cbn. inversion T as [|? ? T1 G]; subst.
  constructor; [apply IH; exact T1|]. rewrite Forall_forall in *. intros [x y] H. cbn. split; [apply F; apply in_combine_l in H; exact H|apply G; apply in_combine_r in H; exact H].
Qed.
Lemma ranks_increasing n k m : (0 < n)%nat -> increasing (map (p_rank n) (seq k m)).
Proof.
  intros Hn. revert k; induction m as [|m IH]; intros k; cbn; constructor; [apply IH|]. rewrite Forall_forall. intros x H. apply in_map_iff in H as (i & <- & Hi).
  apply in_seq in Hi. apply p_rank_lt; [exact Hn|lia].
Qed.
Lemma clampq_strict lo hi p q : lo < hi -> p < q -> lo < q -> p < hi -> clampq lo hi p < clampq lo hi q.
Proof.
  intros H0 H1 H2 H3. unfold clampq. rewrite (proj2 (Qle_bool_false q lo)) by exact H2. rewrite (proj2 (Qle_bool_false hi p)) by exact H3.
  destruct (Qle_bool p lo); destruct (Qle_bool hi q); lra.
Qed.
Lemma different_values data ps : all_different data ->
  (forall p q, In p ps -> In q ps -> p < q -> rank (List.length data) 0 < q /\ p < rank (List.length data) (List.length data - 1)) ->
  ~ tied data ps.
Proof.
  intros AD H [NC (p & q & v & Hp & Hq & L & A & B)]. destruct (H p q Hp Hq L) as [R1 R2].
  apply percentile_of_sorted in A. apply percentile_of_sorted in B.
  assert (N : data <> []) by (intros E; subst; destruct NC as (u & _ & [] & _)).
  assert (I : increasing (q_sort data)).
  { apply nodup_increasing; [apply q_sort_sorted|]. apply (Permutation_NoDup (l := map Qred data)); [apply Permutation_map, Permutation_sym, q_sort_perm|apply different_nodup; exact AD]. }
  destruct (matlab_table (q_sort data) (sort_ne data N) (q_sort_sorted data)) as (f & E & M & V).
  apply V in A. apply V in B.
  specialize (E [p; q]). unfold matlab_percentiles in E. rewrite q_sort_length in E. set (n := List.length data) in *.
  assert (Hn : (0 < n)%nat) by (unfold n; destruct data; [congruence|cbn; lia]).
  pose proof (strict_combine _ _ (ranks_increasing n 0 n Hn) I) as T.
  pose proof (fun i a => rank_nth n 0 (q_sort data) i a) as NT. rewrite q_sort_length in NT. fold n in NT.
  assert (LT : List.length (combine (map (p_rank n) (seq 0 n)) (q_sort data)) = n) by (rewrite combine_length, map_length, seq_length, q_sort_length; apply Nat.min_id).
  destruct (combine (map (p_rank n) (seq 0 n)) (q_sort data)) as [|a r] eqn:EC; [discriminate|].
  cbn [map] in E. assert (Ep : np_interp a r p = f p) by congruence. assert (Eq : np_interp a r q = f q) by congruence.
  assert (FST : forall i x, nth_error (a :: r) i = Some x -> fst x = p_rank n i).
  { intros i x Hx. assert (Li : (i < n)%nat) by (rewrite <- LT; apply nth_error_Some; congruence).
    destruct (nth_error (q_sort data) i) as [u|] eqn:Eu; [|apply nth_error_None in Eu; rewrite q_sort_length in Eu; fold n in Eu; lia].
    rewrite (NT i u Eu) in Hx. injection Hx as <-. reflexivity. }
  assert (F0 : fst a = p_rank n 0) by (apply (FST 0%nat a); reflexivity).
  assert (EL : nth_error (a :: r) (n - 1) = Some (last r a)).
  { replace (last r a) with (last (a :: r) a) by (destruct r; [reflexivity|rewrite last_cons_ne; reflexivity]).
    rewrite last_nth, LT. apply nth_error_nth'. rewrite LT. lia. }
  pose proof (FST _ _ EL) as F1.
  assert (RL : p_rank n 0 < p_rank n (n - 1)).
  { apply p_rank_lt; [exact Hn|]. destruct NC as (u1 & u2 & U1 & U2 & U3). unfold n. destruct data as [|d1 [|d2 ds]]; [destruct U1| |cbn; lia].
    exfalso. destruct U1 as [<-|[]]. destruct U2 as [<-|[]]. apply U3. reflexivity. }
  destruct r as [|b r]; [cbn in F1; rewrite F0 in F1; rewrite F1 in RL; lra|].
  pose proof (np_interp_clamp a (b :: r) p (strict_inc _ T)) as C1. pose proof (np_interp_clamp a (b :: r) q (strict_inc _ T)) as C2.
  pose proof (lin_strict a b r _ _ T (clampq_strict (fst a) (fst (last (b :: r) a)) p q ltac:(rewrite F0, F1; exact RL) L
     ltac:(rewrite F0; exact R1) ltac:(rewrite F1; exact R2))) as W.
  rewrite <- C1, <- C2, Ep, Eq, <- A, <- B in W. lra.
Qed.
