(* Fitting and predicting: bins, edges, and the fitted mapping. *)
From Verif Require Import CdfSpec BaseProofs CdfProofs.
From Coq Require Import Lia Lqa ZifyBool ZifyNat.
Open Scope Q_scope.

(* ------------------------------------------------------------------- bins *)

Lemma uniform_length n : List.length (uniform_percentiles n) = Datatypes.S n.
Proof. unfold uniform_percentiles. rewrite map_length, seq_length. reflexivity. Qed.

Lemma uniform_nth n i p : nth_error (uniform_percentiles n) i = Some p -> p = qnat i / qnat n * 100 /\ (i <= n)%nat.
Proof.
  unfold uniform_percentiles. rewrite nth_error_map. intros H.
  destruct (nth_error (seq 0 (Datatypes.S n)) i) as [j|] eqn:E; [|discriminate]. cbn in H. injection H as <-.
  assert (i < Datatypes.S n)%nat by (rewrite <- (seq_length (Datatypes.S n) 0); apply nth_error_Some; congruence).
  apply nth_error_nth with (d := 0%nat) in E. rewrite seq_nth in E by assumption. split; [|lia]. subst j. reflexivity.
Qed.

Lemma uniform_increasing n : (1 <= n)%nat -> increasing (uniform_percentiles n).
Proof.
  intros Hn. unfold uniform_percentiles, increasing.
  assert (G : forall k s, StronglySorted Qlt (map (fun i => qnat i / qnat n * 100) (seq s k))).
  { induction k as [|k IH]; intros s; cbn; constructor; [apply IH|].
    apply Forall_forall. intros x Hx. apply in_map_iff in Hx as (i & <- & Hi). apply in_seq in Hi.
    pose proof (qnat_pos n ltac:(lia)) as P. pose proof (qnat_lt s i ltac:(lia)) as L.
    assert (0 < / qnat n) by (apply Qinv_lt_0_compat; exact P).
    unfold Qdiv. nra. }
  apply G.
Qed.

Lemma uniform_list n : (1 <= n)%nat -> percentile_list (uniform_percentiles n).
Proof.
  intros Hn. pose proof (qnat_pos n ltac:(lia)) as P. split; [apply uniform_increasing; exact Hn|]. split.
  - cbn. unfold qnat at 1. cbn. field. lra.
  - unfold uniform_percentiles. rewrite (last_map_ne _ _ 0 0%nat) by discriminate. rewrite last_seq. cbn. field. lra.
Qed.

Lemma uniform_spaced n : (1 <= n)%nat -> equally_spaced n (uniform_percentiles n).
Proof.
  intros Hn. split; [apply uniform_length|]. intros i p H. apply uniform_nth in H as [-> _].
  pose proof (qnat_pos n ltac:(lia)) as P. unfold qnat in *. field. lra.
Qed.

Lemma diffs_in l i a b : nth_error l i = Some a -> nth_error l (Datatypes.S i) = Some b -> In (b - a) (diffs l).
Proof.
  revert i; induction l as [|x l IH]; intros i Ha Hb; [destruct i; discriminate|].
  destruct l as [|y l]; [destruct i; discriminate|]. destruct i as [|i].
  - cbn in Ha, Hb. injection Ha as <-. injection Hb as <-. left; reflexivity.
  - right. apply (IH i); assumption.
Qed.

Lemma fold_Qmin l a : fold_left Qmin l a <= a /\ (forall x, In x l -> fold_left Qmin l a <= x) /\
  (fold_left Qmin l a == a \/ exists x, In x l /\ fold_left Qmin l a == x).
Proof.
  revert a; induction l as [|y l IH]; intros a; cbn [fold_left].
  - split; [lra|]. split; [intros x []|left; reflexivity].
  - destruct (IH (Qmin a y)) as (I1 & I2 & I3).
    pose proof (Q.le_min_l a y). pose proof (Q.le_min_r a y).
    split; [lra|]. split; [intros x [<-|Hx]; [lra|apply I2; exact Hx]|].
    destruct I3 as [I3|(x & Hx & I3)]; [|right; exists x; split; [right|]; assumption].
    destruct (Q.min_spec a y) as [[_ E]|[_ E]]; [left; rewrite I3; exact E|right; exists y; split; [left; reflexivity|rewrite I3; exact E]].
Qed.
Lemma fold_Qmax l a : a <= fold_left Qmax l a /\ (forall x, In x l -> x <= fold_left Qmax l a) /\
  (fold_left Qmax l a == a \/ exists x, In x l /\ fold_left Qmax l a == x).
Proof.
  revert a; induction l as [|y l IH]; intros a; cbn [fold_left].
  - split; [lra|]. split; [intros x []|left; reflexivity].
  - destruct (IH (Qmax a y)) as (I1 & I2 & I3).
    pose proof (Q.le_max_l a y). pose proof (Q.le_max_r a y).
    split; [lra|]. split; [intros x [<-|Hx]; [lra|apply I2; exact Hx]|].
    destruct I3 as [I3|(x & Hx & I3)]; [|right; exists x; split; [right|]; assumption].
    destruct (Q.max_spec a y) as [[_ E]|[_ E]]; [right; exists y; split; [left; reflexivity|rewrite I3; exact E]|left; rewrite I3; exact E].
Qed.

Lemma q_minimum_spec l : l <> [] -> exists m, q_minimum l = Ok m /\ is_min l m.
Proof.
  destruct l as [|a l]; [congruence|]. intros _. cbn. eexists. split; [reflexivity|].
  destruct (fold_Qmin l a) as (I1 & I2 & I3). split.
  - destruct I3 as [I3|(x & Hx & I3)]; [exists a; split; [left; reflexivity|symmetry; exact I3]|exists x; split; [right; exact Hx|symmetry; exact I3]].
  - intros v [<-|Hv]; [exact I1|apply I2; exact Hv].
Qed.
Lemma q_maximum_spec l : l <> [] -> exists m, q_maximum l = Ok m /\ is_max l m.
Proof.
  destruct l as [|a l]; [congruence|]. intros _. cbn. eexists. split; [reflexivity|].
  destruct (fold_Qmax l a) as (I1 & I2 & I3). split.
  - destruct I3 as [I3|(x & Hx & I3)]; [exists a; split; [left; reflexivity|symmetry; exact I3]|exists x; split; [right; exact Hx|symmetry; exact I3]].
  - intros v [<-|Hv]; [exact I1|apply I2; exact Hv].
Qed.

Lemma increasing_diffs l d : increasing l -> In d (diffs l) -> 0 < d.
Proof.
  intros S. induction S as [|x l S IH F]; intros H; [contradiction|].
  destruct l as [|y l]; [contradiction|]. destruct H as [<-|H]; [|apply IH; exact H].
  inversion F; subst. lra.
Qed.

Lemma percentile_list_length ps : percentile_list ps -> (2 <= List.length ps)%nat.
Proof.
  intros (S & H0 & H1). destruct ps as [|a [|b r]]; cbn in *; try lia; lra.
Qed.

Definition base_percentiles (o : cdf_opts) : list Q :=
  match c_percentiles o with None => uniform_percentiles (self_nbins o) | Some p => p end.
Lemma base_list o : sane_opts o -> percentile_list (base_percentiles o) /\
  (List.length (base_percentiles o) - 1)%nat = requested_bins o /\ (1 <= requested_bins o)%nat.
Proof.
  unfold sane_opts, base_percentiles, requested_bins, self_nbins. destruct (c_percentiles o) as [p|]; intros H.
  - pose proof (percentile_list_length p H). repeat split; try apply H; try reflexivity. lia.
  - split; [apply uniform_list; exact H|]. rewrite uniform_length. split; [lia|exact H].
Qed.

Lemma qnat_ratio n k m : (1 <= k)%nat -> (0 < m)%Z -> (Z.of_nat k <= Z.of_nat n / m)%Z ->
  inject_Z m <= qnat n * (100 / qnat k) / 100.
Proof.
  intros Hk Hm H. pose proof (qnat_pos k ltac:(lia)) as P.
  assert (E : qnat n * (100 / qnat k) / 100 == qnat n / qnat k) by (field; lra).
  rewrite E. apply Qle_shift_div_l; [exact P|].
  unfold qnat. rewrite <- inject_Z_mult. rewrite <- Zle_Qle.
  pose proof (Z.mul_div_le (Z.of_nat n) m Hm). nia.
Qed.

Lemma calc_spec o n : sane_opts o ->
  exists ps k, calc_percentiles o n = Ok (ps, k) /\ percentile_list ps /\ List.length ps = Datatypes.S k /\
    (1 <= k <= requested_bins o)%nat /\
    (c_percentiles o = None -> ps = uniform_percentiles k) /\
    (ps = base_percentiles o \/ ps = uniform_percentiles k) /\
    (forall m i a b, c_minobs o = Some m -> (m <= Z.of_nat n)%Z ->
       nth_error ps i = Some a -> nth_error ps (Datatypes.S i) = Some b ->
       inject_Z m <= qnat n * (b - a) / 100).
Proof.
  intros So. destruct (base_list o So) as (B & L & R). pose proof (percentile_list_length _ B) as L2.
  unfold calc_percentiles. fold (base_percentiles o).
  set (ps := base_percentiles o) in *.
  assert (Dn : diffs ps <> []) by (destruct ps as [|a [|b r]]; cbn in *; try lia; discriminate).
  destruct (q_minimum_spec _ Dn) as (mn & E & M1 & M2). rewrite E. cbn [bindR].
  assert (Pmn : 0 < mn).
  { destruct M1 as (v & Hv & <-). eapply increasing_diffs; [apply B|exact Hv]. }
  pose proof (qnat_nonneg n) as Pn.
  assert (Hbase : c_percentiles o = None -> ps = uniform_percentiles (List.length ps - 1)).
  { intros H. unfold ps, base_percentiles. rewrite H. rewrite uniform_length. f_equal. lia. }
  destruct (c_minobs o) as [m|] eqn:Em.
  - destruct (Qle_bool (inject_Z m) (qnat n * mn / 100)) eqn:Ec.
    + exists ps, (List.length ps - 1)%nat. split; [reflexivity|]. split; [exact B|]. split; [lia|]. split; [lia|].
      split; [exact Hbase|]. split; [left; reflexivity|].
      intros m' i a b Hm _ Ha Hb. injection Hm as <-. apply Qle_bool_iff in Ec.
      pose proof (M2 _ (diffs_in _ _ _ _ Ha Hb)).
      apply Qle_trans with (1 := Ec). unfold Qdiv. change (/ 100)%Q with (1 # 100)%Q. nra.
    + apply Qle_bool_false in Ec.
      assert (Hm : (0 < m)%Z).
      { apply Qle_bool_false in Ec. destruct (Z_lt_le_dec 0 m) as [G|G]; [exact G|]. exfalso.
        apply Qle_bool_false in Ec. rewrite Zle_Qle in G. unfold Qdiv in Ec. change (/ 100)%Q with (1 # 100)%Q in Ec.
        change (inject_Z 0) with 0 in G. nra. }
      set (n0 := Z.to_nat (Z.of_nat n / m)).
      assert (Hn0 : Z.of_nat n0 = (Z.of_nat n / m)%Z) by (unfold n0; rewrite Z2Nat.id; [reflexivity|apply Z.div_pos; lia]).
      set (k := if Nat.eqb n0 0 then 1%nat else if Nat.ltb (List.length ps - 1) n0 then (List.length ps - 1)%nat else n0).
      assert (Kr : (1 <= k <= requested_bins o)%nat).
      { unfold k. destruct (Nat.eqb_spec n0 0); [lia|]. destruct (Nat.ltb_spec (List.length ps - 1) n0); lia. }
      exists (uniform_percentiles k), k. split; [reflexivity|]. split; [apply uniform_list; lia|].
      split; [apply uniform_length|]. split; [exact Kr|]. split; [reflexivity|]. split; [right; reflexivity|].
      intros m' i a b Hm' Hle Ha Hb. injection Hm' as <-.
      apply uniform_nth in Ha as [-> _]. apply uniform_nth in Hb as [-> _].
      pose proof (qnat_pos k ltac:(lia)) as P.
      assert (Ed : qnat (Datatypes.S i) / qnat k * 100 - qnat i / qnat k * 100 == 100 / qnat k)
        by (rewrite qnat_S; field; lra).
      rewrite Ed. apply qnat_ratio; [lia|exact Hm|]. rewrite <- Hn0.
      assert (1 <= Z.of_nat n / m)%Z by (apply Z.div_le_lower_bound; lia).
      unfold k. destruct (Nat.eqb_spec n0 0); [lia|]. destruct (Nat.ltb_spec (List.length ps - 1) n0); lia.
  - exists ps, (List.length ps - 1)%nat. split; [reflexivity|]. split; [exact B|]. split; [lia|]. split; [lia|].
    split; [exact Hbase|]. split; [left; reflexivity|]. intros m i a b H. discriminate.
Qed.

(* ------------------------------------------------------------------ edges *)

Lemma dotq_nonneg l m : (forall x y, In (x, y) (combine l m) -> 0 <= x * y) -> 0 <= dotq l m.
Proof.
  unfold dotq. revert m; induction l as [|x l IH]; intros [|y m] H; cbn; try lra.
  pose proof (H x y (or_introl eq_refl)). specialize (IH m (fun a b h => H a b (or_intror h))). lra.
Qed.

Lemma lstsq1_nonneg l m a : (forall x y, In x l -> In y m -> 0 <= x * y) -> lstsq1 l m = Ok a -> 0 <= a.
Proof.
  intros H. unfold lstsq1. destruct (Nat.eqb _ _); [|discriminate]. intros E. injection E as <-.
  destruct (Qeq_bool (dotq l l) 0) eqn:E; [lra|]. apply Qeq_bool_neq in E.
  assert (0 <= dotq l l) by (apply dotq_nonneg; intros x y Hxy;
    assert (x = y) as -> by (clear - Hxy; induction l; cbn in Hxy; [contradiction|destruct Hxy as [Hxy|Hxy]; [congruence|auto]]); nra).
  assert (0 < dotq l l) by (apply Qle_lteq in H0 as [H0|H0]; [exact H0|exfalso; apply E; symmetry; exact H0]).
  assert (0 <= dotq l m) by (apply dotq_nonneg; intros x y Hxy; apply H;
    [apply in_combine_l in Hxy|apply in_combine_r in Hxy]; exact Hxy).
  apply Qle_shift_div_l; [assumption|lra].
Qed.

Lemma last_In {A} (l : list A) d : l <> [] -> In (last l d) l.
Proof. induction l as [|a l IH]; intros H; [congruence|]. destruct l as [|b l]; [left; reflexivity|right; apply IH; discriminate]. Qed.
Lemma hd_In {A} (l : list A) d : l <> [] -> In (hd d l) l.
Proof. destruct l; [congruence|left; reflexivity]. Qed.

Lemma Q_eq_dec' (a b : Q) : {a = b} + {a <> b}.
Proof. decide equality; [apply Pos.eq_dec|apply Z.eq_dec]. Defined.

Lemma resample_sign x n y s : non_decreasing x -> (s == 1 \/ s == -(1)) -> (forall v, In v x -> 0 <= s * v) ->
  resample_ecdf x n = Ok y -> forall v, In v y -> 0 <= s * v.
Proof.
  intros S Hs Hx. unfold resample_ecdf. destruct n as [|[|m]].
  - intros E; injection E as <-. intros v [].
  - discriminate.
  - intros E v Hv. destruct (list_eq_dec Q_eq_dec' x []) as [->|Hne].
    + cbn in E. discriminate.
    + pose proof (uniform_list (Datatypes.S m) ltac:(lia)) as P.
      destruct (percentile_values_spec x _ Hne S P) as (g & Eg & Mg & G0 & G1 & _).
      rewrite Eg in E. assert (Ey : y = map g (uniform_percentiles (Datatypes.S m))) by congruence.
      rewrite Ey in Hv. apply in_map_iff in Hv as (p & <- & Hp).
      pose proof (Mg _ _ (sorted_hd_min _ _ (proj1 P) Hp)) as L1.
      pose proof (Mg _ _ (sorted_last_max _ _ (proj1 P) Hp)) as L2. rewrite G0 in L1. rewrite G1 in L2.
      pose proof (Hx _ (hd_In x 0 Hne)). pose proof (Hx _ (last_In x 0 Hne)).
      destruct Hs as [Hs|Hs]; rewrite Hs in *; lra.
Qed.

Lemma sub_filter_sorted x c (P : Q -> bool) : non_decreasing x ->
  non_decreasing (map (fun v => v - c) (filter P x)).
Proof.
  intros S. induction S as [|a x S IH F]; cbn; [constructor|]. destruct (P a); [|exact IH]. cbn. constructor; [exact IH|].
  apply Forall_forall. intros v Hv. apply in_map_iff in Hv as (w & <- & Hw). apply filter_In in Hw as [Hw _].
  rewrite Forall_forall in F. specialize (F w Hw). lra.
Qed.

Lemma edge_nonneg s x y a : (s == 1 \/ s == -(1)) -> non_decreasing x -> 
  (forall v, In v x -> 0 <= s * v) -> (forall v, In v y -> 0 <= s * v) ->
  edge_slope x y = Ok a -> 0 <= a.
Proof.
  intros Hs S Hx Hy. unfold edge_slope.
  destruct (if Nat.eqb _ _ then Ok x else resample_ecdf x (List.length y)) as [x'|e] eqn:E; [|discriminate].
  cbn [bindR]. intros Ha.
  assert (Hx' : forall v, In v x' -> 0 <= s * v).
  { destruct (Nat.eqb _ _); [injection E as <-; exact Hx|]. eapply resample_sign; eassumption. }
  apply (lstsq1_nonneg x' y); [|exact Ha]. intros u v Hu Hv. specialize (Hx' u Hu). specialize (Hy v Hv).
  destruct Hs as [Hs|Hs]; rewrite Hs in *; nra.
Qed.

Lemma set_last_length l v : List.length (set_last l v) = List.length l.
Proof. induction l as [|x l IH]; [reflexivity|]. cbn [set_last]. destruct l; [reflexivity|]. cbn [List.length] in *. lia. Qed.
Lemma set_first_length l v : List.length (set_first l v) = List.length l.
Proof. destruct l; reflexivity. Qed.

Lemma set_last_sorted l a v : non_decreasing (a :: l) -> second_last (a :: l) <= v -> l <> [] ->
  non_decreasing (set_last (a :: l) v).
Proof.
  revert a; induction l as [|b l IH]; intros a S H Hl; [congruence|]. clear Hl.
  destruct l as [|c l].
  - cbn in *. unfold second_last in H. cbn in H. repeat constructor. exact H.
  - change (set_last (a :: b :: c :: l) v) with (a :: set_last (b :: c :: l) v).
    inversion S as [|? ? S1 F]; subst.
    assert (H' : second_last (b :: c :: l) <= v).
    { unfold second_last in *. cbn [List.length] in *. 
      replace (Datatypes.S (Datatypes.S (Datatypes.S (List.length l))) - 2)%nat with (Datatypes.S (List.length l)) in H by lia.
      replace (Datatypes.S (Datatypes.S (List.length l)) - 2)%nat with (List.length l) by lia.
      cbn [nth] in H |- *. exact H. }
    specialize (IH b S1 H' ltac:(discriminate)). constructor; [exact IH|].
    rewrite Forall_forall in F. 
    assert (Hb : a <= b) by (apply F; left; reflexivity).
    change (set_last (b :: c :: l) v) with (b :: set_last (c :: l) v) in *.
    inversion IH as [|? ? _ F2]; subst. constructor; [exact Hb|].
    eapply Forall_impl; [|exact F2]. cbn. intros; lra.
Qed.

Lemma set_first_sorted l v : non_decreasing l -> v <= second l -> (2 <= List.length l)%nat ->
  non_decreasing (set_first l v).
Proof.
  intros S H L. destruct l as [|a [|b l]]; cbn in L; try lia. cbn in *. unfold second in H; cbn in H.
  inversion S as [|? ? S1 F]; subst. constructor; [exact S1|]. inversion S1 as [|? ? _ F2]; subst.
  constructor; [exact H|]. eapply Forall_impl; [|exact F2]. cbn; intros; lra.
Qed.

Lemma increasing_nth l : increasing l -> forall i j, (i < j)%nat -> (j < List.length l)%nat -> nth i l 0 < nth j l 0.
Proof.
  intros S. induction S as [|a l S IH F]; intros i j Hij Hj; cbn [List.length] in Hj; [lia|].
  destruct j as [|j]; [lia|]. destruct i as [|i]; cbn [nth].
  - rewrite Forall_forall in F. apply F, nth_In. lia.
  - apply IH; lia.
Qed.

Lemma last_nth {A} (l : list A) d : last l d = nth (List.length l - 1) l d.
Proof.
  induction l as [|a l IH]; [reflexivity|]. destruct l as [|b l]; [reflexivity|].
  rewrite last_cons_ne, IH. cbn [List.length]. replace (Datatypes.S (Datatypes.S (List.length l)) - 1)%nat with (Datatypes.S (List.length l)) by lia.
  replace (Datatypes.S (List.length l) - 1)%nat with (List.length l) by lia. reflexivity.
Qed.
Lemma hd_nth {A} (l : list A) d : hd d l = nth 0 l d.
Proof. destruct l; reflexivity. Qed.

Lemma set_last_nth l v i : (i < List.length l - 1)%nat -> nth i (set_last l v) 0 = nth i l 0.
Proof.
  revert i; induction l as [|a l IH]; intros i H; cbn [List.length] in H; [lia|].
  destruct l as [|b l]; [cbn in H; lia|].
  change (set_last (a :: b :: l) v) with (a :: set_last (b :: l) v). destruct i as [|i]; [reflexivity|].
  cbn [nth]. apply IH. cbn [List.length] in *. lia.
Qed.
Lemma set_first_nth l v i : (0 < i)%nat -> nth i (set_first l v) 0 = nth i l 0.
Proof. destruct l, i; intros; try lia; reflexivity. Qed.

(* the edges stay ordered, and the inner values are kept *)
Lemma edges_spec x y xp yp yp' : non_decreasing x -> increasing xp -> non_decreasing yp ->
  List.length xp = List.length yp -> (3 <= List.length yp)%nat ->
  linear_edge_scaling x y xp yp = Ok yp' ->
  non_decreasing yp' /\ List.length yp' = List.length yp /\
  (forall i, (0 < i)%nat -> (i < List.length yp - 1)%nat -> nth i yp' 0 = nth i yp 0).
Proof.
  intros Sx Ixp Syp L L3. unfold linear_edge_scaling.
  set (xl := second xp). set (yl := second yp).
  destruct (edge_slope _ _) as [a|e] eqn:Ea; [|discriminate]. cbn [bindR].
  assert (A : 0 <= a).
  { refine (edge_nonneg (-(1)) _ _ a _ (sub_filter_sorted _ _ _ Sx) _ _ Ea); [right; reflexivity| |];
    intros v Hv; apply in_map_iff in Hv as (w & <- & Hw); apply filter_In in Hw as [_ Hw]; apply Qle_bool_iff in Hw; lra. }
  clear Ea. set (yp1 := set_first yp _). set (xh := second_last xp). set (yh := second_last yp1).
  destruct (edge_slope _ _) as [b|e] eqn:Eb; [|discriminate]. cbn [bindR].
  assert (B : 0 <= b).
  { refine (edge_nonneg 1 _ _ b _ (sub_filter_sorted _ _ _ Sx) _ _ Eb); [left; reflexivity| |]; 
    intros v Hv; apply in_map_iff in Hv as (w & <- & Hw); apply filter_In in Hw as [_ Hw]; apply Qle_bool_iff in Hw; lra. }
  intros E. injection E as <-.
  assert (X0 : hd 0 xp < xl) by (rewrite hd_nth; unfold xl, second; apply increasing_nth; [exact Ixp|lia|lia]).
  assert (X1 : xh < last xp 0) by (rewrite last_nth; unfold xh, second_last; apply increasing_nth; [exact Ixp|lia|lia]).
  assert (S1 : non_decreasing yp1) by (apply set_first_sorted; [exact Syp|fold yl; nra|lia]).
  assert (L1 : List.length yp1 = List.length yp) by apply set_first_length.
  split; [|split].
  - destruct yp1 as [|c r] eqn:E1; [constructor|]. apply set_last_sorted; [exact S1| |destruct r; [cbn in L1; lia|discriminate]].
    fold yh. nra.
  - rewrite set_last_length. exact L1.
  - intros i H0 H1. rewrite set_last_nth by lia. apply set_first_nth. exact H0.
Qed.

(* ------------------------------------------------------------ fit and predict *)

Lemma vals_present l : vals l = present l.
Proof. induction l as [|[v|] l IH]; cbn [vals present flat_map app] in *; [reflexivity|unfold present in IH; rewrite IH; reflexivity|exact IH]. Qed.

Lemma vals_pad n l : vals (pad n l) = l.
Proof.
  unfold pad. rewrite vals_app, vals_map_Some. 
  assert (E : forall k, vals (repeat (None : cell) k) = []) by (induction k; cbn; auto). rewrite E. apply app_nil_r.
Qed.

Lemma used_spec o X Y :
  (if Nat.eqb (List.length X) (List.length Y) && c_combine o
   then vals (mask_select (map2 (fun a b : cell => notna a && notna b) X Y) X) else vals X) = fit_source o X Y /\
  (if Nat.eqb (List.length X) (List.length Y) && c_combine o
   then vals (mask_select (map2 (fun a b : cell => notna a && notna b) X Y) Y) else vals Y) = fit_reference o X Y.
Proof.
  unfold fit_source, fit_reference. rewrite (andb_comm (c_combine o)).
  destruct (Nat.eqb_spec (List.length X) (List.length Y)) as [L|L]; cbn [andb];
    [|rewrite !vals_present; split; reflexivity].
  destruct (c_combine o); [|rewrite !vals_present; split; reflexivity].
  revert Y L. unfold both_present. induction X as [|x X IH]; intros [|y Y] L; try discriminate; [split; reflexivity|].
  injection L as L. destruct (IH Y L) as [I1 I2].
  destruct x as [x|], y as [y|]; cbn; rewrite ?I1, ?I2; split; reflexivity.
Qed.

Lemma sorted_const x : non_decreasing x -> ~ (hd 0 x == last x 0) <-> non_constant x.
Proof.
  intros S. split.
  - intros H. destruct x as [|a r] eqn:E; [exfalso; apply H; reflexivity|]. rewrite <- E in *.
    exists (hd 0 x), (last x 0). split; [apply hd_In; congruence|]. split; [apply last_In; congruence|exact H].
  - intros (u & v & Hu & Hv & N) E. apply N.
    assert (G : forall w, In w x -> hd 0 x <= w /\ w <= last x 0).
    { clear - S. induction S as [|a x S IH F]; [intros w []|]. rewrite Forall_forall in F.
      assert (La : forall w, In w (a :: x) -> w <= last (a :: x) 0).
      { destruct x as [|b x]; [intros w [<-|[]]; cbn; lra|]. rewrite last_cons_ne. intros w [<-|Hw]; [|apply IH; exact Hw].
        pose proof (F b (or_introl eq_refl)). destruct (IH b (or_introl eq_refl)). lra. }
      intros w Hw. split; [|apply La; exact Hw]. cbn [hd]. destruct Hw as [<-|Hw]; [lra|apply F; exact Hw]. }
    destruct (G u Hu), (G v Hv). lra.
Qed.

Lemma non_constant_sort x : non_constant (q_sort x) <-> non_constant x.
Proof.
  unfold non_constant. split; intros (u & v & Hu & Hv & N); exists u, v;
  rewrite ?q_sort_in in *; auto.
Qed.

(* a table a fit can produce *)
Definition good_table (t : cdf_table) : Prop :=
  increasing (present (x_perc t)) /\ non_decreasing (present (y_perc t)) /\
  List.length (present (x_perc t)) = List.length (present (y_perc t)) /\ (2 <= List.length (present (x_perc t)))%nat.

Lemma good_inc xs ys : increasing xs -> non_decreasing ys -> List.length xs = List.length ys -> inc_table (combine xs ys).
Proof.
  intros S. revert ys. induction S as [|x xs S IH F]; intros [|y ys] T L; try discriminate; [constructor|].
  cbn. injection L as L. inversion T as [|? ? T1 F1]; subst. constructor; [apply IH; assumption|].
  rewrite Forall_forall in *. intros [a b] H. cbn. split; [apply F; apply in_combine_l in H|apply F1; apply in_combine_r in H]; exact H.
Qed.

Lemma predict_spec t : good_table t ->
  exists f, (forall Z, cdf_predict t Z = map (option_map f) Z) /\
    (forall u v, u <= v -> f u <= f v) /\ (forall u v, u == v -> f u == f v) /\
    (forall i x y, nth_error (present (x_perc t)) i = Some x -> nth_error (present (y_perc t)) i = Some y -> f x == y).
Proof.
  intros (I1 & I2 & L & L2). pose proof (good_inc _ _ I1 I2 L) as T.
  destruct (present (x_perc t)) as [|x0 [|x1 xs]] eqn:Ex; cbn in L2; try lia.
  destruct (present (y_perc t)) as [|y0 [|y1 ys]] eqn:Ey; try discriminate.
  set (tab := combine (x0 :: x1 :: xs) (y0 :: y1 :: ys)) in *.
  assert (Et : tab = (x0, y0) :: (x1, y1) :: combine xs ys) by reflexivity.
  pose proof (spline_ok tab _ _ _ Et T) as Sp.
  unfold tab in Sp. rewrite map_fst_combine', map_snd_combine' in Sp by exact L.
  rewrite Et in T.
  exists (lin_interp (x0, y0) ((x1, y1) :: combine xs ys)). split; [|split; [|split]].
  - intros Z. unfold cdf_predict. rewrite !vals_present, Ex, Ey, Sp. destruct (existsb notna Z) eqn:E; [reflexivity|].
    clear - E. induction Z as [|c Z IH]; [reflexivity|]. cbn in E. apply orb_false_iff in E as [E1 E2].
    cbn [map]. rewrite <- IH by exact E2. destruct c; [discriminate|reflexivity].
  - intros u v H. apply lin_mono; assumption.
  - intros u v H. apply lin_interp_compat; exact H.
  - intros i x y Hx Hy. apply (lin_node _ _ (x, y) T). rewrite <- Et. unfold tab.
    eapply nth_error_In with (n := i). rewrite nth_error_combine, Hx, Hy. reflexivity.
Qed.

Lemma fit_unfold o X Y :
  cdf_fit o X Y =
  let xu := fit_source o X Y in let yu := fit_reference o X Y in
  let x := q_sort xu in let y := q_sort yu in
  bindR (calc_percentiles o (Nat.min (List.length xu) (List.length yu))) (fun pn =>
  let '(percentiles, nbins) := pn in
  bindR (if Nat.eqb nbins 1 && c_linear_edges o
         then linreg_percentiles xu yu
         else bindR (percentile_values x percentiles) (fun xp =>
              bindR (percentile_values y percentiles) (fun yp =>
              if c_linear_edges o
              then mapR (fun yp' => (xp, yp')) (linear_edge_scaling x y xp yp)
              else Ok (xp, yp)))) (fun t =>
  Ok (mkTable (pad (Datatypes.S (self_nbins o)) (fst t)) (pad (Datatypes.S (self_nbins o)) (snd t))))).
Proof.
  unfold cdf_fit. destruct (used_spec o X Y) as [E1 E2]. rewrite E1, E2. rewrite !q_sort_length. reflexivity.
Qed.

Lemma q_sort_nil l : q_sort l = [] -> l = [].
Proof. intros H. pose proof (q_sort_length l). rewrite H in H0. destruct l; [reflexivity|discriminate]. Qed.

Lemma sort_min l : l <> [] -> is_min l (hd 0 (q_sort l)).
Proof.
  intros H. assert (Hs : q_sort l <> []) by (intros E; apply q_sort_nil in E; congruence). split.
  - exists (hd 0 (q_sort l)). split; [apply q_sort_in, hd_In, Hs|reflexivity].
  - intros v Hv. apply q_sort_in in Hv. pose proof (q_sort_sorted l) as S. destruct S as [|a r S F]; [contradiction|].
    cbn. destruct Hv as [<-|Hv]; [lra|]. rewrite Forall_forall in F. apply F, Hv.
Qed.
Lemma nd_last_max l v : non_decreasing l -> In v l -> v <= last l 0.
Proof.
  intros S. revert v. induction S as [|a x S IH F]; [intros w []|]. rewrite Forall_forall in F.
  destruct x as [|b x]; [intros w [<-|[]]; cbn; lra|]. rewrite last_cons_ne. intros w [<-|Hw]; [|apply IH; exact Hw].
  pose proof (F b (or_introl eq_refl)). pose proof (IH b (or_introl eq_refl)). lra.
Qed.
Lemma sort_max l : l <> [] -> is_max l (last (q_sort l) 0).
Proof.
  intros H. assert (Hs : q_sort l <> []) by (intros E; apply q_sort_nil in E; congruence). split.
  - exists (last (q_sort l) 0). split; [apply q_sort_in, last_In, Hs|reflexivity].
  - intros v Hv. apply q_sort_in in Hv. apply nd_last_max; [apply q_sort_sorted|exact Hv].
Qed.

Lemma pv_nil ps : percentile_values [] ps = Err EIndex.
Proof. reflexivity. Qed.

(* the fitted table: source percentiles increase, reference percentiles do not decrease *)
Lemma fit_good o X Y t : sane_opts o -> cdf_fit o X Y = Ok t -> non_constant (fit_source o X Y) ->
  (c_linear_edges o = false \/ (3 <= List.length (present (x_perc t)))%nat) -> good_table t.
Proof.
  intros So. rewrite fit_unfold. cbn zeta. intros H NC D.
  set (xu := fit_source o X Y) in *. set (yu := fit_reference o X Y) in *.
  destruct (calc_spec o (Nat.min (List.length xu) (List.length yu)) So) as (ps & k & E & PL & Lk & Kr & _).
  rewrite E in H. cbn [bindR] in H.
  pose proof (q_sort_sorted xu) as Sx. pose proof (q_sort_sorted yu) as Sy.
  assert (Nx : q_sort xu <> []).
  { destruct NC as (u & v & Hu & _). apply q_sort_in in Hu. intros E0. rewrite E0 in Hu. exact Hu. }
  destruct (Nat.eqb k 1 && c_linear_edges o) eqn:Ek.
  - exfalso. apply andb_true_iff in Ek as [_ El]. destruct D as [D|D]; [congruence|].
    destruct (linreg_percentiles xu yu) as [tt|e] eqn:El'; [|discriminate]. cbn [bindR] in H. injection H as <-.
    cbn [x_perc] in D. rewrite <- vals_present, vals_pad in D.
    unfold linreg_percentiles in El'. destruct (lstsq1 _ _); [|discriminate]. cbn [bindR] in El'. injection El' as <-.
    cbn in D. lia.
  - destruct (percentile_values_spec _ ps Nx Sx PL) as (g & Eg & Mg & _ & _ & Gs). rewrite Eg in H. cbn [bindR] in H.
    assert (Ix : increasing (map g ps)) by (apply Gs, (proj2 (sorted_const _ Sx)), non_constant_sort; exact NC).
    destruct (list_eq_dec Q_eq_dec' (q_sort yu) []) as [Ey|Ny]; [rewrite Ey, pv_nil in H; discriminate|].
    destruct (percentile_values_spec _ ps Ny Sy PL) as (h & Eh & Mh & _). rewrite Eh in H. cbn [bindR] in H.
    assert (Iy : non_decreasing (map h ps)) by (apply map_mono; [exact Mh|apply PL]).
    destruct (c_linear_edges o) eqn:El.
    + destruct (linear_edge_scaling _ _ _ _) as [yp'|e] eqn:Ee; [|discriminate]. cbn [mapR bindR] in H. injection H as <-.
      unfold good_table. cbn [x_perc y_perc fst snd] in *. rewrite <- !vals_present, !vals_pad in *.
      rewrite map_length in D.
      destruct (edges_spec _ _ _ _ _ Sx Ix Iy ltac:(rewrite !map_length; reflexivity)
                 ltac:(rewrite map_length; destruct D; [discriminate|assumption]) Ee) as (A & B & _).
      split; [exact Ix|]. split; [exact A|]. rewrite B, !map_length. split; [reflexivity|lia].
    + injection H as <-. unfold good_table. cbn [x_perc y_perc fst snd]. rewrite <- !vals_present, !vals_pad.
      split; [exact Ix|]. split; [exact Iy|]. rewrite !map_length. split; [reflexivity|lia].
Qed.

(* without linear edges a fit succeeds and spans the two ranges *)
Lemma fit_total o X Y : sane_opts o -> c_linear_edges o = false ->
  fit_source o X Y <> [] -> fit_reference o X Y <> [] ->
  exists t, cdf_fit o X Y = Ok t /\
    is_min (fit_source o X Y) (hd 0 (present (x_perc t))) /\ is_max (fit_source o X Y) (last (present (x_perc t)) 0) /\
    is_min (fit_reference o X Y) (hd 0 (present (y_perc t))) /\ is_max (fit_reference o X Y) (last (present (y_perc t)) 0).
Proof.
  intros So El Nx0 Ny0. rewrite fit_unfold. cbn zeta.
  set (xu := fit_source o X Y) in *. set (yu := fit_reference o X Y) in *.
  destruct (calc_spec o (Nat.min (List.length xu) (List.length yu)) So) as (ps & k & E & PL & Lk & Kr & _).
  rewrite E. cbn [bindR]. rewrite El, andb_false_r.
  assert (Nx : q_sort xu <> []) by (intros E0; apply q_sort_nil in E0; congruence).
  assert (Ny : q_sort yu <> []) by (intros E0; apply q_sort_nil in E0; congruence).
  destruct (percentile_values_spec _ ps Nx (q_sort_sorted xu) PL) as (g & Eg & _ & G0 & G1 & _). rewrite Eg.
  destruct (percentile_values_spec _ ps Ny (q_sort_sorted yu) PL) as (h & Eh & _ & H0 & H1 & _). rewrite Eh.
  cbn [bindR]. eexists. split; [reflexivity|]. cbn [x_perc y_perc fst snd]. rewrite <- !vals_present, !vals_pad.
  assert (Np : ps <> []) by (destruct ps; [discriminate|discriminate]).
  assert (Hh : forall f : Q -> Q, hd 0 (map f ps) = f (hd 0 ps)) by (intros f; destruct ps; [congruence|reflexivity]).
  assert (Hl : forall f : Q -> Q, last (map f ps) 0 = f (last ps 0)) by (intros f; apply last_map_ne; exact Np).
  rewrite !Hh, !Hl.
  assert (Cmin : forall l a b, a == b -> is_min l b -> is_min l a).
  { intros l a b Eab [(v & Hv & Ev) M]. split; [exists v; split; [exact Hv|rewrite Ev, Eab; reflexivity]|]. intros w Hw. rewrite Eab. apply M, Hw. }
  assert (Cmax : forall l a b, a == b -> is_max l b -> is_max l a).
  { intros l a b Eab [(v & Hv & Ev) M]. split; [exists v; split; [exact Hv|rewrite Ev, Eab; reflexivity]|]. intros w Hw. rewrite Eab. apply M, Hw. }
  split; [|split; [|split]].
  - eapply Cmin; [exact G0|apply sort_min; assumption].
  - eapply Cmax; [exact G1|apply sort_max; assumption].
  - eapply Cmin; [exact H0|apply sort_min; assumption].
  - eapply Cmax; [exact H1|apply sort_max; assumption].
Qed.

Lemma order_preserving_map f Z : (forall u v, u <= v -> f u <= f v) -> order_preserving Z (map (option_map f) Z).
Proof.
  intros M. unfold order_preserving, cell. split; [apply map_length|]. split.
  - clear - Z. induction Z as [|c Z IH]; intros [|i]; cbn [map nth_error]; [split; intros H; discriminate H..| |apply IH]. destruct c; cbn; split; intros H; first [discriminate H|reflexivity].
  - intros i j u v u' v' Hu Hv. rewrite !nth_error_map, Hu, Hv. cbn. intros E1 E2 H.
    injection E1 as <-. injection E2 as <-. apply M, H.
Qed.

(* a constant source: the spline is rejected and nothing is predicted *)
Lemma fit_constant o X Y t Z : sane_opts o -> c_linear_edges o = false -> cdf_fit o X Y = Ok t ->
  ~ non_constant (fit_source o X Y) -> all_missing (cdf_predict t Z).
Proof.
  intros So El. rewrite fit_unfold. cbn zeta. intros H NC.
  set (xu := fit_source o X Y) in *. set (yu := fit_reference o X Y) in *.
  destruct (calc_spec o (Nat.min (List.length xu) (List.length yu)) So) as (ps & k & E & PL & Lk & Kr & _).
  rewrite E in H. cbn [bindR] in H. rewrite El, andb_false_r in H.
  destruct (list_eq_dec Q_eq_dec' (q_sort xu) []) as [Ex|Nx]; [rewrite Ex, pv_nil in H; discriminate|].
  pose proof (q_sort_sorted xu) as Sx.
  destruct (percentile_values_spec _ ps Nx Sx PL) as (g & Eg & Mg & G0 & G1 & _). rewrite Eg in H. cbn [bindR] in H.
  destruct (percentile_values (q_sort yu) ps) as [yp|e]; [|discriminate]. cbn [bindR] in H. injection H as <-.
  assert (Ec : hd 0 (q_sort xu) == last (q_sort xu) 0).
  { destruct (Qeq_dec (hd 0 (q_sort xu)) (last (q_sort xu) 0)) as [G|G]; [exact G|].
    exfalso. apply NC. apply non_constant_sort. apply sorted_const; assumption. }
  assert (Hno : strictly_incb (map g ps) = false).
  { destruct (strictly_incb (map g ps)) eqn:Es; [|reflexivity]. exfalso. apply strictly_incb_spec in Es.
    pose proof (increasing_nth _ Es 0 (List.length (map g ps) - 1) ltac:(rewrite map_length; lia) ltac:(rewrite map_length; lia)) as G.
    rewrite <- hd_nth, <- last_nth in G.
    assert (Np : ps <> []) by (destruct ps; discriminate).
    rewrite (last_map_ne g ps 0 0 Np) in G. replace (hd 0 (map g ps)) with (g (hd 0 ps)) in G by (destruct ps; [congruence|reflexivity]).
    rewrite G0, G1 in G. lra. }
  unfold all_missing, cdf_predict. cbn [x_perc y_perc fst snd]. rewrite !vals_pad.
  assert (Em : forall y, In y (map (fun _ : cell => None) Z) -> y = (None : cell)).
  { intros y Hy. apply in_map_iff in Hy as (? & <- & _). reflexivity. }
  destruct (existsb notna Z); [|exact Em].
  destruct (map g ps) eqn:Eg'; [exact Em|]. destruct yp; [exact Em|]. rewrite <- Eg' in *.
  unfold spline. rewrite Hno, andb_false_r. exact Em.
Qed.

(* Matlab rule: value i sits at percentile 100 (i + 1/2) / n, linear in between *)
Lemma lin_between a r i p q x : inc_table (a :: r) -> nth_error (a :: r) i = Some p -> nth_error (a :: r) (Datatypes.S i) = Some q ->
  fst p <= x -> x <= fst q -> lin_interp a r x == seg p q x.
Proof.
  revert a i; induction r as [|b r IH]; intros a i S Hp Hq H1 H2; [destruct i; discriminate|].
  destruct r as [|c r].
  - destruct i as [|i]; [|destruct i; discriminate]. cbn in Hp, Hq. injection Hp as <-. injection Hq as <-. reflexivity.
  - change (lin_interp a (b :: c :: r) x) with (if Qle_bool x (fst b) then seg a b x else lin_interp b (c :: r) x).
    inversion S as [|? ? S1 F]; subst. destruct i as [|i].
    + cbn in Hp, Hq. injection Hp as <-. injection Hq as <-. 
      rewrite (proj2 (Qle_bool_iff x (fst b)) H2). reflexivity.
    + cbn [nth_error] in Hp. change (nth_error (b :: c :: r) (Datatypes.S i) = Some q) in Hq.
      destruct (Qle_bool x (fst b)) eqn:E.
      * apply Qle_bool_iff in E.
        assert (Hb : fst b <= fst p).
        { destruct i as [|i]; [cbn in Hp; injection Hp as <-; lra|]. change (nth_error (c :: r) i = Some p) in Hp. apply nth_error_In in Hp.
          inversion S1 as [|? ? S2 F2]; subst. rewrite Forall_forall in F2. apply F2 in Hp. lra. }
        assert (i = 0%nat).
        { destruct i as [|i]; [reflexivity|]. exfalso. change (nth_error (c :: r) i = Some p) in Hp. apply nth_error_In in Hp.
          inversion S1 as [|? ? S2 F2]; subst. rewrite Forall_forall in F2. apply F2 in Hp. lra. }
        subst i. cbn in Hp, Hq. injection Hp as <-. injection Hq as <-.
        assert (Ex : x == fst b) by lra. rewrite (seg_compat a b _ _ Ex), (seg_compat b c _ _ Ex).
        inversion F as [|? ? [Fb _] _]; subst. rewrite seg_right by exact Fb. rewrite seg_left. reflexivity.
      * apply IH with (i := i); assumption.
Qed.

Lemma matlab_between data i u v p : non_decreasing data ->
  nth_error data i = Some u -> nth_error data (Datatypes.S i) = Some v ->
  let r0 := 100 * (qnat i + (1#2)) / qnat (List.length data) in
  let r1 := 100 * (qnat i + (3#2)) / qnat (List.length data) in
  r0 <= p -> p <= r1 ->
  exists y, matlab_percentiles data [p] = Ok [y] /\ y == u + (v - u) * ((p - r0) / (r1 - r0)).
Proof.
  intros S Hu Hv r0 r1 H0 H1. unfold matlab_percentiles.
  set (n := List.length data) in *.
  assert (Hi : (Datatypes.S i < n)%nat) by (unfold n; apply nth_error_Some; congruence).
  pose proof (rank_table_sorted n 0 data ltac:(lia) S) as T.
  assert (N : forall j w, nth_error data j = Some w -> nth_error (combine (map (p_rank n) (seq 0 n)) data) j = Some (p_rank n j, w)).
  { intros j w Hj. assert (j < n)%nat by (unfold n; apply nth_error_Some; congruence).
    rewrite nth_error_combine, nth_error_map, Hj.
    assert (E : nth_error (seq 0 n) j = Some j).
    { rewrite (nth_error_nth' _ 0%nat) by (rewrite seq_length; assumption). rewrite seq_nth by assumption. reflexivity. }
    rewrite E. reflexivity. }
  pose proof (N i u Hu) as Nu. pose proof (N _ v Hv) as Nv.
  fold n in T. destruct (combine (map (p_rank n) (seq 0 n)) data) as [|a r] eqn:Et; [destruct i; discriminate|].
  eexists. split; [reflexivity|].
  assert (R0 : p_rank n i == r0) by (unfold p_rank, r0; reflexivity).
  assert (R1 : p_rank n (Datatypes.S i) == r1) by (unfold p_rank, r1; rewrite qnat_S; pose proof (qnat_pos n ltac:(lia)); field; lra).
  pose proof (p_rank_lt n i (Datatypes.S i) ltac:(lia) ltac:(lia)) as Lt.
  assert (In0 : In (p_rank n i, u) (a :: r)) by (eapply nth_error_In; exact Nu).
  assert (In1 : In (p_rank n (Datatypes.S i), v) (a :: r)) by (eapply nth_error_In; exact Nv).
  assert (B0 : fst a <= p_rank n i /\ p_rank n (Datatypes.S i) <= fst (List.last r a)).
  { inversion T as [|? ? T1 F]; subst. rewrite Forall_forall in F. split.
    - destruct In0 as [->|I0]; [cbn; lra|]. apply F in I0. cbn in I0. lra.
    - destruct r as [|b r]; [destruct In1 as [E1|[]]; destruct In0 as [E0|[]]; assert (Er : p_rank n i = p_rank n (Datatypes.S i)) by congruence; rewrite Er in Lt; lra|].
      assert (M : forall x, In x (b :: r) -> fst x <= fst (List.last (b :: r) a)).
      { intros x Hx. rewrite (last_default r b a (0,0)). clear - T1 Hx.
        revert b x T1 Hx. induction r as [|c r IH]; intros b x S Hx; [destruct Hx as [<-|[]]; cbn; lra|].
        rewrite last_cons_ne. inversion S as [|? ? S1 F]; subst. destruct Hx as [<-|Hx]; [|apply IH; assumption].
        inversion F as [|? ? [Fc _] _]; subst. pose proof (IH c c S1 (or_introl eq_refl)). lra. }
      destruct In1 as [->|I1]; [|apply (M _ I1)].
      pose proof (F b (or_introl eq_refl)) as [Fb _]. pose proof (M b (or_introl eq_refl)) as Mb. cbn [fst] in Fb. lra. }
  assert (E1 : lin_interp a r p == seg (p_rank n i, u) (p_rank n (Datatypes.S i), v) p)
    by (apply lin_between with (i := i); try assumption; cbn; lra).
  assert (E2 : seg (p_rank n i, u) (p_rank n (Datatypes.S i), v) p == u + (v - u) * ((p - r0) / (r1 - r0))).
  { unfold seg. cbn [fst snd]. rewrite R0, R1. rewrite R0, R1 in Lt. field. lra. }
  rewrite <- E2, <- E1. unfold np_interp.
  destruct (Qle_bool p (fst a)) eqn:Ea.
  - apply Qle_bool_iff in Ea. assert (Ep : p == fst a) by lra.
    rewrite (lin_interp_compat a r _ _ Ep). symmetry. apply lin_at_start. exact T.
  - destruct (Qle_bool (fst (List.last r a)) p) eqn:Eb; [|reflexivity].
    apply Qle_bool_iff in Eb. assert (Ep : p == fst (List.last r a)) by lra.
    rewrite (lin_interp_compat a r _ _ Ep). symmetry. apply lin_node; [exact T|apply last_in].
Qed.

Lemma matlab_function data : data <> [] -> non_decreasing data ->
  exists f : Q -> Q,
    (forall ps, matlab_percentiles data ps = Ok (map f ps)) /\
    (forall p q, p <= q -> f p <= f q) /\
    (forall p, hd 0 data <= f p <= last data 0) /\
    (forall p, p <= 0 -> f p == hd 0 data) /\ (forall p, 100 <= p -> f p == last data 0).
Proof.
  intros Hne S.
  destruct (combine (map (p_rank (List.length data)) (seq 0 (List.length data))) data) as [|a r] eqn:E.
  - destruct data as [|v data]; [congruence|]. discriminate.
  - exists (np_interp a r). 
    assert (Eq : forall ps, matlab_percentiles data ps = Ok (map (np_interp a r) ps)) by (intros ps; unfold matlab_percentiles; rewrite E; reflexivity).
    split; [exact Eq|].
    assert (G : forall p q, exists f, f p = np_interp a r p /\ f q = np_interp a r q /\
      (forall p q, p <= q -> f p <= f q) /\ (forall p, hd 0 data <= f p <= last data 0) /\
      (forall p, p <= 0 -> f p = hd 0 data) /\ (forall p, 100 <= p -> f p = last data 0)).
    { intros p q. destruct (matlab_spec data [p; q] Hne S) as (f & Ef & M & R & F0 & F1). rewrite Eq in Ef.
      exists f. split; [cbn [map] in Ef; congruence|]. split; [cbn [map] in Ef; congruence|]. auto. }
    split; [|split; [|split]].
    + intros p q H. destruct (G p q) as (f & <- & <- & M & _). apply M, H.
    + intros p. destruct (G p p) as (f & <- & _ & _ & R & _). apply R.
    + intros p H. destruct (G p p) as (f & <- & _ & _ & _ & F0 & _). rewrite (F0 p H). reflexivity.
    + intros p H. destruct (G p p) as (f & <- & _ & _ & _ & _ & F1). rewrite (F1 p H). reflexivity.
Qed.

Lemma percentile_values_list data ps : data <> [] -> non_decreasing data -> percentile_list ps ->
  exists out, percentile_values data ps = Ok out /\ List.length out = List.length ps /\
    non_decreasing out /\ hd 0 out == hd 0 data /\ last out 0 == last data 0 /\
    (non_constant data -> increasing out).
Proof.
  intros Hd S P. destruct (percentile_values_spec data ps Hd S P) as (g & E & M & G0 & G1 & Gs).
  destruct (percentile_list_hd ps P) as [_ Np].
  exists (map g ps). split; [exact E|]. split; [apply map_length|]. split; [apply map_mono; [exact M|apply P]|].
  split; [destruct ps; [congruence|exact G0]|]. split; [rewrite (last_map_ne g ps 0 0 Np); exact G1|].
  intros NC. apply Gs, sorted_const; assumption.
Qed.

Lemma increasing_sum_diffs l a : increasing (a :: l) -> qsum (diffs (a :: l)) == last (a :: l) 0 - a.
Proof.
  revert a; induction l as [|b l IH]; intros a S; [cbn; ring|].
  change (diffs (a :: b :: l)) with ((b - a) :: diffs (b :: l)). cbn [qsum].
  inversion S; subst. rewrite IH by assumption. rewrite last_cons_ne. ring.
Qed.
Lemma qsum_nonneg l : (forall x, In x l -> 0 <= x) -> 0 <= qsum l.
Proof. induction l as [|x l IH]; intros H; cbn; [lra|]. pose proof (H x (or_introl eq_refl)). assert (0 <= qsum l) by (apply IH; intros; apply H; right; assumption). lra. Qed.

Lemma diffs_le_100 ps d : percentile_list ps -> In d (diffs ps) -> d <= 100.
Proof.
  intros (S & H0 & H1) Hd. destruct ps as [|a ps]; [contradiction|].
  pose proof (increasing_sum_diffs ps a S) as E. change (a == 0) in H0.
  assert (E100 : qsum (diffs (a :: ps)) == 100) by lra. clear E. rename E100 into E.
  apply in_split in Hd as (l1 & l2 & Ed). rewrite Ed, qsum_app in E. cbn [qsum] in E.
  assert (P : forall x, In x (diffs (a :: ps)) -> 0 < x) by (intros x; apply increasing_diffs; exact S).
  rewrite Ed in P.
  assert (0 <= qsum l1) by (apply qsum_nonneg; intros x Hx; apply Qlt_le_weak, P, in_or_app; left; exact Hx).
  assert (0 <= qsum l2) by (apply qsum_nonneg; intros x Hx; apply Qlt_le_weak, P, in_or_app; right; right; exact Hx).
  lra.
Qed.

Lemma calc_single o m n : sane_opts o -> c_minobs o = Some m -> (Z.of_nat n < m)%Z ->
  exists ps, calc_percentiles o n = Ok (ps, 1%nat).
Proof.
  intros So Em Hn. destruct (base_list o So) as (B & L & R). pose proof (percentile_list_length _ B) as L2.
  unfold calc_percentiles. fold (base_percentiles o). rewrite Em.
  assert (Dn : diffs (base_percentiles o) <> []) by (destruct (base_percentiles o) as [|a [|b r]]; cbn in *; try lia; discriminate).
  destruct (q_minimum_spec _ Dn) as (mn & E & (d & Hd & Ed) & _). rewrite E. cbn [bindR].
  pose proof (diffs_le_100 _ _ B Hd) as D100. rewrite Ed in D100.
  assert (Hc : Qle_bool (inject_Z m) (qnat n * mn / 100) = false).
  { apply Qle_bool_false. assert (G : qnat n < inject_Z m) by (unfold qnat; rewrite <- Zlt_Qlt; exact Hn).
    pose proof (qnat_nonneg n). unfold Qdiv. change (/ 100)%Q with (1 # 100)%Q. nra. }
  rewrite Hc. rewrite Z.div_small by lia. cbn. eexists. reflexivity.
Qed.
