(* Smaller theorems: monotone bins (C13), time series fields of a result (C38), intervals for three
   observations (C56), the acceleration of BCa (C65). *)
From Coq Require Import Reals List Lra Lia Sorting.Sorted.
From Verif Require Import Base BaseProofs RStats RStatsProofs MetricsModel MetricsProofs RollingModel ConfintModel ConfintProofs ConfintProofs2 ValidationModel ResultsModel ResultsSpec ResultsProofs ResultsProofs2 GroupingModel.
Import ListNotations.
Open Scope Z_scope.

(* ---- C13: bins must be monotone; rising bins count the bins that are not above the value, falling
   ones those above it *)
Lemma nonincb_spec l : nonincb l = true <-> StronglySorted Z.ge l.
Proof.
  induction l as [|x l IH]; [split; intros; [constructor|reflexivity]|].
  change (nonincb (x :: l)) with (match l with [] => true | y :: _ => (y <=? x) && nonincb l end). split.
  - intros H. constructor.
    + destruct l; [constructor|]. apply andb_prop in H as [_ H]. apply IH, H.
    + destruct l as [|y l]; [constructor|]. apply andb_prop in H as [H1 H2]. apply IH in H2. apply Z.leb_le in H1.
      inversion H2 as [|? ? S F]; subst. constructor; [lia|]. rewrite Forall_forall in *. intros z Hz. specialize (F z Hz). lia.
  - intros H. inversion H as [|? ? S F]; subst. destruct l as [|y l]; [reflexivity|]. inversion F; subst. apply andb_true_intro.
    split; [apply Z.leb_le; lia|apply IH, S].
Qed.
Lemma countb_filter {A} (p : A -> bool) l : countb p l = List.length (filter p l).
Proof. unfold countb. reflexivity. Qed.
Theorem C13_monotone_bins bins x :
  (StronglySorted Z.le bins -> exists low high, bins = low ++ high /\ Forall (fun b => b <= x) low /\ Forall (fun b => x < b) high /\
     digitize bins x = Ok (Z.of_nat (List.length low))) /\
  (~ StronglySorted Z.le bins -> StronglySorted Z.ge bins -> exists high low, bins = high ++ low /\ Forall (fun b => x < b) high /\ Forall (fun b => b <= x) low /\
     digitize bins x = Ok (Z.of_nat (List.length high))) /\
  (~ StronglySorted Z.le bins -> ~ StronglySorted Z.ge bins -> digitize bins x = Err EValue).
Proof.
  assert (G : forall (p : Z -> bool) l, (forall pre a suf, l = pre ++ a :: suf -> p a = false -> Forall (fun b => p b = false) suf) ->
    exists u v, l = u ++ v /\ Forall (fun b => p b = true) u /\ Forall (fun b => p b = false) v /\ List.length (filter p l) = List.length u).
  { intros p. induction l as [|a l IH]; intros H; [exists [], []; auto|]. destruct (p a) eqn:E.
    - destruct IH as (u & v & -> & U & V & L). { intros pre b suf -> Hb. exact (H (a :: pre) b suf eq_refl Hb). }
      exists (a :: u), v. cbn [filter]. rewrite E. cbn [List.length]. rewrite L. repeat split; auto.
    - pose proof (H [] a l eq_refl E) as F. exists [], (a :: l). cbn [filter]. rewrite E. repeat split; auto.
      clear - F. induction F as [|b l Hb _ IH]; [reflexivity|]. cbn [filter]. rewrite Hb. exact IH. }
  assert (SS : forall (R : Z -> Z -> Prop) pre a suf, StronglySorted R (pre ++ a :: suf) -> Forall (R a) suf).
  { intros R pre a suf. induction pre as [|y pre IH]; intros S; inversion S; subst; auto. }
  unfold digitize. split; [|split].
  - intros S. rewrite (proj2 (sortedb_spec bins) S). rewrite countb_filter.
    destruct (G (fun b => b <=? x) bins) as (u & v & E & U & V & L).
    { intros pre a suf -> Ha. apply SS in S. apply Z.leb_gt in Ha. eapply Forall_impl; [|exact S]. intros b Hb. apply Z.leb_gt. lia. }
    exists u, v. rewrite L. split; [exact E|]. split; [eapply Forall_impl; [|exact U]; intros b; apply Z.leb_le|].
    split; [eapply Forall_impl; [|exact V]; intros b; apply Z.leb_gt|reflexivity].
  - intros NS S. destruct (sortedb bins) eqn:B; [apply sortedb_spec in B; contradiction|]. rewrite (proj2 (nonincb_spec bins) S), countb_filter.
    destruct (G (fun b => x <? b) bins) as (u & v & E & U & V & L).
    { intros pre a suf -> Ha. apply SS in S. apply Z.ltb_ge in Ha. eapply Forall_impl; [|exact S]. intros b Hb. apply Z.ltb_ge. lia. }
    exists u, v. rewrite L. split; [exact E|]. split; [eapply Forall_impl; [|exact U]; intros b; apply Z.ltb_lt|].
    split; [eapply Forall_impl; [|exact V]; intros b; apply Z.ltb_ge|reflexivity].
  - intros NS NG. destruct (sortedb bins) eqn:B; [apply sortedb_spec in B; contradiction|]. destruct (nonincb bins) eqn:C; [apply nonincb_spec in C; contradiction|reflexivity].
Qed.
Example C13_monotone_ex : StronglySorted Z.le [1; 11; 21] /\ StronglySorted Z.ge [21; 11; 1] /\
  digitize [1; 11; 21] 15 = Ok 2 /\ digitize [21; 11; 1] 15 = Ok 1 /\ digitize [1; 21; 11] 15 = Err EValue.
Proof. repeat split; repeat constructor; lia. Qed.

(* ---- C38: a field is stored as a time series exactly if its name is listed as one *)
Theorem C38_series_fields r :
  (forall n l, In (n, l) (r_ts r) <-> In (FName n, l) (r_data r) /\ In n (r_tsvars r)) /\
  (forall k l, In (k, l) (r_metrics r) <-> In (k, l) (r_data r) /\ forall n, k = FName n -> ~ In n (r_tsvars r)).
Proof.
  assert (T : forall k, is_ts (r_tsvars r) k = true <-> exists n, k = FName n /\ In n (r_tsvars r)).
  { intros [s|t]; cbn [is_ts]; [rewrite existsb_exists|].
    - split; [intros (x & I & E); apply String.eqb_eq in E; subst; eauto|intros (n & E & I); injection E as <-; exists s; split; [exact I|apply String.eqb_refl]].
    - split; [discriminate|intros (n & E & _); discriminate]. }
  split.
  - intros n l. unfold r_ts, named. rewrite in_map_iff. split.
    + intros ((k & v) & E & I). apply filter_In in I as [I1 I2]. cbn [fst snd] in *. apply T in I2 as (m & -> & I2).
      injection E as <- <-. auto.
    + intros [I1 I2]. exists (FName n, l). split; [reflexivity|]. apply filter_In. split; [exact I1|]. apply T. exists n. auto.
  - intros k l. unfold r_metrics. rewrite filter_In. cbn [fst]. split.
    + intros [I1 I2]. split; [exact I1|]. intros n -> I. assert (X : is_ts (r_tsvars r) (FName n) = true) by (apply T; eauto). rewrite X in I2. discriminate.
    + intros [I1 I2]. split; [exact I1|]. destruct (is_ts (r_tsvars r) k) eqn:E; [|reflexivity]. apply T in E as (n & -> & I). destruct (I2 n eq_refl I).
Qed.
Example C38_series_fields_ex : let r := mkResult 1 2 [(FName "R", [None]); (FName "rR", [Some 1%Q])] ["rR"; "rp"]%string None in
  r_ts r = [("rR"%string, [Some 1%Q])] /\ r_metrics r = [(FName "R", [None])].
Proof. split; reflexivity. Qed.

Open Scope R_scope.
(* ---- C56: three observations.  The quotient by sqrt(n - 3) is infinite, with the sign of the quantile,
   or NaN for a vanishing one (alpha = 1) *)
Theorem C56_three_observations norm_ppf r alpha : -1 < r < 1 ->
  (0 < norm_ppf (1 - alpha / 2) -> pearson_r_ci norm_ppf 3 r alpha = (Some (-1), Some 1)) /\
  (norm_ppf (1 - alpha / 2) < 0 -> pearson_r_ci norm_ppf 3 r alpha = (Some 1, Some (-1))) /\
  (norm_ppf (1 - alpha / 2) = 0 -> pearson_r_ci norm_ppf 3 r alpha = (None, None)).
Proof.
  intros H. split; [apply fisher_three, H|]. unfold pearson_r_ci, fisher_ci, over_sqrt. rewrite e_arctanh_fin by exact H.
  assert (S : np_sqrt (INR 3 - 3) = Some 0).
  { replace (INR 3 - 3) with 0 by (cbn; lra). unfold np_sqrt. destruct (Rlt_dec 0 0); [lra|]. rewrite sqrt_0. reflexivity. }
  rewrite S. unfold e_div. destruct (Req_EM_T 0 0); [|lra]. set (q := norm_ppf _). split; intros Q.
  - destruct (Rlt_dec 0 q); [lra|]. destruct (Rlt_dec q 0); [|lra]. reflexivity.
  - rewrite Q. destruct (Rlt_dec 0 0); [lra|]. destruct (Rlt_dec 0 0); [lra|]. reflexivity.
Qed.

(* ---- C65: the acceleration is the third central moment over six times the 3/2th power of the second
   one, with the sign changed; it does not depend on offset and scale, and changes sign with the data *)
Lemma all_some_map v : ConfintModel.all_some (map Some v) = Some v.
Proof. induction v as [|x v IH]; [reflexivity|]. cbn. rewrite IH. reflexivity. Qed.
Definition central (k : nat) (v : list R) : R := rsum (map (fun j => (j - rmean v) ^ k) v).
Lemma central2_pos v x y : In x v -> In y v -> x <> y -> 0 < central 2 v.
Proof.
  intros Hx Hy N. unfold central. assert (P : forall z, In z v -> 0 <= (z - rmean v) ^ 2) by (intros; apply pow2_ge_0).
  destruct (Rle_lt_or_eq_dec _ _ (rsum_nonneg _ v P)) as [L|E]; [exact L|]. exfalso. apply N.
  assert (Z : forall z, In z v -> z - rmean v = 0).
  { intros z Hz. apply Rsqr_0_uniq. pose proof (rsum_zero _ v P (eq_sym E) z Hz) as Q. cbn beta in Q. rewrite Rsqr_pow2. exact Q. }
  pose proof (Z x Hx). pose proof (Z y Hy). lra.
Qed.
Theorem C65_acceleration v : (exists x y, In x v /\ In y v /\ x <> y) ->
  acceleration (map Some v) = Some (- central 3 v / (6 * sqrt (central 2 v) ^ 3)).
Proof.
  intros (x & y & Hx & Hy & N). pose proof (central2_pos v x y Hx Hy N) as P.
  assert (L : 0 < rlen v) by (unfold rlen; apply lt_0_INR; destruct v; [destruct Hx|cbn; lia]).
  unfold acceleration. rewrite all_some_map. cbn [obind]. unfold np_mean. rewrite fdiv_some by lra. cbn [obind]. fold (rmean v).
  assert (S2 : rsum (map (fun j => (rmean v - j) ^ 2) v) = central 2 v) by (apply rsum_ext; intros; ring).
  assert (S3 : rsum (map (fun j => (rmean v - j) ^ 3) v) = - central 3 v).
  { unfold central. replace (- rsum (map (fun j => (j - rmean v) ^ 3) v)) with (-1 * rsum (map (fun j => (j - rmean v) ^ 3) v)) by ring.
    rewrite <- rsum_scal. apply rsum_ext. intros. ring. }
  rewrite S2, S3. pose proof (sqrt_lt_R0 _ P) as SP. rewrite fdiv_some by (apply Rgt_not_eq; apply Rmult_lt_0_compat; [lra|apply Rmult_lt_0_compat; assumption]).
  f_equal. f_equal. f_equal. rewrite <- (sqrt_sqrt (central 2 v)) at 1 by lra. ring.
Qed.
Lemma rmean_affine k c v : v <> [] -> rmean (map (fun j => k * j + c) v) = k * rmean v + c.
Proof.
  intros NE. assert (L : 0 < rlen v) by (unfold rlen; apply lt_0_INR; destruct v; [congruence|cbn; lia]).
  unfold rmean. rewrite rsum_plus, rsum_scal, rsum_const, map_id. unfold rlen at 2. rewrite map_length. fold (rlen v). field. lra.
Qed.
Lemma central_affine n k c v : v <> [] -> central n (map (fun j => k * j + c) v) = k ^ n * central n v.
Proof.
  intros NE. unfold central. rewrite rmean_affine by exact NE. rewrite map_map, <- rsum_scal. apply rsum_ext. intros x _.
  replace (k * x + c - (k * rmean v + c)) with (k * (x - rmean v)) by ring. apply Rpow_mult_distr.
Qed.
Theorem C65_acceleration_affine v k c : (exists x y, In x v /\ In y v /\ x <> y) -> k <> 0 ->
  exists a, acceleration (map Some v) = Some a /\
    acceleration (map Some (map (fun j => k * j + c) v)) = Some (if Rlt_dec 0 k then a else - a).
Proof.
  intros H K. exists (- central 3 v / (6 * sqrt (central 2 v) ^ 3)). split; [apply C65_acceleration, H|].
  destruct H as (x & y & Hx & Hy & N). pose proof (central2_pos v x y Hx Hy N) as P.
  assert (NE : v <> []) by (intros ->; destruct Hx).
  rewrite C65_acceleration.
  - rewrite !central_affine by exact NE. rewrite (sqrt_mult (k ^ 2)) by (try apply pow2_ge_0; lra).
    replace (k ^ 2) with (Rsqr k) by (unfold Rsqr; ring). rewrite sqrt_Rsqr_abs.
    pose proof (sqrt_lt_R0 _ P) as SP. set (s := sqrt _) in *. f_equal. destruct (Rlt_dec 0 k).
    + rewrite Rabs_right by lra. field. lra.
    + rewrite Rabs_left by lra. field. lra.
  - exists (k * x + c), (k * y + c). split; [apply in_map_iff; eauto|]. split; [apply in_map_iff; eauto|].
    intros E. apply N. apply Rmult_eq_reg_l with k; [lra|exact K].
Qed.
Example C65_acceleration_ex : acceleration [Some 0; Some 0; Some 3] = Some (- (1 / (6 * sqrt 6))).
Proof.
  change [Some 0; Some 0; Some 3] with (map Some [0; 0; 3]). rewrite C65_acceleration by (exists 0, 3; cbn; repeat split; auto; lra).
  assert (M : rmean [0; 0; 3] = 1) by (unfold rmean, rlen; cbn; field).
  assert (C2 : central 2 [0; 0; 3] = 6) by (unfold central; rewrite M; cbn; ring).
  assert (C3 : central 3 [0; 0; 3] = 6) by (unfold central; rewrite M; cbn; ring).
  rewrite C2, C3. f_equal. pose proof (sqrt_lt_R0 6 ltac:(lra)) as P. assert (Q : sqrt 6 * sqrt 6 = 6) by (apply sqrt_sqrt; lra).
  replace (sqrt 6 ^ 3) with (6 * sqrt 6) by (rewrite <- Q at 1; ring). field. lra.
Qed.
Print Assumptions C13_monotone_bins.
Print Assumptions C38_series_fields.
Print Assumptions C56_three_observations.
Print Assumptions C65_acceleration.
Print Assumptions C65_acceleration_affine.
