(* Lemmas for C102. *)
From Coq Require Import Reals List Lra Lia Psatz ZArith.
From Verif Require Import RStats RStatsProofs MetricsModel MetricsSpec MetricsProofs MetricsProofs2 RollingModel RollingSpec RollingProofs RollRefModel.

Lemma last_seq a n v : last (seq a (S n)) v = (a + n)%nat.
Proof. revert a. induction n as [|n IH]; intros a; [cbn; lia|]. transitivity (last (seq (S a) (S n)) v); [reflexivity|]. rewrite IH. lia. Qed.

Lemma slice_seq a b n : (a <= b)%nat -> (b <= n)%nat -> slice a b (seq 0 n) = seq a (b - a).
Proof.
  intros A B. replace n with (a + (b - a) + (n - b))%nat by lia. rewrite !seq_app. unfold slice.
  rewrite skipn_app, skipn_app. rewrite !seq_length. rewrite !app_length, !seq_length.
  rewrite skipn_all2 by (rewrite seq_length; lia). replace (a - a)%nat with 0%nat by lia. cbn [app Nat.add skipn].
  rewrite firstn_app, seq_length. rewrite firstn_all2 by (rewrite seq_length; lia).
  replace (b - a - (b - a))%nat with 0%nat by lia. cbn [firstn]. apply app_nil_r.
Qed.

(* the ratio of np.corrcoef is the correlation *)
Lemma sum_cov d : d <> [] -> rsum (map (fun p => (fst p - rmean (xs d)) * (snd p - rmean (ys d))) d) = rlen d * cov d.
Proof. intros H. unfold cov. unfold rmean at 3. rewrite rlen_map. field. apply rlen_ne, H. Qed.
Lemma sum_vx d : d <> [] -> rsum (map (fun p => (fst p - rmean (xs d)) * (fst p - rmean (xs d))) d) = rlen d * var (xs d).
Proof.
  intros H. transitivity (rsum (map (fun x => (x - rmean (xs d)) * (x - rmean (xs d))) (xs d))); [unfold xs at 5; rewrite map_map; reflexivity|].
  rewrite rmean_sum by (apply map_ne, xs_ne, H). rewrite rlen_map, rlen_xs. unfold var. ring.
Qed.
Lemma sum_vy d : d <> [] -> rsum (map (fun p => (snd p - rmean (ys d)) * (snd p - rmean (ys d))) d) = rlen d * var (ys d).
Proof.
  intros H. transitivity (rsum (map (fun x => (x - rmean (ys d)) * (x - rmean (ys d))) (ys d))); [unfold ys at 5; rewrite map_map; reflexivity|].
  rewrite rmean_sum by (apply map_ne, ys_ne, H). rewrite rlen_map, rlen_ys. unfold var. ring.
Qed.

Lemma two_of d : d <> [] -> ~ constant (xs d) -> 1 < rlen d.
Proof.
  intros H C. destruct d as [|p [|q d]]; [contradiction|exfalso; apply C, constant_one|].
  rewrite !rlen_cons. pose proof (rlen_nonneg d). lra.
Qed.

Lemma corrcoef_some d : d <> [] -> ~ constant (xs d) -> ~ constant (ys d) -> np_corrcoef d = Some (correlation d).
Proof.
  intros H CX CY. pose proof (two_of d H CX) as N. unfold np_corrcoef. cbn zeta.
  rewrite sum_cov, sum_vx, sum_vy by exact H. rewrite !fdiv_some by lra. cbn [obind].
  pose proof (std_pos _ (xs_ne d H) CX) as PX. pose proof (std_pos _ (ys_ne d H) CY) as PY.
  set (k := rlen d / (rlen d - 1)).
  assert (K : 0 < k) by (unfold k; apply Rdiv_lt_0_compat; lra).
  assert (E : forall v, rlen d * v / (rlen d - 1) = k * v) by (intros; unfold k; field; lra).
  rewrite !E. rewrite !sqrt_mult by (try apply var_nonneg; lra). fold (std (xs d)) (std (ys d)).
  pose proof (sqrt_lt_R0 k K) as SK. pose proof (sqrt_sqrt k ltac:(lra)) as SS.
  assert (PX' : 0 < sqrt k * std (xs d)) by (apply Rmult_lt_0_compat; assumption).
  assert (PY' : 0 < sqrt k * std (ys d)) by (apply Rmult_lt_0_compat; assumption).
  rewrite fdiv_some by lra. cbn [obind]. rewrite fdiv_some by lra. cbn [obind].
  assert (EC : k * cov d / (sqrt k * std (xs d)) / (sqrt k * std (ys d)) = correlation d).
  { unfold correlation. rewrite <- SS at 1. field. repeat split; lra. }
  rewrite EC. pose proof (correlation_bound d H CX CY) as [L U]. rewrite Rmin_left by exact U. rewrite Rmax_right by exact L. reflexivity.
Qed.

Lemma corrcoef_none d : d <> [] -> constant (xs d) \/ constant (ys d) -> np_corrcoef d = None.
Proof.
  intros H C. unfold np_corrcoef. cbn zeta. rewrite sum_cov, sum_vx, sum_vy by exact H.
  destruct (Req_EM_T (rlen d - 1) 0) as [E|E].
  - unfold fdiv. destruct (Req_EM_T (rlen d - 1) 0); [reflexivity|contradiction].
  - rewrite !fdiv_some by exact E. cbn [obind]. destruct C as [C|C].
    + apply (var_zero _ (xs_ne d H)) in C. rewrite C. rewrite Rmult_0_r. unfold Rdiv at 2. rewrite Rmult_0_l, sqrt_0.
      unfold fdiv at 1. destruct (Req_EM_T 0 0); [reflexivity|contradiction].
    + apply (var_zero _ (ys_ne d H)) in C. rewrite C. rewrite Rmult_0_r. unfold Rdiv at 3. rewrite Rmult_0_l, sqrt_0.
      destruct (fdiv _ _) as [a|]; cbn [obind]; [|reflexivity]. unfold fdiv. destruct (Req_EM_T 0 0); [reflexivity|contradiction].
Qed.

Lemma ref_p_some betainc r n : ref_p betainc (Some r) n = p_value betainc r n.
Proof.
  unfold ref_p, p_value, p_arg. destruct (Req_EM_T (Rabs r) 1); [reflexivity|]. f_equal.
  set (x := (n - 2) / (n - 2 + r * r * ((n - 2) / ((1 - r) * (1 + r))))). unfold Rmin.
  destruct (Rlt_dec x 1), (Rle_dec x 1); try reflexivity; lra.
Qed.

Lemma ref_rmsd_ok s : s <> [] ->
  obind (fdiv (rsum (map (fun p => (fst p - snd p) ^ 2) s)) (rlen s - 0)) np_sqrt = rmsd s 0.
Proof.
  intros H. rewrite rmsd_correct by exact H. pose proof (rlen_pos s H). rewrite fdiv_some by lra. cbn [obind].
  assert (E : rsum (map (fun p => (fst p - snd p) ^ 2) s) / (rlen s - 0) = mean_square_diff s).
  { apply (Rmult_eq_reg_r (rlen s)); [|lra]. rewrite msdiff_RSS, RSS_sum by exact H.
    transitivity (rsum (map (fun p => (fst p - snd p) ^ 2) s)); [field; lra|]. apply rsum_ext. intros; ring. }
  rewrite E. apply np_sqrt_some, msdiff_nonneg.
Qed.

Section Agree.
Variable ts : list R.
Variable d : pairs.
Variable w : R.
Variable center : bool.
Hypothesis LEN : List.length ts = List.length d.
Hypothesis CH : chronological ts.
Hypothesis W : 0 < w \/ (center = true /\ 0 <= w).
(* without ties, or centred *)
Hypothesis TIE : center = true \/ forall j k, (j < k)%nat -> (k < List.length ts)%nat -> nth j ts 0 < nth k ts 0.

Lemma inside_eq i j : (i < List.length ts)%nat -> (j < List.length ts)%nat ->
  inside_window ts w center i j = andb (starts ts w center i j) (ends ts w center i j).
Proof.
  intros LI LJ. unfold inside_window, starts, ends, ref_time, t_at, rleb, rltb. destruct center.
  - destruct (Rle_dec (Rabs (nth j ts 0 - nth i ts 0)) w) as [X|X], (Rle_dec (nth i ts 0 - w) (nth j ts 0)) as [Y|Y], (Rle_dec (nth j ts 0) (nth i ts 0 + w)) as [Z|Z];
      try reflexivity; exfalso; unfold Rabs in X; destruct (Rcase_abs (nth j ts 0 - nth i ts 0)); lra.
  - destruct TIE as [X|T]; [discriminate|].
    assert (E : (if Rle_dec (nth j ts 0 - nth i ts 0) 0 then true else false) = Nat.leb j i).
    { destruct (Nat.leb_spec j i) as [L|L].
      - pose proof (CH j i L LI). destruct (Rle_dec _ _); [reflexivity|lra].
      - pose proof (T i j L LJ). destruct (Rle_dec _ _); [lra|reflexivity]. }
    rewrite E, Bool.andb_comm. f_equal. destruct (Rlt_dec _ _), (Rlt_dec _ _); try reflexivity; lra.
Qed.

Lemma bounds i : (i < List.length ts)%nat -> exists a b, (a <= i)%nat /\ (i < b)%nat /\ (b <= List.length ts)%nat /\
  the_window ts d w center i = slice a b d /\ inside_idx ts w center i = seq a (b - a).
Proof.
  intros I.
  destruct (find_lower_ok ts d w center LEN W i 0%nat I ltac:(lia) ltac:(lia)) as [LO _].
  set (a := find_lower ts w center i 0) in *.
  assert (HB : exists b, hi_ok ts w center i b).
  { destruct i as [|i'].
    - exists (find_hi ts w center 0 0). apply (find_hi_ok ts d w center LEN CH W 0 0 I). left; split; reflexivity.
    - exists (find_hi ts w center (S i') 1). apply (find_hi_ok ts d w center LEN CH W (S i') 1 I). right. split; [lia|]. split; [lia|].
      intros j J. assert (j = 0%nat) by lia. subst j.
      apply (ends_mono ts d w center LEN CH W 0 (S i')); [lia|exact I|apply (ends_self ts d w center LEN W)]. }
  destruct HB as [b HO]. exists a, b. pose proof LO as (A1 & A2 & A3). pose proof HO as (B1 & B2 & B3 & B4).
  split; [exact A1|]. split; [exact B1|]. split; [exact B2|]. split.
  - apply (window_slice ts d w center LEN CH W i a b I LO HO).
  - unfold inside_idx. rewrite (slice_filter _ 0%nat a b).
    + apply slice_seq; lia.
    + lia.
    + rewrite seq_length. lia.
    + intros j J. rewrite seq_length in J. rewrite seq_nth by exact J. cbn [Nat.add]. rewrite inside_eq by assumption. f_equal.
      * destruct (Nat.leb_spec a j); [apply (starts_up ts w center CH W i a j); assumption|apply A3; assumption].
      * destruct (Nat.ltb_spec j b); [apply B3; assumption|apply B4; lia].
Qed.

Definition ref_expected (betainc : R -> R -> R -> R) (junk : nat -> option R) (mp : Z) (i : nat) : ref_row :=
  let win := the_window ts d w center i in
  if Z.ltb (Z.of_nat (List.length win)) mp then RefRow None None (junk i)
  else RefRow (np_corrcoef win) (Some (ref_p betainc (np_corrcoef win) (rlen win))) (rmsd win 0).

Lemma ref_step_ok betainc junk mp i : (i < List.length ts)%nat ->
  the_window ts d w center i <> [] /\ ref_step betainc junk ts d w center mp i = ref_expected betainc junk mp i.
Proof.
  intros I. destruct (bounds i I) as (a & b & A & B & BN & EW & EI). unfold ref_step, ref_expected. rewrite EW, EI, seq_length.
  assert (SL : List.length (slice a b d) = (b - a)%nat) by (apply slice_length; rewrite <- LEN; exact BN).
  assert (NE : slice a b d <> []) by (intros E; rewrite E in SL; cbn in SL; lia).
  split; [exact NE|]. rewrite SL.
  destruct (Z.eqb_spec (Z.of_nat (b - a)) 0) as [Z0|Z0]; [lia|]. cbn [orb].
  destruct (Z.ltb_spec (Z.of_nat (b - a)) mp); [reflexivity|]. cbn zeta.
  destruct (b - a)%nat as [|m] eqn:EM; [lia|]. rewrite last_seq. cbn [seq hd].
  assert (ES : firstn (S (a + m) - a) (skipn a d) = slice a b d) by (unfold slice; f_equal; lia).
  rewrite ES. rewrite ref_rmsd_ok by exact NE. f_equal. do 2 f_equal. unfold rlen. rewrite SL, INR_IZR_INZ. reflexivity.
Qed.
End Agree.
