(* C84 - C86: signs, rounding errors and scaling in IEEE 754 arithmetic. *)
From Coq Require Import ZArith Reals List Lia Lra Bool.
From Flocq Require Import Core IEEE754.BinarySingleNaN.
From Verif Require Import FloatModel FloatSpec FloatProofs FloatProofs2 FloatProofs3 FloatProofs4 FloatProofs5 FloatProps.
Import ListNotations.
Open Scope R_scope.

(* ------------------------------------------------------------------ C84 *)
(* sums of squares, mean square deviations and their components are never negative, whatever the
   data; RMSD is NaN only if MSD is *)
Theorem C84_nonneg :
  forall (prec emax : Z) (Hp : Prec_gt_0 prec) (He : Prec_lt_emax prec emax) (d : list (binary_float prec emax * binary_float prec emax)),
    nonneg_or_nan prec emax (f_RSS prec emax Hp He d)
    /\ nonneg_or_nan prec emax (f_msd prec emax Hp He d)
    /\ nonneg_or_nan prec emax (f_rmsd prec emax Hp He d)
    /\ is_nan (f_rmsd prec emax Hp He d) = is_nan (f_msd prec emax Hp He d)
    /\ nonneg_or_nan prec emax (f_ubrmsd prec emax Hp He d)
    /\ (let '(mse, c, b, v) := f_mse_decomposition prec emax Hp He d in
        nonneg_or_nan prec emax mse /\ nonneg_or_nan prec emax c /\ nonneg_or_nan prec emax b /\ nonneg_or_nan prec emax v).
Proof.
  intros. destruct (rmsd_nn prec emax Hp He d) as [A B].
  split; [apply RSS_nn|]. split; [apply msd_nn|]. split; [exact A|]. split; [exact B|]. split; [apply ubrmsd_nn|apply mse_decomposition_nn].
Qed.
(* Welford's variances are not negative, as long as no overflow makes them infinite *)
Theorem C84_variances :
  forall (prec emax : Z) (Hp : Prec_gt_0 prec) (He : Prec_lt_emax prec emax) (d : list (binary_float prec emax * binary_float prec emax)),
    let m := f_moments prec emax Hp He d in
    (is_finite (fm_vx _ _ m) = true -> 0 <= B2R (fm_vx _ _ m)) /\ (is_finite (fm_vy _ _ m) = true -> 0 <= B2R (fm_vy _ _ m)).
Proof. intros. apply variances_nonneg. Qed.
Example C84_variances_case :
  let m := dbl f_moments (tenths [(1, 5); (2, 5); (4, 5)]%Z) in
  is_finite (fm_vx _ _ m) = true /\ Bltb zero (fm_vx _ _ m) = true /\ B2SF (fm_vy _ _ m) = B2SF zero.
Proof. cbv zeta. split; [vm_compute; reflexivity|]. split; vm_compute; reflexivity. Qed.
(* with overflow the variance is minus infinity *)
Theorem C84_variance_overflow_refuted :
  exists d, all_finite 53 1024 d /\ fm_vx _ _ (dbl f_moments d) = B754_infinity true.
Proof.
  exists [(dyad 1 1023, zero); (dyad (-1) 1023, zero)]. split; [|vm_compute; reflexivity].
  constructor; [split; vm_compute; reflexivity|]. constructor; [split; vm_compute; reflexivity|]. constructor.
Qed.
(* the mean lies between any bounds of the values; it is never outside by rounding *)
Theorem C84_mean_in_range :
  forall (prec emax : Z) (Hp : Prec_gt_0 prec) (He : Prec_lt_emax prec emax) (d : list (binary_float prec emax * binary_float prec emax)) (lo hi : R),
    d <> [] -> is_finite (fm_x _ _ (f_moments prec emax Hp He d)) = true ->
    Forall (fun p => lo <= B2R (fst p) <= hi) d -> lo <= B2R (fm_x _ _ (f_moments prec emax Hp He d)) <= hi.
Proof. intros. apply mean_range; assumption. Qed.
(* the mean of the moving average is: three times 0.1 has a mean above 0.1 *)
Theorem C84_moving_average_refuted :
  exists x : double, is_finite x = true /\ Bltb x (dbl f_mean [x; x; x]) = true.
Proof. exists (dec 1 10). split; vm_compute; reflexivity. Qed.
Example C84_mean_in_range_case :
  B2SF (fm_x _ _ (dbl f_moments (tenths [(1, 0); (1, 0); (1, 0)]%Z))) = B2SF (dec 1 10).
Proof. vm_compute. reflexivity. Qed.
(* the rolling RMSD is not negative or NaN ... *)
Theorem C84_rolling_nonneg :
  forall (prec emax : Z) (Hp : Prec_gt_0 prec) (He : Prec_lt_emax prec emax) betainc ts d window center min_periods,
    Forall (fun row => nonneg_or_nan prec emax (snd row)) (f_rolling prec emax Hp He betainc ts d window center min_periods).
Proof.
  intros prec emax Hp He betainc ts d window center mp. unfold f_rolling.
  generalize (0%nat, 0%nat, (fs_init prec emax, f0 prec emax)). generalize (seq 0 (n_ts prec emax ts)). intros is.
  induction is as [|i r IH]; intros s; cbn [f_roll_loop]; [constructor|].
  destruct (f_roll_step prec emax Hp He betainc ts d window center mp s i) as [s' o] eqn:E. constructor; [|apply IH].
  unfold f_roll_step in E. destruct s as [[lold hold] sums]. cbv zeta in E. injection E as _ E. subst o.
  match goal with |- context [if ?b then _ else _] => destruct b end; [exact Logic.I|apply fsqrt_nn].
Qed.
(* ... but removing old values from the sums is not exact: in the last window of this case the first
   series is constant, yet the correlation is -1 with p-value 0 *)
Definition three_days : list double := [dyad 0 0; dyad 1 0; dyad 2 0].
Definition constant_window : list (double * double) := tenths [(5, 2); (2, 1); (2, 2)]%Z.
Theorem C84_rolling_constant_window_refuted :
  option_map (fun row => (B2SF (fst (fst row)), B2SF (snd (fst row))))
    (nth_error (dbl f_rolling no_p three_days constant_window (dyad 2 0) false 2%Z) 2) = Some (B2SF (dyad (-1) 0), B2SF (dyad 0 0)).
Proof. vm_compute. reflexivity. Qed.
(* the same window without a past has no correlation *)
Example C84_constant_window_alone :
  is_nan (fst (dbl f_pearson_of no_p (skipn 1 constant_window))) = true.
Proof. vm_compute. reflexivity. Qed.
(* in the last window of this case the series agree, yet the RMSD is NaN: the mean square deviation has
   become negative *)
Definition equal_window : list (double * double) := tenths [(7, 6); (4, 4); (6, 6)]%Z.
Theorem C84_rolling_equal_window_refuted :
  option_map (fun row => is_nan (snd row)) (nth_error (dbl f_rolling no_p three_days equal_window (dyad 2 0) false 2%Z) 2) = Some true.
Proof. vm_compute. reflexivity. Qed.
Example C84_equal_window_alone : B2SF (dbl f_rmsd (skipn 1 equal_window)) = B2SF zero.
Proof. vm_compute. reflexivity. Qed.
Print Assumptions C84_nonneg.
Print Assumptions C84_variances.
Print Assumptions C84_mean_in_range.
Print Assumptions C84_rolling_constant_window_refuted.

(* ------------------------------------------------------------------ C85 *)
(* the rounding error of bias, RSS, MSD and means: relative to the exact result for the same (rounded)
   data, as long as the result is finite.  u is half the distance of 1 to the next number (2^-53 in
   double precision), tiny half of the smallest positive number *)
Theorem C85_bias_error :
  forall (prec emax : Z) (Hp : Prec_gt_0 prec) (He : Prec_lt_emax prec emax) (d : list (binary_float prec emax * binary_float prec emax)),
    d <> [] -> (Z.of_nat (length d) <= 2 ^ prec)%Z -> is_finite (f_bias prec emax Hp He d) = true ->
    let n := INR (length d) in let u := unit_roundoff prec in
    let exact := exact_sum (fun p => B2R (fst p) - B2R (snd p)) d / n in
    let size := exact_sum (fun p => Rabs (B2R (fst p) - B2R (snd p))) d / n in
    (n + 2) * u <= 1 ->
    Rabs (B2R (f_bias prec emax Hp He d) - exact) <= 2 * (n + 2) * u * size + tiny prec emax.
Proof.
  intros prec emax Hp He d N L F n u exact size K.
  pose proof (bias_error prec emax Hp He d N L F) as E. cbv zeta in E.
  assert (I2 : INR (length d + 2) = n + 2) by (rewrite plus_INR; reflexivity).
  pose proof (factor_bound prec (length d + 2)) as B. rewrite I2 in B. specialize (B K). fold u in B, E.
  assert (S0 : 0 <= size).
  { unfold size. apply Rmult_le_pos; [|left; apply Rinv_0_lt_compat, lt_0_INR; destruct d; [congruence|cbn; lia]].
    eapply Rle_trans; [apply Rabs_pos|]. apply exact_sum_abs. intros x. apply Rle_refl. }
  eapply Rle_trans; [exact E|]. apply Rplus_le_compat_r. change (exact_sum (fun p => Rabs (diff_of prec emax p)) d / INR (length d)) with size.
  apply Rmult_le_compat_r; [exact S0|exact B].
Qed.
Theorem C85_RSS_error :
  forall (prec emax : Z) (Hp : Prec_gt_0 prec) (He : Prec_lt_emax prec emax) (d : list (binary_float prec emax * binary_float prec emax)),
    is_finite (f_RSS prec emax Hp He d) = true ->
    let n := INR (length d) in let u := unit_roundoff prec in
    let exact := exact_sum (fun p => Rsqr (B2R (fst p) - B2R (snd p))) d in
    (n + 3) * u <= 1 ->
    Rabs (B2R (f_RSS prec emax Hp He d) - exact) <= 2 * (n + 3) * u * exact + 3 * n * tiny prec emax.
Proof.
  intros prec emax Hp He d F n u exact K.
  pose proof (RSS_error prec emax Hp He d F) as E. cbv zeta in E.
  assert (I2 : INR (length d + 3) = n + 3) by (rewrite plus_INR; cbn [INR]; unfold n; ring).
  pose proof (factor_bound prec (length d + 3)) as B. rewrite I2 in B. specialize (B K). fold u in B, E.
  assert (U0 : 0 <= u) by apply u_pos. assert (N0 : 0 <= n) by apply pos_INR.
  assert (NU : n * u <= 1) by (replace ((n + 3) * u) with (n * u + 3 * u) in K by ring; lra).
  pose proof (factor_bound prec (length d) NU) as B'. fold u n in B'.
  assert (E0 : 0 <= exact) by (unfold exact; clear; induction d as [|x r IH]; cbn; [lra|]; pose proof (Rle_0_sqr (B2R (fst x) - B2R (snd x))); lra).
  assert (T0 : 0 <= tiny prec emax) by apply tiny_pos.
  eapply Rle_trans; [exact E|]. change (exact_sum (fun p => Rsqr (diff_of prec emax p)) d) with exact. fold n.
  apply Rplus_le_compat; [apply Rmult_le_compat_r; assumption|].
  replace (3 * n * tiny prec emax) with (n * tiny prec emax * 3) by ring.
  apply Rmult_le_compat_l; [apply Rmult_le_pos; assumption|]. lra.
Qed.
Theorem C85_msd_error :
  forall (prec emax : Z) (Hp : Prec_gt_0 prec) (He : Prec_lt_emax prec emax) (d : list (binary_float prec emax * binary_float prec emax)),
    d <> [] -> (Z.of_nat (length d) <= 2 ^ prec)%Z -> is_finite (f_msd prec emax Hp He d) = true ->
    let n := INR (length d) in let u := unit_roundoff prec in
    let exact := exact_sum (fun p => Rsqr (B2R (fst p) - B2R (snd p))) d / n in
    (n + 4) * u <= 1 ->
    Rabs (B2R (f_msd prec emax Hp He d) - exact) <= 2 * (n + 4) * u * exact + 4 * tiny prec emax.
Proof.
  intros prec emax Hp He d N L F n u exact K.
  pose proof (msd_error prec emax Hp He d N L F) as E. cbv zeta in E.
  assert (I2 : INR (length d + 4) = n + 4) by (rewrite plus_INR; cbn [INR]; unfold n; ring).
  pose proof (factor_bound prec (length d + 4)) as B. rewrite I2 in B. specialize (B K). fold u in B, E.
  assert (U0 : 0 <= u) by apply u_pos. assert (N0 : 0 <= n) by apply pos_INR.
  assert (I1 : INR (length d + 1) = n + 1) by (rewrite plus_INR; cbn [INR]; unfold n; ring).
  assert (NU : (n + 1) * u <= 1) by (replace ((n + 4) * u) with ((n + 1) * u + 3 * u) in K by ring; lra).
  pose proof (factor_bound prec (length d + 1)) as B'. rewrite I1 in B'. specialize (B' NU). fold u in B'.
  assert (P : 0 < n) by (apply lt_0_INR; destruct d; [congruence|cbn; lia]).
  assert (E0 : 0 <= exact).
  { unfold exact. apply Rmult_le_pos; [|left; apply Rinv_0_lt_compat, P].
    clear; induction d as [|x r IH]; cbn; [lra|]; pose proof (Rle_0_sqr (B2R (fst x) - B2R (snd x))); lra. }
  assert (T0 : 0 <= tiny prec emax) by apply tiny_pos.
  eapply Rle_trans; [exact E|]. change (exact_sum (fun p => Rsqr (diff_of prec emax p)) d / INR (length d)) with exact.
  assert (X1 : ((1 + u) ^ (length d + 4) - 1) * exact <= 2 * (n + 4) * u * exact) by (apply Rmult_le_compat_r; assumption).
  assert (X2 : tiny prec emax * (1 + u) ^ (length d + 1) <= tiny prec emax * 3) by (apply Rmult_le_compat_l; [exact T0|lra]).
  lra.
Qed.
Theorem C85_mean_error :
  forall (prec emax : Z) (Hp : Prec_gt_0 prec) (He : Prec_lt_emax prec emax) (l : list (binary_float prec emax)),
    l <> [] -> (Z.of_nat (length l) <= 2 ^ prec)%Z -> is_finite (f_mean prec emax Hp He l) = true ->
    let n := INR (length l) in let u := unit_roundoff prec in
    let exact := exact_sum B2R l / n in let size := exact_sum (fun x => Rabs (B2R x)) l / n in
    (n + 1) * u <= 1 ->
    Rabs (B2R (f_mean prec emax Hp He l) - exact) <= 2 * (n + 1) * u * size + tiny prec emax.
Proof.
  intros prec emax Hp He d N L F n u exact size K.
  pose proof (mean_error prec emax Hp He d N L F) as E. cbv zeta in E.
  assert (I2 : INR (length d + 1) = n + 1) by (rewrite plus_INR; reflexivity).
  pose proof (factor_bound prec (length d + 1)) as B. rewrite I2 in B. specialize (B K). fold u in B, E.
  assert (S0 : 0 <= size).
  { unfold size. apply Rmult_le_pos; [|left; apply Rinv_0_lt_compat, lt_0_INR; destruct d; [congruence|cbn; lia]].
    eapply Rle_trans; [apply Rabs_pos|]. apply (exact_sum_abs _ B2R). intros x. apply Rle_refl. }
  eapply Rle_trans; [exact E|]. apply Rplus_le_compat_r. fold n. fold size.
  apply Rmult_le_compat_r; [exact S0|exact B].
Qed.
Lemma u53 : unit_roundoff 53 <= / 1000000000000000.
Proof.
  unfold unit_roundoff. replace (bpow radix2 (1 - 53)) with (/ IZR (2 ^ 52)) by reflexivity.
  rewrite <- Rinv_mult. apply Rinv_le_contravar; [lra|]. rewrite <- mult_IZR. apply IZR_le. vm_compute. discriminate.
Qed.
Example C85_case :
  let d := tenths [(6, 6); (7, 5); (5, 4)]%Z in let n := INR (length d) in
  d <> [] /\ (Z.of_nat (length d) <= 2 ^ 53)%Z /\ is_finite (dbl f_bias d) = true /\ is_finite (dbl f_RSS d) = true
  /\ is_finite (dbl f_msd d) = true /\ is_finite (dbl f_mean (map fst d)) = true /\ (n + 4) * unit_roundoff 53 <= 1.
Proof.
  cbv zeta. split; [discriminate|]. split; [cbn; lia|]. repeat (split; [vm_compute; reflexivity|]).
  replace (INR (length (tenths [(6, 6); (7, 5); (5, 4)]%Z))) with 3 by (cbn; lra). pose proof u53. lra.
Qed.
(* means are not exact even when the exact mean is a number of the format *)
Theorem C85_exactness_refuted :
  exists x : double, is_finite x = true /\ B2SF (dbl f_mean [x; x; x]) <> B2SF x.
Proof. exists (dec 1 10). split; [vm_compute; reflexivity|]. vm_compute. discriminate. Qed.
Print Assumptions C85_bias_error.
Print Assumptions C85_msd_error.

(* ------------------------------------------------------------------ C86 *)
(* min_max, when source, reference and all intermediate ranges and results are finite *)
Section MinMax.
Variables prec emax : Z.
Context (Hp : Prec_gt_0 prec) (He : Prec_lt_emax prec emax).
Notation float := (binary_float prec emax).
Notation fin := (fun x : float => is_finite x = true).
(* the order of the values is kept, and no value falls below the smallest value of the reference; the
   smallest value is mapped to it exactly *)
Theorem C86_min_max_order :
  forall (x : float) (src : list float) (r : float) (ref : list float) (i j : nat) (v w a b : float),
    Forall fin (x :: src) -> Forall fin (r :: ref) ->
    is_finite (fsub prec emax Hp He (np_max prec emax x src) (np_min prec emax x src)) = true ->
    nth_error (x :: src) i = Some v -> nth_error (x :: src) j = Some w ->
    nth_error (f_min_max prec emax Hp He x src r ref) i = Some a -> nth_error (f_min_max prec emax Hp He x src r ref) j = Some b ->
    is_finite a = true -> is_finite b = true -> B2R v <= B2R w -> B2R a <= B2R b.
Proof.
  intros x src r ref i j v w a b FS FR FD V W A B Fa Fb L.
  inversion FS as [|x' s' Fx Fs]; subst x' s'. inversion FR as [|r' s' Fr Fr']; subst r' s'.
  rewrite (min_max_nth prec emax Hp He x src r ref i v V) in A. injection A as A. subst a.
  rewrite (min_max_nth prec emax Hp He x src r ref j w W) in B. injection B as B. subst b.
  destruct (np_min_spec prec emax src x Fx Fs) as [_ A1]. destruct (np_max_spec prec emax src x Fx Fs) as [_ A2].
  destruct (np_min_spec prec emax ref r Fr Fr') as [_ B1]. destruct (np_max_spec prec emax ref r Fr Fr') as [_ B2].
  inversion A1; inversion A2; inversion B1; inversion B2; subst. apply scaled_mono; auto; lra.
Qed.
Theorem C86_min_max_lower :
  forall (x : float) (src : list float) (r : float) (ref : list float) (i : nat) (m a v : float),
    Forall fin (x :: src) -> Forall fin (r :: ref) ->
    is_finite (fsub prec emax Hp He (np_max prec emax x src) (np_min prec emax x src)) = true ->
    (* m is the smallest value of the reference; v, at position i, any value *)
    In m (r :: ref) -> Forall (fun z => B2R m <= B2R z) (r :: ref) ->
    nth_error (x :: src) i = Some v -> nth_error (f_min_max prec emax Hp He x src r ref) i = Some a -> is_finite a = true ->
    Forall (fun z => is_finite z = true) (f_min_max prec emax Hp He x src r ref) ->
    B2R m <= B2R a /\ (Forall (fun z => B2R v <= B2R z) (x :: src) -> B2R a = B2R m).
Proof.
  intros x src r ref i m a v FS FR FD Im Lm V A Fa FA.
  inversion FS as [|x' s' Fx Fs]; subst x' s'. inversion FR as [|r' s' Fr Fr']; subst r' s'.
  rewrite (min_max_nth prec emax Hp He x src r ref i v V) in A. injection A as A. subst a.
  destruct (np_min_spec prec emax src x Fx Fs) as [I1 A1]. destruct (np_max_spec prec emax src x Fx Fs) as [_ A2].
  destruct (np_min_spec prec emax ref r Fr Fr') as [J1 B1]. destruct (np_max_spec prec emax ref r Fr Fr') as [_ B2].
  assert (SM : B2R (np_min prec emax x src) <= B2R (np_max prec emax x src)) by (inversion A1; inversion A2; subst; lra).
  assert (RM : B2R (np_min prec emax r ref) <= B2R (np_max prec emax r ref)) by (inversion B1; inversion B2; subst; lra).
  assert (EM : B2R m = B2R (np_min prec emax r ref)).
  { apply Rle_antisym; [rewrite Forall_forall in Lm; apply Lm, J1|rewrite Forall_forall in B1; apply B1, Im]. }
  assert (Vin : In v (x :: src)) by (apply nth_error_In with i, V).
  apply In_nth_error in I1. destruct I1 as [k K].
  pose proof (min_max_nth prec emax Hp He x src r ref k _ K) as MK.
  assert (FK := FA). rewrite Forall_forall in FK. specialize (FK _ (nth_error_In _ _ MK)).
  rewrite Forall_forall in A1.
  split.
  - rewrite EM, <- (scaled_min prec emax Hp He _ _ _ _ SM RM (np_min prec emax x src) FD FK eq_refl).
    apply scaled_mono; auto.
  - intros Mv. rewrite EM. apply scaled_min; auto. apply Rle_antisym; [|apply A1, Vin].
    rewrite Forall_forall in Mv. apply Mv. apply nth_error_In with k, K.
Qed.
(* values exceed the largest value of the reference by rounding errors at most *)
Theorem C86_min_max_upper_bound :
  forall (x : float) (src : list float) (r : float) (ref : list float) (i : nat) (lo hi a v : float),
    Forall fin (x :: src) -> Forall fin (r :: ref) ->
    is_finite (fsub prec emax Hp He (np_max prec emax x src) (np_min prec emax x src)) = true ->
    In lo (r :: ref) -> In hi (r :: ref) -> Forall (fun z => B2R lo <= B2R z <= B2R hi) (r :: ref) ->
    nth_error (x :: src) i = Some v -> nth_error (f_min_max prec emax Hp He x src r ref) i = Some a ->
    Forall (fun z => is_finite z = true) (f_min_max prec emax Hp He x src r ref) ->
    let u := unit_roundoff prec in let range := B2R hi - B2R lo in
    B2R a <= B2R hi + u * (Rabs (B2R hi) + (1 + u) * range)
    /\ (Forall (fun z => B2R z <= B2R v) (x :: src) -> B2R hi - u * (Rabs (B2R hi) + (1 + u) * range) <= B2R a).
Proof.
  intros x src r ref i lo hi a v FS FR FD Ilo Ihi LH V A FA u range.
  inversion FS as [|x' s' Fx Fs]; subst x' s'. inversion FR as [|r' s' Fr Fr']; subst r' s'.
  rewrite (min_max_nth prec emax Hp He x src r ref i v V) in A. injection A as A. subst a.
  destruct (np_min_spec prec emax src x Fx Fs) as [_ A1]. destruct (np_max_spec prec emax src x Fx Fs) as [I2 A2].
  destruct (np_min_spec prec emax ref r Fr Fr') as [J1 B1]. destruct (np_max_spec prec emax ref r Fr Fr') as [J2 B2].
  assert (SM : B2R (np_min prec emax x src) <= B2R (np_max prec emax x src)) by (inversion A1; inversion A2; subst; lra).
  assert (RM : B2R (np_min prec emax r ref) <= B2R (np_max prec emax r ref)) by (inversion B1; inversion B2; subst; lra).
  rewrite Forall_forall in LH, A1, A2, B1, B2.
  assert (ELO : B2R lo = B2R (np_min prec emax r ref)) by (apply Rle_antisym; [apply LH, J1|apply B1, Ilo]).
  assert (EHI : B2R hi = B2R (np_max prec emax r ref)) by (apply Rle_antisym; [apply B2, Ihi|apply LH, J2]).
  assert (Vin : In v (x :: src)) by (apply nth_error_In with i, V).
  apply In_nth_error in I2. destruct I2 as [k K].
  pose proof (min_max_nth prec emax Hp He x src r ref k _ K) as MK. pose proof (min_max_nth prec emax Hp He x src r ref i _ V) as MV.
  rewrite Forall_forall in FA. pose proof (FA _ (nth_error_In _ _ MK)) as FK. pose proof (FA _ (nth_error_In _ _ MV)) as FV.
  pose proof (scaled_max prec emax Hp He _ _ _ _ SM RM (np_max prec emax x src) FD FK eq_refl) as TOP.
  rewrite <- ELO, <- EHI in TOP. fold range in TOP.
  assert (R0 : 0 <= range) by (unfold range; rewrite ELO, EHI; lra).
  pose proof (err_sub prec emax Hp _ _ (B2R_format prec emax hi) (B2R_format prec emax lo)) as E1. fold range u in E1.
  rewrite (Rabs_pos_eq range) in E1 by exact R0. apply Rabs_le_inv in E1.
  assert (G1 : generic_format radix2 (FLT_exp (3 - emax - prec) prec) (rnd prec emax range)).
  { apply generic_format_round; auto with typeclass_instances. }
  pose proof (err_add prec emax Hp _ _ G1 (B2R_format prec emax lo)) as E2. fold u in E2.
  assert (U0 : 0 <= u) by apply u_pos.
  assert (M : Rabs (rnd prec emax range + B2R lo) <= Rabs (B2R hi) + u * range).
  { replace (rnd prec emax range + B2R lo) with (B2R hi + (rnd prec emax range - range)) by (unfold range; ring).
    eapply Rle_trans; [apply Rabs_triang|]. apply Rplus_le_compat_l. apply Rabs_le. lra. }
  assert (E3 : u * Rabs (rnd prec emax range + B2R lo) <= u * (Rabs (B2R hi) + u * range)) by (apply Rmult_le_compat_l; assumption).
  apply Rabs_le_inv in E2.
  assert (T1 : B2R hi - u * (Rabs (B2R hi) + (1 + u) * range) <= rnd prec emax (rnd prec emax range + B2R lo) <= B2R hi + u * (Rabs (B2R hi) + (1 + u) * range)).
  { replace (u * (Rabs (B2R hi) + (1 + u) * range)) with (u * range + u * (Rabs (B2R hi) + u * range)) by ring. unfold range in *. lra. }
  split.
  - eapply Rle_trans; [apply (scaled_mono prec emax Hp He _ _ _ _ SM RM v (np_max prec emax x src) FD FV FK (A2 _ Vin))|]. rewrite TOP. apply T1.
  - intros Mv. rewrite Forall_forall in Mv.
    assert (EV : B2R v = B2R (np_max prec emax x src)) by (apply Rle_antisym; [apply A2, Vin|apply Mv; apply nth_error_In with k, K]).
    rewrite (scaled_max prec emax Hp He _ _ _ _ SM RM v FD FV EV), <- ELO, <- EHI. apply T1.
Qed.
End MinMax.
Example C86_case :
  let x := dec 1 10 in let src := [dec 5 10; dec 3 10] in let r := dec (-2) 10 in let ref := [dec 9 10] in
  forallb is_finite (dbl f_min_max x src r ref) = true
  /\ is_finite (dbl fsub (np_max _ _ x src) (np_min _ _ x src)) = true
  /\ option_map B2SF (nth_error (dbl f_min_max x src r ref) 0) = Some (B2SF r).
Proof. cbv zeta. split; [vm_compute; reflexivity|]. split; vm_compute; reflexivity. Qed.
(* the largest value may be mapped above, or below, the largest value of the reference *)
Theorem C86_min_max_upper_refuted :
  (* 0 and 1 scaled to the range of -0.2 and 0.9, and of -0.3 and 0.6 *)
  option_map (Bltb (np_max _ _ (dec (-2) 10) [dec 9 10])) (nth_error (dbl f_min_max zero [dyad 1 0] (dec (-2) 10) [dec 9 10]) 1) = Some true
  /\ option_map (fun a => Bltb a (np_max _ _ (dec (-3) 10) [dec 6 10])) (nth_error (dbl f_min_max zero [dyad 1 0] (dec (-3) 10) [dec 6 10]) 1) = Some true.
Proof. split; vm_compute; reflexivity. Qed.
Print Assumptions C86_min_max_order.
Print Assumptions C86_min_max_lower.
