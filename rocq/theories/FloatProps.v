(* C82 - C86: the metrics in IEEE 754 arithmetic.  The format is any binary format (prec, emax); the
   examples use double precision. *)
From Coq Require Import ZArith Reals List Lia Lra Bool.
From Flocq Require Import Core IEEE754.BinarySingleNaN.
From Verif Require Import FloatModel FloatSpec FloatProofs FloatProofs2 FloatProofs3 FloatProofs4 FloatProofs5.
Import ListNotations.
Open Scope R_scope.

(* ---- double precision, for the examples ---- *)
Definition p53 : Prec_gt_0 53 := eq_refl.
Definition e1024 : Prec_lt_emax 53 1024 := eq_refl.
Notation double := (binary_float 53 1024).
(* a/b rounded, as python reads a decimal fraction: dec 1 10 is 0.1 *)
Definition dec (a b : Z) : double := fdiv 53 1024 p53 e1024 (of_z 53 1024 p53 e1024 a) (of_z 53 1024 p53 e1024 b).
(* m * 2^e *)
Definition dyad (m e : Z) : double := binary_normalize 53 1024 p53 e1024 mode_NE m e false.
Definition tenths (l : list (Z * Z)) : list (double * double) := map (fun p => (dec (fst p) 10, dec (snd p) 10)) l.
(* scipy.special.betainc is not needed for the examples: any function does *)
Definition no_p : double -> double -> double -> double := fun _ _ _ => B754_nan.
Notation dbl f := (f 53%Z 1024%Z p53 e1024).

(* ------------------------------------------------------------------ C82 *)
(* whatever the moments are - infinite, NaN or negative by rounding - the correlation is NaN or a
   number from -1 to 1; it is NaN only if a variance is zero *)
Theorem C82_range :
  forall (prec emax : Z) (Hp : Prec_gt_0 prec) (He : Prec_lt_emax prec emax) betainc (d : list (binary_float prec emax * binary_float prec emax)),
    correlation_or_nan prec emax (fst (f_pearson_of prec emax Hp He betainc d)).
Proof. intros. apply f_pearson_or_nan. Qed.
Theorem C82_rolling_range :
  forall (prec emax : Z) (Hp : Prec_gt_0 prec) (He : Prec_lt_emax prec emax) betainc ts d window center min_periods,
    Forall (fun row => correlation_or_nan prec emax (fst (fst row)))
           (f_rolling prec emax Hp He betainc ts d window center min_periods).
Proof. intros. apply roll_loop_range. Qed.
Theorem C82_nan_only_for_zero_variance :
  forall (prec emax : Z) (Hp : Prec_gt_0 prec) (He : Prec_lt_emax prec emax) betainc (d : list (binary_float prec emax * binary_float prec emax)),
    let m := f_moments prec emax Hp He d in
    is_nan (fst (f_pearson_of prec emax Hp He betainc d)) = true ->
    (is_finite (fm_vx _ _ m) = true /\ B2R (fm_vx _ _ m) = 0) \/ (is_finite (fm_vy _ _ m) = true /\ B2R (fm_vy _ _ m) = 0).
Proof.
  intros prec emax Hp He betainc d m N. unfold f_pearson_of in N. cbv zeta in N. fold m in N.
  destruct (f_pearson_range prec emax Hp He betainc (fm_vx _ _ m) (fm_vy _ _ m) (fm_cov _ _ m) (Z.of_nat (length d))) as [[_ Z]|[F _]].
  - assert (Q : forall a : binary_float prec emax, Beqb a (f0 prec emax) = true -> is_finite a = true /\ B2R a = 0).
    { intros a E. destruct (is_finite a) eqn:F.
      - split; [reflexivity|]. rewrite Beqb_correct in E by auto. destruct (Req_bool_spec (B2R a) (B2R (f0 prec emax))) as [X|X]; [exact X|discriminate].
      - destruct a as [s|s| |s q e H]; try (cbn in F; discriminate); cbn in E; try discriminate. destruct s; discriminate. }
    apply orb_true_iff in Z. destruct Z as [Z|Z]; [left|right]; apply Q, Z.
  - destruct (fst _); cbn in *; discriminate.
Qed.
(* a missing value does not make the correlation NaN: it makes it exactly -1 with p-value 0, unless
   the other series is constant.  "The correlation of series with missing values is NaN" fails for
   all of them, not just for some *)
Theorem C82_missing_value_gives_minus_one :
  forall (prec emax : Z) (Hp : Prec_gt_0 prec) (He : Prec_lt_emax prec emax) betainc (d : list (binary_float prec emax * binary_float prec emax)),
    let m := f_moments prec emax Hp He d in
    (Exists (fun p => is_nan (fst p) = true) d /\ Beqb (fm_vy _ _ m) (f0 prec emax) = false) \/
    (Exists (fun p => is_nan (snd p) = true) d /\ Beqb (fm_vx _ _ m) (f0 prec emax) = false) ->
    f_pearson_of prec emax Hp He betainc d = (fm1 prec emax Hp He, f0 prec emax).
Proof. intros prec emax Hp He betainc d m [[E V]|[E V]]; [apply missing_x|apply missing_y]; assumption. Qed.
Definition with_missing : list (double * double) := (B754_nan, dec 1 10) :: tenths [(2, 3); (3, 5)]%Z.
Example C82_missing_value_case :
  Exists (fun p => is_nan (fst p) = true) with_missing
  /\ Beqb (fm_vy _ _ (dbl f_moments with_missing)) (f0 53 1024) = false
  /\ map B2SF [fst (dbl f_pearson_of no_p with_missing); snd (dbl f_pearson_of no_p with_missing)] = map B2SF [dyad (-1) 0; dyad 0 0].
Proof. split; [constructor; reflexivity|]. split; vm_compute; reflexivity. Qed.
Theorem C82_missing_is_nan_refuted :
  ~ (forall betainc d, Exists (fun p => is_nan (fst p) = true) d -> is_nan (fst (dbl f_pearson_of betainc d)) = true).
Proof.
  intros H. specialize (H no_p with_missing). assert (E : is_nan (fst (dbl f_pearson_of no_p with_missing)) = false) by (vm_compute; reflexivity).
  rewrite H in E; [discriminate|]. constructor. reflexivity.
Qed.
(* small numbers: the product of the variances underflows and the correlation is -1 or 1.  The series
   (a, 0, 0, a) and (a, a, 0, 0) are uncorrelated; with a = 2^-300 the correlation is -1 *)
Definition small : double := dyad 1 (-300).
Definition zero : double := dyad 0 0.
Definition uncorrelated (a : double) : list (double * double) := [(a, a); (zero, a); (zero, zero); (a, zero)].
Theorem C82_underflow_refuted :
  B2SF (fst (dbl f_pearson_of no_p (uncorrelated small))) = B2SF (dyad (-1) 0)
  /\ B2SF (fst (dbl f_pearson_of no_p (uncorrelated (dyad 1 0)))) = B2SF (dyad 0 0).
Proof. split; vm_compute; reflexivity. Qed.
Print Assumptions C82_range.
Print Assumptions C82_rolling_range.
Print Assumptions C82_missing_value_gives_minus_one.

(* ------------------------------------------------------------------ C83 *)
(* exchanging the series leaves RSS, MSD, RMSD, ubRMSD and two components of the MSE the same to the
   last bit, and the bias changes its sign *)
Theorem C83_exchange :
  forall (prec emax : Z) (Hp : Prec_gt_0 prec) (He : Prec_lt_emax prec emax) (d : list (binary_float prec emax * binary_float prec emax)),
    let e := exchanged prec emax d in
    f_RSS prec emax Hp He e = f_RSS prec emax Hp He d
    /\ f_msd prec emax Hp He e = f_msd prec emax Hp He d
    /\ f_rmsd prec emax Hp He e = f_rmsd prec emax Hp He d
    /\ f_ubrmsd prec emax Hp He e = f_ubrmsd prec emax Hp He d
    /\ f_mse_var prec emax Hp He (f_moments prec emax Hp He e) = f_mse_var prec emax Hp He (f_moments prec emax Hp He d)
    /\ f_mse_bias prec emax Hp He (f_moments prec emax Hp He e) = f_mse_bias prec emax Hp He (f_moments prec emax Hp He d)
    /\ opposite prec emax (f_bias prec emax Hp He d) (f_bias prec emax Hp He e).
Proof.
  intros prec emax Hp He d e. destruct (mse_parts_exchanged prec emax Hp He d) as [V B].
  split; [apply RSS_exchanged|]. split; [apply msd_exchanged|]. split; [apply rmsd_exchanged|]. split; [apply ubrmsd_exchanged|].
  split; [exact V|]. split; [exact B|apply bias_exchanged].
Qed.
(* the correlation is not symmetric to the last bit *)
Theorem C83_correlation_exchange_refuted :
  exists d, B2SF (fst (dbl f_pearson_of no_p (exchanged 53 1024 d))) <> B2SF (fst (dbl f_pearson_of no_p d)).
Proof. exists (tenths [(6, 6); (7, 5); (5, 4)]%Z). vm_compute. discriminate. Qed.
Example C83_exchange_case :
  let d := tenths [(6, 6); (7, 5); (5, 4)]%Z in
  B2SF (dbl f_rmsd (exchanged 53 1024 d)) = B2SF (dbl f_rmsd d) /\ is_finite (dbl f_rmsd d) = true
  /\ B2SF (dbl f_bias (exchanged 53 1024 d)) = B2SF (Bopp (dbl f_bias d)) /\ B2SF (dbl f_bias d) <> B2SF zero.
Proof. cbv zeta. split; [vm_compute; reflexivity|]. split; [vm_compute; reflexivity|]. split; [vm_compute; reflexivity|]. vm_compute. discriminate. Qed.
(* a series compared with itself: RSS, MSD, RMSD and bias are exactly 0 *)
Theorem C83_self_is_zero :
  forall (prec emax : Z) (Hp : Prec_gt_0 prec) (He : Prec_lt_emax prec emax) (l : list (binary_float prec emax)),
    Forall (fun x => is_finite x = true) l -> l <> [] ->
    let d := map (fun x => (x, x)) l in
    f_RSS prec emax Hp He d = f0 prec emax /\ f_msd prec emax Hp He d = f0 prec emax
    /\ f_rmsd prec emax Hp He d = f0 prec emax /\ f_bias prec emax Hp He d = f0 prec emax.
Proof. intros. apply self_zero; assumption. Qed.
(* and the correlation is exactly 1 with p-value 0, unless the square of the variance underflows or
   overflows *)
Theorem C83_self_correlation :
  forall (prec emax : Z) (Hp : Prec_gt_0 prec) (He : Prec_lt_emax prec emax) betainc (l : list (binary_float prec emax)),
    let d := map (fun x => (x, x)) l in
    let v := fm_vx _ _ (f_moments prec emax Hp He d) in
    is_finite (fmul prec emax Hp He v v) = true -> bpow radix2 (2 - emax) <= B2R v * B2R v ->
    f_pearson_of prec emax Hp He betainc d = (f1 prec emax Hp He, f0 prec emax).
Proof. intros. apply self_correlation; assumption. Qed.
Definition ramp : list double := [dec 1 10; dec 3 10; dec 7 10].
Lemma small_bound : forall v : double, is_finite v = true -> Bltb (dyad 1 (-500)) v = true -> bpow radix2 (2 - 1024) <= B2R v * B2R v.
Proof.
  intros v F L. rewrite Bltb_correct in L by (try exact F; vm_compute; reflexivity).
  destruct (Rlt_bool_spec (B2R (dyad 1 (-500))) (B2R v)) as [Q|Q]; [|discriminate].
  assert (E : B2R (dyad 1 (-500)) = bpow radix2 (-500)).
  { assert (X : B2SF (dyad 1 (-500)) = SpecFloat.S754_finite false (2 ^ 52) (-552)) by (vm_compute; reflexivity).
    destruct (dyad 1 (-500)) as [s|s| |s m e H]; try discriminate. cbn in X. injection X as X1 X2 X3. subst s e. cbn [B2R].
    rewrite X2. unfold F2R. cbn [Fnum Fexp SpecFloat.cond_Zopp].
    change 4503599627370496%R with (IZR (Zpower radix2 52)). rewrite (IZR_Zpower radix2 52) by lia.
    rewrite <- bpow_plus. reflexivity. }
  rewrite E in Q. apply Rle_trans with (bpow radix2 (-500 + -500)); [apply bpow_le; lia|]. rewrite bpow_plus.
  pose proof (bpow_gt_0 radix2 (-500)). apply Rmult_le_compat; lra.
Qed.
Example C83_self_correlation_case :
  let d := map (fun x => (x, x)) ramp in
  let v := fm_vx _ _ (dbl f_moments d) in
  is_finite (dbl fmul v v) = true /\ bpow radix2 (2 - 1024) <= B2R v * B2R v.
Proof. cbv zeta. split; [vm_compute; reflexivity|]. apply small_bound; vm_compute; reflexivity. Qed.
(* with a series of very small numbers the correlation with itself is 25/32 *)
Theorem C83_self_correlation_refuted :
  exists l, l <> [] /\ B2SF (fst (dbl f_pearson_of no_p (map (fun x => (x, x)) l))) = B2SF (dyad 25 (-5)).
Proof. exists [zero; dyad 5 (-270)]. split; [discriminate|]. vm_compute. reflexivity. Qed.
Print Assumptions C83_exchange.
Print Assumptions C83_self_correlation.
