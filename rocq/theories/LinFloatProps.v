(* C107: mean_std and the linear scalings in IEEE 754 arithmetic. *)
From Coq Require Import ZArith Reals List Lia Lra Bool.
From Flocq Require Import Core IEEE754.BinarySingleNaN.
From Verif Require Import FloatModel FloatSpec FloatProofs FloatProofs4 FloatProofs5 FloatProps LinFloatModel LinFloatProofs.
Import ListNotations.
Open Scope R_scope.

(* The summation of numpy: adding numbers that are not negative gives no negative number. *)
Definition sums_sign {prec emax} (sum : list (binary_float prec emax) -> binary_float prec emax) : Prop :=
  forall l, Forall (fun x => Bsign x = false) l -> Bsign (sum l) = false.

Lemma add_sign prec emax Hp He (a b : binary_float prec emax) : Bsign a = false -> Bsign b = false -> Bsign (fadd prec emax Hp He a b) = false.
Proof.
  intros A B. destruct (is_finite a) eqn:FA; [destruct (is_finite b) eqn:FB|].
  - pose proof (Bplus_correct prec emax Hp He mode_NE a b FA FB) as C. pose proof (sign_le prec emax a FA) as SA. pose proof (sign_le prec emax b FB) as SB. rewrite A in SA. rewrite B in SB.
    unfold fadd. match type of C with (if ?c then _ else _) => destruct c end.
    + destruct C as (_ & _ & ->). destruct (Rcompare_spec (B2R a + B2R b) 0); [lra|rewrite A, B; reflexivity|reflexivity].
    + destruct C as (C & _). apply not_finite_overflow in C. rewrite C. exact A.
  - destruct b as [s|s| |s m e H]; try discriminate; destruct a as [t|t| |t m' e' H']; try discriminate; cbn in *; subst; reflexivity.
  - destruct a as [t|t| |t m' e' H']; try discriminate; destruct b as [s|s| |s m e H]; cbn in *; subst; reflexivity.
Qed.
Lemma np_sum_sign prec emax Hp He : sums_sign (np_sum prec emax Hp He).
Proof.
  intros l F. unfold np_sum. assert (G : forall l (x : binary_float prec emax), Bsign x = false -> Forall (fun x => Bsign x = false) l -> Bsign (fold_left (fadd prec emax Hp He) l x) = false).
  { clear. induction l as [|y l IH]; intros x X F; [exact X|]. inversion F; subst. cbn [fold_left]. apply IH; [apply add_sign; assumption|assumption]. }
  apply G; [reflexivity|exact F].
Qed.
Lemma sq_sign prec emax Hp He (x : binary_float prec emax) : Bsign (fsq prec emax Hp He x) = false.
Proof.
  unfold fsq, fmul. destruct x as [s|s| |s m e H].
  - cbn. apply xorb_nilpotent.
  - cbn. apply xorb_nilpotent.
  - reflexivity.
  - pose proof (Bmult_correct prec emax Hp He mode_NE (B754_finite s m e H) (B754_finite s m e H)) as C. match type of C with (if ?c then _ else _) => destruct c end.
    + destruct C as (_ & F & C). rewrite C by (apply fin_nan; exact F). apply xorb_nilpotent.
    + apply not_finite_overflow in C. rewrite C. apply xorb_nilpotent.
Qed.
Lemma std_sign prec emax Hp He sum (l : list (binary_float prec emax)) : sums_sign sum -> Bsign (np_std prec emax Hp He sum l) = false.
Proof.
  intros S. unfold np_std. apply sqrt_sign, div_sign.
  - apply S. apply Forall_forall. intros x I. apply in_map_iff in I as (v & <- & _). apply sq_sign.
  - apply of_n_nn.
Qed.

(* mean_std keeps the order, whatever the series, the reference and the order of summation: also with NaN, infinities, overflow and
   standard deviations of zero. *)
Theorem C107_mean_std_order :
  forall prec emax (Hp : Prec_gt_0 prec) (He : Prec_lt_emax prec emax) sum src ref i j v w a b, sums_sign sum ->
    nth_error src i = Some v -> nth_error src j = Some w -> Bleb v w = true ->
    nth_error (f_mean_std prec emax Hp He sum src ref) i = Some a -> nth_error (f_mean_std prec emax Hp He sum src ref) j = Some b ->
    is_nan a = false -> is_nan b = false -> Bleb a b = true.
Proof.
  intros prec emax Hp He sum src ref i j v w a b S V W L A B NA NB. unfold f_mean_std in A, B. rewrite nth_error_map, V in A. rewrite nth_error_map, W in B. cbn [option_map] in A, B.
  assert (EA : fadd prec emax Hp He (fmul prec emax Hp He (fdiv prec emax Hp He (fsub prec emax Hp He v (np_mean prec emax Hp He sum src)) (np_std prec emax Hp He sum src)) (np_std prec emax Hp He sum ref)) (np_mean prec emax Hp He sum ref) = a) by congruence.
  assert (EB : fadd prec emax Hp He (fmul prec emax Hp He (fdiv prec emax Hp He (fsub prec emax Hp He w (np_mean prec emax Hp He sum src)) (np_std prec emax Hp He sum src)) (np_std prec emax Hp He sum ref)) (np_mean prec emax Hp He sum ref) = b) by congruence.
  subst a b. clear A B. pose proof (std_sign prec emax Hp He sum src S) as S1. pose proof (std_sign prec emax Hp He sum ref S) as S2.
  assert (N1 : forall x y : binary_float prec emax, is_nan (fadd prec emax Hp He x y) = false -> is_nan x = false) by (intros [| | |] y N; try reflexivity; discriminate N).
  assert (N2 : forall x y : binary_float prec emax, is_nan (fmul prec emax Hp He x y) = false -> is_nan x = false) by (intros [| | |] y N; try reflexivity; discriminate N).
  assert (N3 : forall x y : binary_float prec emax, is_nan (fdiv prec emax Hp He x y) = false -> is_nan x = false) by (intros [| | |] y N; try reflexivity; discriminate N).
  pose proof (N1 _ _ NA) as A1. pose proof (N1 _ _ NB) as B1. pose proof (N2 _ _ A1) as A2. pose proof (N2 _ _ B1) as B2. pose proof (N3 _ _ A2) as A3. pose proof (N3 _ _ B2) as B3.
  apply add_mono; [|assumption..]. apply mul_mono; [|assumption..]. apply div_mono; [|assumption..]. apply sub_mono; assumption.
Qed.
Print Assumptions C107_mean_std_order.

(* so do the linear scalings with stored parameters, also with a negative slope *)
Theorem C107_linreg_order :
  forall prec emax (Hp : Prec_gt_0 prec) (He : Prec_lt_emax prec emax) src slope intercept i j v w a b,
    nth_error src i = Some v -> nth_error src j = Some w -> Bleb v w = true ->
    nth_error (f_linreg_stored prec emax Hp He src slope intercept) i = Some a -> nth_error (f_linreg_stored prec emax Hp He src slope intercept) j = Some b ->
    is_nan a = false -> is_nan b = false -> Bleb a b = true.
Proof.
  intros prec emax Hp He src slope intercept i j v w a b V W L A B NA NB. unfold f_linreg_stored in A, B. rewrite nth_error_map, V in A. rewrite nth_error_map, W in B. cbn [option_map] in A, B.
  assert (EA : fadd prec emax Hp He (fmul prec emax Hp He v (Babs slope)) intercept = a) by (rewrite fmul_comm; congruence).
  assert (EB : fadd prec emax Hp He (fmul prec emax Hp He w (Babs slope)) intercept = b) by (rewrite fmul_comm; congruence).
  subst a b. assert (N1 : forall x y : binary_float prec emax, is_nan (fadd prec emax Hp He x y) = false -> is_nan x = false) by (intros [| | |] y N; try reflexivity; discriminate N).
  apply add_mono; [|assumption..]. apply mul_mono; [exact L|destruct slope; reflexivity|exact (N1 _ _ NA)|exact (N1 _ _ NB)].
Qed.
Print Assumptions C107_linreg_order.

Example C107_order_met :
  let src := [dec 1 10; dec 3 10; dec 2 10] in let ref := [dec 5 1; dec 7 1; dec 12 1; dec 1 3] in let out := dbl f_mean_std (dbl np_sum) src ref in
  let lin := dbl f_linreg_stored src (dec (-5) 2) (dec 1 3) in
  match src, out, lin with [a; b; c], [x; y; z], [l; m; n] =>
    Bltb a c && Bltb c b && Bltb x z && Bltb z y && Bltb l n && Bltb n m && negb (is_nan x) && negb (is_nan y) && negb (is_nan l) && negb (is_nan m) | _, _, _ => false end = true.
Proof. vm_compute. reflexivity. Qed.

(* Different values can become equal. *)
Theorem C107_strict_order_refuted :
  let src := [dec 1 1; dec 2 1; dyad 4503599627370497 (-51)] in let ref := [dec 1000 1; dec 1001 1; dec 1000 1] in
  match src, dbl f_mean_std (dbl np_sum) src ref with [_; a; b], [_; x; y] => Bltb a b && Beqb x y | _, _ => false end = true.
Proof. vm_compute. reflexivity. Qed.
Print Assumptions C107_strict_order_refuted.

(* A constant series has no spread: in exact arithmetic there is no result (0/0).  The mean of three times 0.1 is larger than 0.1,
   so the standard deviation is not 0 and all values are shifted by one standard deviation of the reference: 0.1835 instead of NaN
   (for a reference of 0, 1, 2). *)
Theorem C107_constant_refuted :
  let src := [dec 1 10; dec 1 10; dec 1 10] in let ref := [dec 0 1; dec 1 1; dec 2 1] in
  Bltb (dec 1 10) (dbl np_mean (dbl np_sum) src) = true /\ Bltb (dec 0 1) (dbl np_std (dbl np_sum) src) = true /\
  forallb (fun x => Beqb x (dbl fsub (dbl np_mean (dbl np_sum) ref) (dbl np_std (dbl np_sum) ref))) (dbl f_mean_std (dbl np_sum) src ref) = true /\
  forallb (fun x => Bltb (dec 183 1000) x && Bltb x (dec 184 1000)) (dbl f_mean_std (dbl np_sum) src ref) = true.
Proof. vm_compute. repeat split; reflexivity. Qed.
Print Assumptions C107_constant_refuted.
(* min_max has no result for constant series *)
Theorem C107_min_max_constant :
  forall prec emax (Hp : Prec_gt_0 prec) (He : Prec_lt_emax prec emax) n x r ref, is_finite x = true ->
    Forall (fun a => is_nan a = true) (f_min_max prec emax Hp He x (repeat x n) r ref).
Proof.
  intros prec emax Hp He n x r ref F. assert (MI : np_min prec emax x (repeat x n) = x).
  { unfold np_min. induction n as [|n IH]; [reflexivity|]. cbn [repeat fold_left]. unfold np_min2 at 2. rewrite (fin_nan prec emax x F). destruct (Bltb x x); exact IH. }
  assert (MA : np_max prec emax x (repeat x n) = x).
  { clear MI. unfold np_max. induction n as [|n IH]; [reflexivity|]. cbn [repeat fold_left]. unfold np_max2 at 2. rewrite (fin_nan prec emax x F). destruct (Bltb x x); exact IH. }
  unfold f_min_max. rewrite MI, MA. apply Forall_forall. intros a I. apply in_map_iff in I as (v & <- & I). assert (v = x) by (destruct I as [I|I]; [congruence|exact (repeat_spec _ _ _ I)]). subst v.
  assert (Z : exists s, fsub prec emax Hp He x x = B754_zero s).
  { destruct (fsub_cases prec emax Hp He x x F F) as [[_ [FS V]]|[O _]].
    - rewrite Rminus_diag_eq, rnd_0 in V by reflexivity. destruct (fsub prec emax Hp He x x) as [s|s| |s m e H]; try discriminate FS; [eauto|]. exfalso. cbn in V.
      destruct s; [assert (F2R (Float radix2 (Z.neg m) e) < 0) by (apply F2R_lt_0; reflexivity)|assert (0 < F2R (Float radix2 (Z.pos m) e)) by (apply F2R_gt_0; reflexivity)]; cbn in *; lra.
    - rewrite Rminus_diag_eq, rnd_0, Rabs_R0 in O by reflexivity. pose proof (big_pos emax). lra. }
  destruct Z as (s & ->). reflexivity.
Qed.
Print Assumptions C107_min_max_constant.

(* scaling a series to itself need not give it back *)
Theorem C107_identity_refuted :
  let src := [dec 1 10; dec 2 10; dec 8 10] in
  match dbl f_mean_std (dbl np_sum) src src with x :: _ => Bltb x (dec 1 10) | [] => false end = true.
Proof. vm_compute. reflexivity. Qed.
Print Assumptions C107_identity_refuted.

(* ---- the error of one result ---- *)
Notation U := (unit_roundoff 53).
Notation T := (tiny 53 1024).
Lemma U_val : U = bpow radix2 (-53). Proof. unfold unit_roundoff. change (/ 2) with (bpow radix2 (-1)). rewrite <- bpow_plus. reflexivity. Qed.
Lemma T_val : T = bpow radix2 (-1075). Proof. unfold tiny. change (/ 2) with (bpow radix2 (-1)). rewrite <- bpow_plus. reflexivity. Qed.
Lemma lin_error (m s M S v : double) :
  0 < B2R s -> 0 <= B2R S -> is_finite (dbl fadd (dbl fmul (dbl fdiv (dbl fsub v m) s) S) M) = true ->
  let p := (B2R v - B2R m) / B2R s * B2R S in
  Rabs (B2R (dbl fadd (dbl fmul (dbl fdiv (dbl fsub v m) s) S) M) - (p + B2R M)) <= U * Rabs (p + B2R M) + 5 * U * Rabs p + 2 * T * (B2R S + 1).
Proof.
  intros PS NS F p. destruct (fadd_finite_inv 53 1024 p53 e1024 _ _ F) as [F1 _]. destruct (fmul_finite_inv 53 1024 p53 e1024 _ _ F1) as [F2 _].
  pose proof (fdiv_finite_inv 53 1024 p53 e1024 _ _ F2) as F3. assert (NZ : B2R s <> 0) by lra.
  rewrite (fadd_val 53 1024 p53 e1024 _ _ F). pose proof (err_add 53 1024 p53 _ _ (B2R_format 53 1024 (dbl fmul (dbl fdiv (dbl fsub v m) s) S)) (B2R_format 53 1024 M)) as E4.
  rewrite (fmul_val 53 1024 p53 e1024 _ _ F1) in *. rewrite (fdiv_val 53 1024 p53 e1024 _ _ F2 NZ) in *. rewrite (fsub_val 53 1024 p53 e1024 _ _ F3) in *.
  pose proof (err_sub 53 1024 p53 _ _ (B2R_format 53 1024 v) (B2R_format 53 1024 m)) as E1. set (d := B2R v - B2R m) in *. set (d' := rnd 53 1024 d) in *.
  pose proof (err_any 53 1024 p53 (d' / B2R s)) as E2. set (q' := rnd 53 1024 (d' / B2R s)) in *. pose proof (err_any 53 1024 p53 (q' * B2R S)) as E3. set (p' := rnd 53 1024 (q' * B2R S)) in *.
  set (r := rnd 53 1024 (p' + B2R M)) in *. rewrite U_val in *. rewrite T_val in *. set (u := bpow radix2 (-53)) in *. set (t := bpow radix2 (-1075)) in *.
  assert (U0 : 0 < u) by apply bpow_gt_0. assert (T0 : 0 < t) by apply bpow_gt_0. assert (U1 : u <= / 100) by (unfold u; cbn; lra).
  set (q := d / B2R s). assert (IS : 0 < / B2R s) by (apply Rinv_0_lt_compat, PS).
  assert (Q1 : Rabs (d' / B2R s - q) <= u * Rabs q).
  { unfold q. replace (d' / B2R s - d / B2R s) with ((d' - d) * / B2R s) by (field; lra). unfold Rdiv. rewrite !Rabs_mult, (Rabs_right (/ B2R s)) by lra. nra. }
  assert (Q2 : Rabs (d' / B2R s) <= (1 + u) * Rabs q) by (pose proof (Rabs_triang (d' / B2R s - q) q) as X; replace (d' / B2R s - q + q) with (d' / B2R s) in X by ring; lra).
  assert (Q3 : Rabs (q' - q) <= (2 * u + u * u) * Rabs q + t) by (pose proof (Rabs_triang (q' - d' / B2R s) (d' / B2R s - q)) as X; replace (q' - d' / B2R s + (d' / B2R s - q)) with (q' - q) in X by ring; nra).
  assert (PQ : p = q * B2R S) by reflexivity. assert (AP : Rabs p = Rabs q * B2R S) by (rewrite PQ, Rabs_mult, (Rabs_right (B2R S)) by lra; reflexivity).
  assert (P1 : Rabs (q' * B2R S - p) <= (2 * u + u * u) * Rabs p + t * B2R S).
  { rewrite AP, PQ. replace (q' * B2R S - q * B2R S) with ((q' - q) * B2R S) by ring. rewrite Rabs_mult, (Rabs_right (B2R S)) by lra. nra. }
  assert (P2 : Rabs (q' * B2R S) <= (1 + (2 * u + u * u)) * Rabs p + t * B2R S) by (pose proof (Rabs_triang (q' * B2R S - p) p) as X; replace (q' * B2R S - p + p) with (q' * B2R S) in X by ring; lra).
  assert (AP0 : 0 <= Rabs p) by apply Rabs_pos.
  assert (P3 : Rabs (p' - p) <= (4 * u) * Rabs p + (t + t * B2R S * (1 + u))).
  { pose proof (Rabs_triang (p' - q' * B2R S) (q' * B2R S - p)) as X. replace (p' - q' * B2R S + (q' * B2R S - p)) with (p' - p) in X by ring.
    assert (Y : u * (1 + (2 * u + u * u)) + (2 * u + u * u) <= 4 * u) by nra.
    assert (Z : Rabs (p' - p) <= (u * (1 + (2 * u + u * u)) + (2 * u + u * u)) * Rabs p + (t + t * B2R S * (1 + u))) by nra. nra. }
  assert (R1 : Rabs (p' + B2R M) <= Rabs (p + B2R M) + Rabs (p' - p)) by (pose proof (Rabs_triang (p + B2R M) (p' - p)) as X; replace (p + B2R M + (p' - p)) with (p' + B2R M) in X by ring; lra).
  pose proof (Rabs_triang (r - (p' + B2R M)) (p' - p)) as X. replace (r - (p' + B2R M) + (p' - p)) with (r - (p + B2R M)) in X by ring.
  pose proof (Rmult_le_compat_l u _ _ (Rlt_le _ _ U0) R1) as R2.
  assert (W : Rabs (r - (p + B2R M)) <= u * Rabs (p + B2R M) + (1 + u) * Rabs (p' - p)) by lra.
  assert (W2 : (1 + u) * Rabs (p' - p) <= (1 + u) * ((4 * u) * Rabs p + (t + t * B2R S * (1 + u)))) by (apply Rmult_le_compat_l; lra).
  assert (W3 : (1 + u) * (4 * u * Rabs p) <= 5 * u * Rabs p).
  { assert (A0 : 0 <= u * Rabs p) by (apply Rmult_le_pos; lra). replace ((1 + u) * (4 * u * Rabs p)) with (4 * (u * Rabs p) + 4 * (u * (u * Rabs p))) by ring.
    assert (A1 : u * (u * Rabs p) <= / 100 * (u * Rabs p)) by (apply Rmult_le_compat_r; assumption). lra. }
  assert (W4 : (1 + u) * (t + t * B2R S * (1 + u)) <= 2 * t * (B2R S + 1)).
  { assert (TS : 0 <= t * B2R S) by nra. assert ((1 + u) * t <= 2 * t) by nra. assert (UU : (1 + u) * (1 + u) <= 2) by nra. pose proof (Rmult_le_compat_l (t * B2R S) _ _ TS UU). lra. }
  lra.
Qed.

(* Each result is the exact linear function of the value, with the mean and standard deviation numpy computed, up to a relative
   error of 2^-53 and of 5 * 2^-53 of its distance from the mean of the reference (and denormal errors below 2^-1074). *)
Theorem C107_mean_std_error :
  forall sum src ref i v a, sums_sign sum -> nth_error src i = Some v -> nth_error (dbl f_mean_std sum src ref) i = Some a -> is_finite a = true ->
    is_finite (dbl np_std sum src) = true -> is_finite (dbl np_std sum ref) = true ->
    let exact := (B2R v - B2R (dbl np_mean sum src)) / B2R (dbl np_std sum src) * B2R (dbl np_std sum ref) in
    Rabs (B2R a - (exact + B2R (dbl np_mean sum ref))) <=
      bpow radix2 (-53) * Rabs (exact + B2R (dbl np_mean sum ref)) + 5 * bpow radix2 (-53) * Rabs exact + bpow radix2 (-1074) * (B2R (dbl np_std sum ref) + 1).
Proof.
  intros sum src ref i v a S V A FA F1 F2 exact. unfold f_mean_std in A. rewrite nth_error_map, V in A. cbn [option_map] in A.
  assert (EA : dbl fadd (dbl fmul (dbl fdiv (dbl fsub v (dbl np_mean sum src)) (dbl np_std sum src)) (dbl np_std sum ref)) (dbl np_mean sum ref) = a) by congruence. clear A. subst a.
  pose proof (sign_le 53 1024 _ F1) as P1. rewrite (std_sign 53 1024 p53 e1024 sum src S) in P1. pose proof (sign_le 53 1024 _ F2) as P2. rewrite (std_sign 53 1024 p53 e1024 sum ref S) in P2.
  destruct (fadd_finite_inv 53 1024 p53 e1024 _ _ FA) as [G1 _]. destruct (fmul_finite_inv 53 1024 p53 e1024 _ _ G1) as [G2 _]. pose proof (fdiv_fin_denominator 53 1024 p53 e1024 _ _ G2 F1) as NZ.
  assert (PS : 0 < B2R (dbl np_std sum src)) by lra.
  pose proof (lin_error (dbl np_mean sum src) (dbl np_std sum src) (dbl np_mean sum ref) (dbl np_std sum ref) v PS P2 FA) as E. cbv zeta in E. fold exact in E. rewrite U_val, T_val in E.
  replace (bpow radix2 (-1074)) with (2 * bpow radix2 (-1075)) by (change 2 with (bpow radix2 1); rewrite <- bpow_plus; reflexivity). exact E.
Qed.
Print Assumptions C107_mean_std_error.
Example C107_error_met :
  let src := [dec 1 10; dec 3 10; dec 2 10] in let ref := [dec 5 1; dec 7 1; dec 12 1; dec 1 3] in
  forallb is_finite (dbl f_mean_std (dbl np_sum) src ref) && is_finite (dbl np_std (dbl np_sum) src) && is_finite (dbl np_std (dbl np_sum) ref) && Bltb (dec 0 1) (dbl np_std (dbl np_sum) src) = true.
Proof. vm_compute. reflexivity. Qed.
