(* The correlation of a series with itself, and rounding errors of sums. *)
From Coq Require Import ZArith Reals List Lia Lra Bool Psatz.
From Flocq Require Import Core IEEE754.BinarySingleNaN.
From Flocq Require Import Plus_error Relative.
From Verif Require Import FloatModel FloatSpec FloatProofs FloatProofs2 FloatProofs3.
Import ListNotations.
Open Scope R_scope.

Section FloatProofs4.
Variables prec emax : Z.
Context (Hp : Prec_gt_0 prec) (He : Prec_lt_emax prec emax).
Notation float := (binary_float prec emax).
Notation fexp := (FLT_exp (3 - emax - prec) prec).
Notation fadd := (fadd prec emax Hp He).
Notation fsub := (fsub prec emax Hp He).
Notation fmul := (fmul prec emax Hp He).
Notation fdiv := (fdiv prec emax Hp He).
Notation fsqrt := (fsqrt prec emax Hp He).
Notation fsq := (fsq prec emax Hp He).
Notation f0 := (f0 prec emax).
Notation f1 := (f1 prec emax Hp He).
Notation fm1 := (fm1 prec emax Hp He).
Notation of_n := (of_n prec emax Hp He).
Notation py_max := (py_max prec emax).
Notation py_min := (py_min prec emax).
Notation f_moments := (f_moments prec emax Hp He).
Notation fs_step := (fs_step prec emax Hp He).
Notation fs_init := (fs_init prec emax).
Notation f_pearson := (f_pearson prec emax Hp He).
Notation f_pearson_of := (f_pearson_of prec emax Hp He).
Notation big := (big emax).
Notation rnd := (rnd prec emax).
Notation format := (generic_format radix2 fexp).
Notation bp := (bpow radix2).
Local Instance valid4 : Valid_exp fexp.
Proof. apply FLT_exp_valid. exact Hp. Qed.
Local Instance mono4 : Monotone_exp fexp.
Proof. apply FLT_exp_monotone. Qed.

(* ---- the square root of a square ---- *)
Lemma bp2 : forall e : Z, bp (2 * e) = bp e * bp e.
Proof. intros e. replace (2 * e)%Z with (e + e)%Z by ring. apply bpow_plus. Qed.
Lemma bp_S : forall e : Z, bp (e + 1) = 2 * bp e.
Proof. intros e. rewrite bpow_plus. change (bp 1) with 2. ring. Qed.

Lemma sqrt_of_square : forall v : R, format v -> 0 < v -> bp (2 - emax) <= v * v -> rnd (sqrt (rnd (v * v))) = v.
Proof.
  intros v Fv Pv N. pose proof (prec_pos prec Hp) as PP. pose proof (emax_ge prec emax Hp He) as EE.
  assert (V1 : rnd v = v) by (apply round_generic; auto with typeclass_instances).
  pose proof (bpow_mag_le radix2 v ltac:(lra)) as E1. pose proof (bpow_mag_gt radix2 v) as E2.
  rewrite Rabs_pos_eq in E1, E2 by lra. pose proof (conj E1 E2) as E. clear E1 E2.
  remember (mag_val radix2 v (mag radix2 v)) as e eqn:Mv. symmetry in Mv.
  assert (Pb : 0 < bp (e - 1)) by apply bpow_gt_0.
  assert (Be : bp e = 2 * bp (e - 1)) by (replace e with (e - 1 + 1)%Z at 1 by ring; apply bp_S).
  assert (NE : (3 - emax <= 2 * e)%Z).
  { assert (2 - emax < 2 * e)%Z; [|lia]. apply (lt_bpow radix2). rewrite bp2. nra. }
  (* v is not subnormal *)
  assert (NV : (3 - emax <= e)%Z).
  { destruct (Z_le_gt_dec (3 - emax) e) as [L|G]; [exact L|]. exfalso.
    assert (L1 : bp e <= bp (2 - emax)) by (apply bpow_le; lia).
    assert (L2 : bp (2 - emax) <= 1) by (change 1 with (bp 0); apply bpow_le; lia). nra. }
  destruct (Req_dec v (bp (e - 1))) as [EQ|NQ].
  - rewrite EQ. rewrite <- bp2. rewrite (rnd_bpow prec emax Hp).
    + rewrite bp2, sqrt_square by lra. apply rnd_bpow; [exact Hp|lia].
    + rewrite EQ, <- bp2 in N. apply le_bpow in N. lia.
  - assert (GT : bp (e - 1) < v) by lra.
    set (h := bp (e - prec - 1)). assert (Ph : 0 < h) by apply bpow_gt_0.
    assert (U : ulp radix2 fexp v = 2 * h).
    { rewrite ulp_neq_0 by lra. unfold cexp. rewrite Mv. unfold FLT_exp. rewrite Z.max_l by lia.
      unfold h. rewrite <- bp_S. f_equal. ring. }
    assert (UB : ulp radix2 fexp (bp (e - 1)) = 2 * h).
    { rewrite ulp_bpow. unfold FLT_exp. rewrite Z.max_l by lia. unfold h. rewrite <- bp_S. f_equal. ring. }
    assert (VG : bp (e - 1) + 2 * h <= v).
    { rewrite <- UB, <- succ_eq_pos by lra. apply succ_le_lt; auto with typeclass_instances.
      apply generic_format_bpow. unfold FLT_exp. lia. }
    assert (U2 : Rabs (rnd (v * v) - v * v) <= bp (e - 1) * (2 * h)).
    { eapply Rle_trans; [apply error_le_half_ulp; auto with typeclass_instances|].
      assert (Z2 : v * v <> 0) by nra. rewrite ulp_neq_0 by exact Z2. unfold cexp.
      assert (M2 : (mag radix2 (v * v) <= 2 * e)%Z).
      { apply mag_le_bpow; [exact Z2|]. rewrite Rabs_pos_eq by nra. rewrite bp2. nra. }
      assert (L : bp (FLT_exp (3 - emax - prec) prec (mag radix2 (v * v))) <= bp (2 * e - prec)).
      { apply bpow_le. unfold FLT_exp. lia. }
      assert (R : bp (2 * e - prec) = 2 * (bp (e - 1) * (2 * h))).
      { replace (2 * e - prec)%Z with ((e - 1) + (e - prec - 1) + 1 + 1)%Z by ring. rewrite !bp_S, bpow_plus. unfold h. ring. }
      lra. }
    apply Rabs_le_inv in U2. set (w := rnd (v * v)) in *.
    assert (HV : 2 * h <= v) by lra.
    assert (W0 : 0 <= w).
    { unfold w. apply rnd_nonneg; [exact Hp|nra]. }
    apply Rle_antisym.
    + apply round_N_le_midp; auto with typeclass_instances.
      rewrite succ_eq_pos, U by lra. replace ((v + (v + 2 * h)) / 2) with (v + h) by field.
      rewrite <- (sqrt_square (v + h)) by lra. apply sqrt_lt_1; [exact W0|nra|]. nra.
    + apply round_N_ge_midp; auto with typeclass_instances.
      rewrite pred_eq_pos by lra. unfold pred_pos. rewrite Mv, Req_bool_false by exact NQ. rewrite U.
      replace ((v + (v - 2 * h)) / 2) with (v - h) by field.
      rewrite <- (sqrt_square (v - h)) by lra. apply sqrt_lt_1; [nra|exact W0|]. nra.
Qed.

Lemma fsqrt_val : forall a : float, B2R (fsqrt a) = rnd (sqrt (B2R a)).
Proof. intros a. apply (Bsqrt_correct prec emax Hp He mode_NE a). Qed.

Notation twice := (twice prec emax).
Lemma twice_moments : forall (l : list float) s, s_my _ _ s = s_mx _ _ s -> s_M2y _ _ s = s_M2x _ _ s -> s_C _ _ s = s_M2x _ _ s ->
  let t := fold_left fs_step (twice l) s in
  s_my _ _ t = s_mx _ _ t /\ s_M2y _ _ t = s_M2x _ _ t /\ s_C _ _ t = s_M2x _ _ t.
Proof.
  induction l as [|x r IH]; intros s A B C; cbn [FloatProofs3.twice map fold_left]; [cbv zeta; auto|].
  apply (IH (fs_step s (x, x))); cbn [FloatModel.fs_step s_mx s_my s_M2x s_M2y s_C fst snd]; rewrite ?A, ?B, ?C; reflexivity.
Qed.
Lemma self_correlation : forall betainc (l : list float), let v := fm_vx _ _ (f_moments (twice l)) in
  is_finite (fmul v v) = true -> bp (2 - emax) <= B2R v * B2R v ->
  f_pearson_of betainc (twice l) = (f1, f0).
Proof.
  intros betainc l v F N. destruct (twice_moments l fs_init eq_refl eq_refl eq_refl) as [A [B C]].
  assert (EY : fm_vy _ _ (f_moments (twice l)) = v) by (unfold v, FloatModel.f_moments; cbn [fm_vx fm_vy]; rewrite B; reflexivity).
  assert (EC : fm_cov _ _ (f_moments (twice l)) = v) by (unfold v, FloatModel.f_moments; cbn [fm_vx fm_cov]; rewrite C; reflexivity).
  unfold FloatModel.f_pearson_of. cbv zeta. fold v. rewrite EY, EC.
  destruct (fmul_finite_inv prec emax Hp He _ _ F) as [Fv _].
  pose proof (proj1 (variances_nonneg prec emax Hp He (twice l)) Fv) as P. fold v in P.
  assert (NZ : B2R v <> 0) by (intros Z; rewrite Z, Rmult_0_l in N; pose proof (bpow_gt_0 radix2 (2 - emax)); lra).
  assert (PV : 0 < B2R v) by lra.
  assert (S : B2R (fsqrt (fmul v v)) = B2R v).
  { rewrite fsqrt_val, (fmul_val prec emax Hp He _ _ F). apply sqrt_of_square; auto. apply B2R_format. }
  assert (Q : fdiv v (fsqrt (fmul v v)) = f1).
  { destruct (f1_val prec emax Hp He) as [F1 V1].
    destruct (fdiv_cases prec emax Hp He v (fsqrt (fmul v v)) Fv ltac:(rewrite S; exact NZ)) as [[_ [G V]]|[O _]].
    - rewrite S in V. replace (B2R v / B2R v) with 1 in V by (field; exact NZ). rewrite rnd_1 in V by assumption.
      apply B2R_Bsign_inj; auto; [rewrite V, V1; reflexivity|].
      rewrite (sign_zero_or prec emax _ G), (sign_zero_or prec emax f1 F1) by lra. rewrite V, V1. reflexivity.
    - exfalso. rewrite S in O. replace (B2R v / B2R v) with 1 in O by (field; exact NZ).
      rewrite rnd_1, Rabs_R1 in O by assumption. pose proof (big_gt prec emax Hp He). lra. }
  unfold FloatModel.f_pearson.
  assert (ZV : Beqb v f0 = false) by (rewrite Beqb_correct by auto; apply Req_bool_false; exact NZ).
  rewrite ZV. cbn [orb]. cbv zeta. rewrite Q.
  assert (M : py_max fm1 (py_min f1 f1) = f1).
  { destruct (f1_val prec emax Hp He) as [F1 V1]. destruct (fm1_val prec emax Hp He) as [Fm Vm].
    unfold py_max, py_min. replace (if Bltb f1 f1 then f1 else f1) with f1 by (destruct (Bltb f1 f1); reflexivity).
    rewrite Bltb_correct by assumption. rewrite V1, Vm, Rlt_bool_true by lra. reflexivity. }
  rewrite M. replace (Beqb (Babs f1) f1) with true; [reflexivity|]. symmetry.
  destruct (f1_val prec emax Hp He) as [F1 V1].
  rewrite Beqb_correct; [|rewrite is_finite_Babs; exact F1|exact F1]. rewrite B2R_Babs, V1, Rabs_R1. apply Req_bool_true. reflexivity.
Qed.

(* ---- rounding errors ---- *)
Notation u := (unit_roundoff prec).
Notation tiny := (tiny prec emax).
Lemma u_eq : u = / 2 * bp (- prec + 1).
Proof. unfold unit_roundoff. f_equal. f_equal. ring. Qed.
Lemma u_pos : 0 <= u.
Proof. unfold unit_roundoff. pose proof (bpow_gt_0 radix2 (1 - prec)). lra. Qed.
Lemma tiny_pos : 0 <= tiny.
Proof. unfold FloatSpec.tiny. pose proof (bpow_gt_0 radix2 (3 - emax - prec)). lra. Qed.

Lemma err_add : forall x y : R, format x -> format y -> Rabs (rnd (x + y) - (x + y)) <= u * Rabs (x + y).
Proof.
  intros x y Fx Fy. rewrite u_eq.
  destruct (Rle_or_lt (bp (3 - emax - prec + prec - 1)) (Rabs (x + y))) as [L|L].
  - apply relative_error_N_FLT; assumption.
  - assert (G : format (x + y)).
    { apply FLT_format_plus_small; auto. left. eapply Rlt_trans; [exact L|]. apply bpow_lt. lia. }
    unfold FloatProofs.rnd. rewrite round_generic by (auto with typeclass_instances). replace (x + y - (x + y)) with 0 by ring.
    rewrite Rabs_R0. apply Rmult_le_pos; [|apply Rabs_pos]. rewrite <- u_eq. apply u_pos.
Qed.
Lemma err_sub : forall x y : R, format x -> format y -> Rabs (rnd (x - y) - (x - y)) <= u * Rabs (x - y).
Proof. intros x y Fx Fy. apply err_add; [exact Fx|apply generic_format_opp; exact Fy]. Qed.
Lemma err_any : forall x : R, Rabs (rnd x - x) <= u * Rabs x + tiny.
Proof.
  intros x. destruct (Rle_or_lt (bp (3 - emax - prec + prec - 1)) (Rabs x)) as [L|L].
  - rewrite u_eq. pose proof tiny_pos.
    assert (Rabs (rnd x - x) <= / 2 * bp (- prec + 1) * Rabs x) by (apply relative_error_N_FLT; assumption). lra.
  - assert (Rabs (rnd x - x) <= / 2 * ulp radix2 fexp x) as E by (apply error_le_half_ulp; auto with typeclass_instances).
    assert (L2 : Rabs x < bp (3 - emax - prec + prec)) by (eapply Rlt_trans; [exact L|apply bpow_lt; lia]).
    rewrite (ulp_FLT_small radix2 (3 - emax - prec) prec x L2) in E.
    pose proof u_pos. pose proof (Rabs_pos x). assert (0 <= u * Rabs x) by (apply Rmult_le_pos; assumption).
    unfold FloatSpec.tiny. lra.
Qed.

Lemma pow_ge_1 : forall k : nat, 1 <= (1 + u) ^ k.
Proof. intros k. apply pow_R1_Rle. pose proof u_pos; lra. Qed.
Lemma pow_mono : forall i j : nat, (i <= j)%nat -> (1 + u) ^ i <= (1 + u) ^ j.
Proof. intros i j L. apply Rle_pow; [pose proof u_pos; lra|exact L]. Qed.

(* a sum of rounded terms *)
Lemma sum_error : forall (A : Type) (w : A -> float) (t a : A -> R) (j : nat) (tau : R), 0 <= tau ->
  (forall x, is_finite (w x) = true -> Rabs (B2R (w x) - t x) <= ((1 + u) ^ j - 1) * a x + tau) ->
  (forall x, Rabs (t x) <= a x) ->
  forall (l : list A) (acc : float) (S B : R) (k : nat),
  Rabs (B2R acc - S) <= ((1 + u) ^ (j + k) - 1) * B + INR k * tau * (1 + u) ^ k -> Rabs S <= B ->
  is_finite (fold_left (fun s x => fadd s (w x)) l acc) = true ->
  Rabs (B2R (fold_left (fun s x => fadd s (w x)) l acc) - (S + exact_sum t l))
  <= ((1 + u) ^ (j + (k + length l)) - 1) * (B + exact_sum a l) + INR (k + length l) * tau * (1 + u) ^ (k + length l).
Proof.
  intros A w t a j tau T W TA l. pose proof u_pos as U0.
  induction l as [|x r IH]; intros acc S B k H HS F; cbn [fold_left exact_sum length] in *.
  - rewrite Nat.add_0_r, !Rplus_0_r. exact H.
  - assert (G : is_finite (fadd acc (w x)) = true).
    { clear - F. revert F. generalize (fadd acc (w x)). clear acc. induction r as [|y q IH]; intros acc F; cbn in F; [exact F|].
      apply IH in F. apply fadd_finite_inv in F. apply F. }
    destruct (fadd_finite_inv prec emax Hp He _ _ G) as [Fa Fw].
    replace (k + Datatypes.S (length r))%nat with (Datatypes.S k + length r)%nat by lia.
    replace (S + (t x + exact_sum t r)) with ((S + t x) + exact_sum t r) by ring.
    replace (B + (a x + exact_sum a r)) with ((B + a x) + exact_sum a r) by ring.
    apply (IH (fadd acc (w x)) (S + t x) (B + a x) (Datatypes.S k)); [| |exact F].
    2:{ pose proof (TA x). eapply Rle_trans; [apply Rabs_triang|]. lra. }
    specialize (W x Fw). pose proof (TA x) as Ta.
    rewrite (fadd_val prec emax Hp He _ _ G).
    pose proof (err_add (B2R acc) (B2R (w x)) (B2R_format prec emax acc) (B2R_format prec emax (w x))) as E.
    set (p := (1 + u) ^ (j + k)) in *. set (q := (1 + u) ^ k) in *. set (s := (1 + u) ^ j) in *.
    replace (j + Datatypes.S k)%nat with (Datatypes.S (j + k)) by lia. cbn [pow]. fold p q.
    rewrite S_INR.
    assert (Q1 : 1 <= q) by apply pow_ge_1.
    assert (SP : s <= p) by (apply pow_mono; lia).
    assert (A0 : 0 <= a x) by (pose proof (Rabs_pos (t x)); lra).
    assert (D : Rabs (B2R acc + B2R (w x) - (S + t x)) <= (p - 1) * B + INR k * tau * q + ((s - 1) * a x + tau)).
    { replace (B2R acc + B2R (w x) - (S + t x)) with ((B2R acc - S) + (B2R (w x) - t x)) by ring.
      eapply Rle_trans; [apply Rabs_triang|]. lra. }
    assert (M : Rabs (B2R acc + B2R (w x)) <= Rabs (B2R acc + B2R (w x) - (S + t x)) + (B + a x)).
    { replace (B2R acc + B2R (w x)) with ((B2R acc + B2R (w x) - (S + t x)) + (S + t x)) at 1 by ring.
      eapply Rle_trans; [apply Rabs_triang|]. pose proof (Rabs_triang S (t x)). lra. }
    set (X := Rabs (B2R acc + B2R (w x) - (S + t x))) in *.
    assert (L : Rabs (rnd (B2R acc + B2R (w x)) - (S + t x)) <= u * (X + (B + a x)) + X).
    { replace (rnd (B2R acc + B2R (w x)) - (S + t x))
        with ((rnd (B2R acc + B2R (w x)) - (B2R acc + B2R (w x))) + (B2R acc + B2R (w x) - (S + t x))) by ring.
      eapply Rle_trans; [apply Rabs_triang|]. fold X.
      assert (u * Rabs (B2R acc + B2R (w x)) <= u * (X + (B + a x))) by (apply Rmult_le_compat_l; assumption). lra. }
    eapply Rle_trans; [exact L|].
    assert (X1 : (1 + u) * X <= (1 + u) * ((p - 1) * B + INR k * tau * q + ((s - 1) * a x + tau))) by (apply Rmult_le_compat_l; lra).
    assert (X2 : (1 + u) * (s * a x) <= (1 + u) * (p * a x)).
    { apply Rmult_le_compat_l; [lra|]. apply Rmult_le_compat_r; assumption. }
    assert (X3 : (1 + u) * tau <= (1 + u) * (tau * q)).
    { apply Rmult_le_compat_l; [lra|]. rewrite <- (Rmult_1_r tau) at 1. apply Rmult_le_compat_l; assumption. }
    ring_simplify. ring_simplify in X1. ring_simplify in X2. ring_simplify in X3. lra.
Qed.

(* a difference, and the square of a difference *)
Lemma diff_error : forall p : float * float, is_finite (fsub (fst p) (snd p)) = true ->
  Rabs (B2R (fsub (fst p) (snd p)) - diff_of prec emax p) <= ((1 + u) ^ 1 - 1) * Rabs (diff_of prec emax p) + 0.
Proof.
  intros p F. rewrite (fsub_val prec emax Hp He _ _ F).
  pose proof (err_sub _ _ (B2R_format prec emax (fst p)) (B2R_format prec emax (snd p))) as E. unfold diff_of.
  replace ((1 + u) ^ 1 - 1) with u by ring. rewrite Rplus_0_r. exact E.
Qed.
Lemma square_error : forall p : float * float, is_finite (fsq (fsub (fst p) (snd p))) = true ->
  Rabs (B2R (fsq (fsub (fst p) (snd p))) - Rsqr (diff_of prec emax p)) <= ((1 + u) ^ 3 - 1) * Rsqr (diff_of prec emax p) + tiny.
Proof.
  intros p F. destruct (fmul_finite_inv prec emax Hp He _ _ F) as [G _].
  unfold FloatModel.fsq in *. rewrite (fmul_val prec emax Hp He _ _ F).
  pose proof (diff_error p G) as D. set (s := B2R (fsub (fst p) (snd p))) in *. set (d := diff_of prec emax p) in *.
  replace ((1 + u) ^ 1 - 1) with u in D by ring. rewrite Rplus_0_r in D.
  pose proof (err_any (s * s)) as E. rewrite (Rabs_pos_eq (s * s)) in E by (pose proof (Rle_0_sqr s); unfold Rsqr in *; lra).
  pose proof u_pos as U0. pose proof (Rabs_pos d) as A0.
  assert (S1 : Rabs s <= (1 + u) * Rabs d).
  { replace s with ((s - d) + d) by ring. eapply Rle_trans; [apply Rabs_triang|]. lra. }
  assert (SS : s * s = Rabs s * Rabs s) by (rewrite <- Rabs_mult, Rabs_pos_eq; [reflexivity|pose proof (Rle_0_sqr s); unfold Rsqr in *; lra]).
  assert (DD : Rsqr d = Rabs d * Rabs d) by (unfold Rsqr; rewrite <- Rabs_mult, Rabs_pos_eq; [reflexivity|pose proof (Rle_0_sqr d); unfold Rsqr in *; lra]).
  assert (S2 : s * s <= (1 + u) * Rabs d * ((1 + u) * Rabs d)).
  { rewrite SS. apply Rmult_le_compat; auto using Rabs_pos. }
  assert (DF : Rabs (s * s - Rsqr d) <= u * Rabs d * ((2 + u) * Rabs d)).
  { replace (s * s - Rsqr d) with ((s - d) * (s + d)) by (unfold Rsqr; ring). rewrite Rabs_mult.
    apply Rmult_le_compat; auto using Rabs_pos. eapply Rle_trans; [apply Rabs_triang|]. lra. }
  replace (rnd (s * s) - Rsqr d) with ((rnd (s * s) - s * s) + (s * s - Rsqr d)) by ring.
  eapply Rle_trans; [apply Rabs_triang|].
  assert (S3 : u * (s * s) <= u * ((1 + u) * Rabs d * ((1 + u) * Rabs d))) by (apply Rmult_le_compat_l; assumption).
  eapply Rle_trans; [apply Rplus_le_compat; [exact E|exact DF]|].
  apply Rle_trans with (u * ((1 + u) * Rabs d * ((1 + u) * Rabs d)) + tiny + u * Rabs d * ((2 + u) * Rabs d)); [lra|].
  right. rewrite DD. ring.
Qed.

(* division by the number of values *)
Lemma of_n_exact : forall n : nat, (Z.of_nat n <= 2 ^ prec)%Z -> is_finite (of_n n) = true /\ B2R (of_n n) = INR n.
Proof.
  intros n L. pose proof (prec_pos prec Hp) as PP. pose proof (prec_lt prec emax He) as PE.
  assert (G : format (IZR (Z.of_nat n))).
  { destruct (Z.eq_dec (Z.of_nat n) (2 ^ prec)) as [Q|Q].
    - rewrite Q. replace (IZR (2 ^ prec)) with (bp prec) by (rewrite (IZR_Zpower radix2) by lia; reflexivity).
      apply generic_format_bpow. unfold FLT_exp. lia.
    - apply generic_format_FLT. exists (Float radix2 (Z.of_nat n) 0); cbn [Fnum Fexp]; [unfold F2R; cbn [Fnum Fexp]; change (bp 0) with 1; ring| |].
      + rewrite Z.abs_eq by lia. change (Zpower radix2 prec) with (2 ^ prec)%Z. lia.
      + lia. }
  assert (R : rnd (IZR (Z.of_nat n)) = IZR (Z.of_nat n)) by (apply round_generic; auto with typeclass_instances).
  unfold FloatModel.of_n. destruct (of_z_cases prec emax Hp He (Z.of_nat n)) as [[_ [F [V _]]]|[O _]].
  - split; [exact F|]. rewrite V, R, INR_IZR_INZ. reflexivity.
  - exfalso. rewrite R, Rabs_pos_eq in O by (apply IZR_le; lia). unfold FloatProofs.big in O.
    assert (bp prec < bp emax) by (apply bpow_lt; lia).
    assert (IZR (Z.of_nat n) <= bp prec) by (replace (bp prec) with (IZR (2 ^ prec)) by (rewrite (IZR_Zpower radix2) by lia; reflexivity); apply IZR_le; exact L).
    lra.
Qed.
Lemma div_error : forall (a : float) (n : nat) (S B g tau : R), (0 < n)%nat -> (Z.of_nat n <= 2 ^ prec)%Z ->
  is_finite (fdiv a (of_n n)) = true -> (is_finite a = true -> Rabs (B2R a - S) <= (g - 1) * B + tau) -> Rabs S <= B ->
  Rabs (B2R (fdiv a (of_n n)) - S / INR n) <= ((1 + u) * g - 1) * (B / INR n) + (1 + u) * tau / INR n + tiny.
Proof.
  intros a n S B g tau N L F H HS. destruct (of_n_exact n L) as [Fn Vn].
  assert (IN : 0 < INR n) by (apply lt_0_INR; exact N).
  pose proof (fdiv_finite_inv prec emax Hp He _ _ F) as Fa. specialize (H Fa).
  rewrite (fdiv_val prec emax Hp He _ _ F) by (rewrite Vn; lra). rewrite Vn.
  pose proof (err_any (B2R a / INR n)) as E. pose proof u_pos as U0.
  assert (I0 : 0 < / INR n) by (apply Rinv_0_lt_compat; exact IN).
  assert (D : Rabs (B2R a / INR n - S / INR n) <= ((g - 1) * B + tau) / INR n).
  { replace (B2R a / INR n - S / INR n) with ((B2R a - S) * / INR n) by (field; lra).
    rewrite Rabs_mult, (Rabs_pos_eq (/ INR n)) by lra. apply Rmult_le_compat_r; lra. }
  assert (M : Rabs (B2R a / INR n) <= ((g - 1) * B + tau) / INR n + B / INR n).
  { replace (B2R a / INR n) with ((B2R a / INR n - S / INR n) + S / INR n) by ring.
    eapply Rle_trans; [apply Rabs_triang|]. apply Rplus_le_compat; [exact D|].
    unfold Rdiv. rewrite Rabs_mult, (Rabs_pos_eq (/ INR n)) by lra. apply Rmult_le_compat_r; lra. }
  replace (rnd (B2R a / INR n) - S / INR n) with ((rnd (B2R a / INR n) - B2R a / INR n) + (B2R a / INR n - S / INR n)) by ring.
  eapply Rle_trans; [apply Rabs_triang|].
  assert (M2 : u * Rabs (B2R a / INR n) <= u * (((g - 1) * B + tau) / INR n + B / INR n)) by (apply Rmult_le_compat_l; assumption).
  replace (((1 + u) * g - 1) * (B / INR n) + (1 + u) * tau / INR n + tiny)
    with (u * (((g - 1) * B + tau) / INR n + B / INR n) + tiny + ((g - 1) * B + tau) / INR n) by (field; lra).
  lra.
Qed.

(* readable form of the factor *)
Lemma factor_bound : forall k : nat, INR k * u <= 1 -> (1 + u) ^ k - 1 <= 2 * INR k * u.
Proof.
  assert (H : forall k : nat, INR k * u <= 1 -> (1 + u) ^ k <= 1 + INR k * u + INR k * u * (INR k * u)).
  { induction k as [|k IH]; intros K; [cbn; lra|]. pose proof u_pos as U0. rewrite S_INR in *. cbn [pow].
    pose proof (pos_INR k) as K0. assert (K1 : INR k * u <= 1) by lra. specialize (IH K1).
    assert (K2 : 0 <= INR k * u) by (apply Rmult_le_pos; assumption).
    assert ((1 + u) * (1 + u) ^ k <= (1 + u) * (1 + INR k * u + INR k * u * (INR k * u))) by (apply Rmult_le_compat_l; lra).
    assert (INR k * u * (INR k * u * u) <= 1 * (INR k * u * u)) by (apply Rmult_le_compat_r; [apply Rmult_le_pos; lra|lra]).
    assert (0 <= u * u) by (apply Rmult_le_pos; assumption).
    ring_simplify. ring_simplify in H. ring_simplify in H0. 
    assert (X : 0 <= INR k * (u * u)) by (apply Rmult_le_pos; assumption). ring_simplify in X. ring_simplify in H1. lra. }
  intros k K. specialize (H k K). pose proof u_pos as U0. pose proof (pos_INR k) as K0.
  assert (K2 : 0 <= INR k * u) by (apply Rmult_le_pos; assumption).
  assert (INR k * u * (INR k * u) <= 1 * (INR k * u)) by (apply Rmult_le_compat_r; assumption). lra.
Qed.

Lemma exact_sum_abs : forall (A : Type) (t a : A -> R) (l : list A), (forall x, Rabs (t x) <= a x) ->
  Rabs (exact_sum t l) <= exact_sum a l.
Proof.
  intros A t a l H. induction l as [|x r IH]; cbn; [rewrite Rabs_R0; lra|].
  eapply Rle_trans; [apply Rabs_triang|]. pose proof (H x). lra.
Qed.

Lemma bias_error : forall d : list (float * float), d <> [] -> (Z.of_nat (length d) <= 2 ^ prec)%Z ->
  is_finite (f_bias prec emax Hp He d) = true -> let n := INR (length d) in
  Rabs (B2R (f_bias prec emax Hp He d) - exact_sum (diff_of prec emax) d / n)
  <= ((1 + u) ^ (length d + 2) - 1) * (exact_sum (fun p => Rabs (diff_of prec emax p)) d / n) + tiny.
Proof.
  intros d N L F n.
  assert (P : (0 < length d)%nat) by (destruct d; [congruence|cbn; lia]).
  assert (IN : 0 < n) by (apply lt_0_INR; exact P).
  pose proof (div_error (fold_left (fun b p => fadd b (fsub (fst p) (snd p))) d f0) (length d)
    (exact_sum (diff_of prec emax) d) (exact_sum (fun p => Rabs (diff_of prec emax p)) d) ((1 + u) ^ (1 + length d)) 0 P L F) as D.
  replace ((1 + u) ^ (length d + 2)) with ((1 + u) * (1 + u) ^ (1 + length d)) by (replace (length d + 2)%nat with (S (1 + length d)) by lia; reflexivity).
  eapply Rle_trans; [apply D|].
  - intros Fa. pose proof (sum_error _ (fun p => fsub (fst p) (snd p)) (diff_of prec emax) (fun p => Rabs (diff_of prec emax p)) 1 0
      (Rle_refl 0) diff_error (fun p => Rle_refl _) d f0 0 0 0) as S.
    rewrite !Rplus_0_l, !Rmult_0_r, !Rmult_0_l, !Rplus_0_r in S. rewrite Rplus_0_r. apply S; auto.
    + cbn. rewrite Rminus_0_r, Rabs_R0. lra.
    + rewrite Rabs_R0. lra.
  - apply exact_sum_abs. intros x. apply Rle_refl.
  - fold n. unfold Rdiv at 2. rewrite Rmult_0_r, Rmult_0_l. lra.
Qed.
Lemma RSS_error : forall d : list (float * float), is_finite (f_RSS prec emax Hp He d) = true ->
  let RSS := exact_sum (fun p => Rsqr (diff_of prec emax p)) d in
  Rabs (B2R (f_RSS prec emax Hp He d) - RSS)
  <= ((1 + u) ^ (length d + 3) - 1) * RSS + INR (length d) * tiny * (1 + u) ^ (length d).
Proof.
  intros d F RSS.
  assert (T : forall x, Rabs (Rsqr (diff_of prec emax x)) <= Rsqr (diff_of prec emax x)) by (intros x; rewrite Rabs_pos_eq by apply Rle_0_sqr; lra).
  pose proof (sum_error _ (fun p => fsq (fsub (fst p) (snd p))) (fun p => Rsqr (diff_of prec emax p)) (fun p => Rsqr (diff_of prec emax p)) 3 tiny
      tiny_pos square_error T d f0 0 0 0) as S.
  replace (length d + 3)%nat with (3 + (0 + length d))%nat by lia. rewrite !Rplus_0_l in S. apply S; auto.
  - cbn. rewrite Rminus_0_r, Rabs_R0. lra.
  - rewrite Rabs_R0. lra.
Qed.
Lemma msd_error : forall d : list (float * float), d <> [] -> (Z.of_nat (length d) <= 2 ^ prec)%Z ->
  is_finite (f_msd prec emax Hp He d) = true ->
  let MSD := exact_sum (fun p => Rsqr (diff_of prec emax p)) d / INR (length d) in
  Rabs (B2R (f_msd prec emax Hp He d) - MSD)
  <= ((1 + u) ^ (length d + 4) - 1) * MSD + tiny * (1 + u) ^ (length d + 1) + tiny.
Proof.
  intros d N L F MSD.
  assert (P : (0 < length d)%nat) by (destruct d; [congruence|cbn; lia]).
  assert (IN : 0 < INR (length d)) by (apply lt_0_INR; exact P).
  assert (T : forall x, Rabs (Rsqr (diff_of prec emax x)) <= Rsqr (diff_of prec emax x)) by (intros x; rewrite Rabs_pos_eq by apply Rle_0_sqr; lra).
  pose proof (div_error (f_RSS prec emax Hp He d) (length d) _ _ _ _ P L F (RSS_error d) (exact_sum_abs _ _ _ d T)) as D.
  replace ((1 + u) ^ (length d + 4)) with ((1 + u) * (1 + u) ^ (length d + 3)) by (replace (length d + 4)%nat with (S (length d + 3)) by lia; reflexivity).
  replace ((1 + u) ^ (length d + 1)) with ((1 + u) * (1 + u) ^ length d) by (replace (length d + 1)%nat with (S (length d)) by lia; reflexivity).
  eapply Rle_trans; [exact D|]. fold MSD. right. unfold MSD. field. lra.
Qed.
Lemma mean_error : forall l : list float, l <> [] -> (Z.of_nat (length l) <= 2 ^ prec)%Z ->
  is_finite (f_mean prec emax Hp He l) = true ->
  let n := INR (length l) in
  Rabs (B2R (f_mean prec emax Hp He l) - exact_sum B2R l / n)
  <= ((1 + u) ^ (length l + 1) - 1) * (exact_sum (fun x => Rabs (B2R x)) l / n) + tiny.
Proof.
  intros d N L F n.
  assert (P : (0 < length d)%nat) by (destruct d; [congruence|cbn; lia]).
  assert (IN : 0 < n) by (apply lt_0_INR; exact P).
  pose proof (div_error (fold_left fadd d f0) (length d) (exact_sum B2R d) (exact_sum (fun x => Rabs (B2R x)) d) ((1 + u) ^ (0 + length d)) 0 P L F) as D.
  replace ((1 + u) ^ (length d + 1)) with ((1 + u) * (1 + u) ^ (0 + length d)) by (replace (length d + 1)%nat with (S (0 + length d)) by lia; reflexivity).
  eapply Rle_trans; [apply D|].
  - intros Fa. pose proof (sum_error _ (fun x : float => x) B2R (fun x => Rabs (B2R x)) 0 0
      (Rle_refl 0)) as S.
    assert (Q : forall x : float, is_finite x = true -> Rabs (B2R x - B2R x) <= ((1 + u) ^ 0 - 1) * Rabs (B2R x) + 0).
    { intros x _. replace (B2R x - B2R x) with 0 by ring. rewrite Rabs_R0. cbn. lra. }
    specialize (S Q (fun p => Rle_refl _) d f0 0 0 0%nat).
    rewrite !Rplus_0_l, !Rmult_0_r, !Rmult_0_l, !Rplus_0_r in S. rewrite Rplus_0_r. apply S; auto.
    + cbn. rewrite Rminus_0_r, Rabs_R0. lra.
    + rewrite Rabs_R0. lra.
  - apply exact_sum_abs. intros x. apply Rle_refl.
  - fold n. unfold Rdiv at 2. rewrite Rmult_0_r, Rmult_0_l. lra.
Qed.
End FloatProofs4.
