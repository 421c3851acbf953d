(* Facts about single IEEE 754 operations. *)
From Coq Require Import ZArith Reals List Lia Lra Bool.
From Flocq Require Import Core IEEE754.BinarySingleNaN.
From Verif Require Import FloatModel FloatSpec.
Import ListNotations.
Open Scope R_scope.

Section FloatProofs.
Variables prec emax : Z.
Context (Hp : Prec_gt_0 prec) (He : Prec_lt_emax prec emax).
Notation float := (binary_float prec emax).
Notation fexp := (FLT_exp (3 - emax - prec) prec).
Definition rnd (x : R) : R := round radix2 fexp ZnearestE x.
Definition big : R := bpow radix2 emax.

Lemma prec_pos : (0 < prec)%Z. Proof. exact Hp. Qed.
Lemma prec_lt : (prec < emax)%Z. Proof. exact He. Qed.
Lemma emax_ge : (2 <= emax)%Z. Proof. pose proof prec_pos; pose proof prec_lt; lia. Qed.

Lemma fexp_eq : SpecFloat.fexp prec emax = fexp. Proof. reflexivity. Qed.
Local Instance valid : Valid_exp fexp.
Proof. apply FLT_exp_valid. exact Hp. Qed.
Local Instance mono : Monotone_exp fexp.
Proof. apply FLT_exp_monotone. Qed.

Lemma rnd_le : forall x y : R, x <= y -> rnd x <= rnd y.
Proof. intros x y H. apply round_le; auto with typeclass_instances. Qed.
Lemma rnd_0 : rnd 0 = 0.
Proof. apply round_0. auto with typeclass_instances. Qed.
Lemma rnd_opp : forall x : R, rnd (- x) = - rnd x.
Proof. intros x. unfold rnd. rewrite round_NE_opp. reflexivity. Qed.
Lemma B2R_format : forall a : float, generic_format radix2 fexp (B2R a).
Proof. intros a. apply (generic_format_B2R prec emax). Qed.
Lemma rnd_id : forall a : float, rnd (B2R a) = B2R a.
Proof. intros a. apply round_generic. auto with typeclass_instances. apply B2R_format. Qed.
Lemma rnd_nonneg : forall x : R, 0 <= x -> 0 <= rnd x.
Proof. intros x H. rewrite <- rnd_0. apply rnd_le; exact H. Qed.
Lemma rnd_bpow : forall e : Z, (3 - emax - prec <= e)%Z -> rnd (bpow radix2 e) = bpow radix2 e.
Proof.
  intros e H. apply round_generic. auto with typeclass_instances.
  apply generic_format_bpow. unfold FLT_exp. pose proof prec_pos. lia.
Qed.
Lemma rnd_1 : rnd 1 = 1.
Proof. change 1 with (bpow radix2 0). apply rnd_bpow. pose proof emax_ge; pose proof prec_pos; lia. Qed.
Lemma rnd_2 : rnd 2 = 2.
Proof. change 2 with (bpow radix2 1). apply rnd_bpow. pose proof emax_ge; pose proof prec_pos; lia. Qed.
Lemma big_pos : 0 < big. Proof. apply bpow_gt_0. Qed.
Lemma big_gt : 2 < big.
Proof. change 2 with (bpow radix2 1). apply bpow_lt. pose proof emax_ge; lia. Qed.

(* ---- the operations: a finite result is the rounded exact result of finite arguments ---- *)
Lemma not_finite_overflow : forall (z : float) (s : bool),
  B2SF z = binary_overflow prec emax mode_NE s -> z = B754_infinity s.
Proof.
  intros z s E. unfold binary_overflow in E. cbn in E. destruct z as [s'|s'| |s' m e Hb]; cbn in E; try discriminate.
  injection E as E. subst. reflexivity.
Qed.

Lemma fadd_finite_inv : forall a b : float, is_finite (fadd prec emax Hp He a b) = true ->
  is_finite a = true /\ is_finite b = true.
Proof.
  intros [sa|sa| |sa ma ea Ha] [sb|sb| |sb mb eb Hb]; cbn; try discriminate; auto.
  destruct (Bool.eqb sa sb); discriminate.
Qed.
Lemma fsub_finite_inv : forall a b : float, is_finite (fsub prec emax Hp He a b) = true ->
  is_finite a = true /\ is_finite b = true.
Proof.
  intros [sa|sa| |sa ma ea Ha] [sb|sb| |sb mb eb Hb]; cbn; try discriminate; auto.
  destruct (Bool.eqb sa (negb sb)); discriminate.
Qed.
Lemma fmul_finite_inv : forall a b : float, is_finite (fmul prec emax Hp He a b) = true ->
  is_finite a = true /\ is_finite b = true.
Proof. intros [sa|sa| |sa ma ea Ha] [sb|sb| |sb mb eb Hb]; cbn; try discriminate; auto. Qed.
Lemma fdiv_finite_inv : forall a b : float, is_finite (fdiv prec emax Hp He a b) = true -> is_finite a = true.
Proof. intros [sa|sa| |sa ma ea Ha] [sb|sb| |sb mb eb Hb]; cbn; try discriminate; auto. Qed.

Lemma fadd_cases : forall a b : float, is_finite a = true -> is_finite b = true ->
  (Rabs (rnd (B2R a + B2R b)) < big /\ is_finite (fadd prec emax Hp He a b) = true
   /\ B2R (fadd prec emax Hp He a b) = rnd (B2R a + B2R b))
  \/ (big <= Rabs (rnd (B2R a + B2R b)) /\ fadd prec emax Hp He a b = B754_infinity (Bsign a) /\ Bsign a = Bsign b).
Proof.
  intros a b Fa Fb. pose proof (Bplus_correct prec emax Hp He mode_NE a b Fa Fb) as C.
  change (round_mode mode_NE) with ZnearestE in C. rewrite fexp_eq in C. fold (rnd (B2R a + B2R b)) in C. fold big in C.
  destruct (Rlt_bool_spec (Rabs (rnd (B2R a + B2R b))) big) as [L|L].
  - left. destruct C as [C1 [C2 _]]. auto.
  - right. destruct C as [C1 C2]. split; [exact L|]. split; [|exact C2]. apply not_finite_overflow, C1.
Qed.
Lemma fsub_cases : forall a b : float, is_finite a = true -> is_finite b = true ->
  (Rabs (rnd (B2R a - B2R b)) < big /\ is_finite (fsub prec emax Hp He a b) = true
   /\ B2R (fsub prec emax Hp He a b) = rnd (B2R a - B2R b))
  \/ (big <= Rabs (rnd (B2R a - B2R b)) /\ fsub prec emax Hp He a b = B754_infinity (Bsign a) /\ Bsign a = negb (Bsign b)).
Proof.
  intros a b Fa Fb. pose proof (Bminus_correct prec emax Hp He mode_NE a b Fa Fb) as C.
  change (round_mode mode_NE) with ZnearestE in C. rewrite fexp_eq in C. fold (rnd (B2R a - B2R b)) in C. fold big in C.
  destruct (Rlt_bool_spec (Rabs (rnd (B2R a - B2R b))) big) as [L|L].
  - left. destruct C as [C1 [C2 _]]. auto.
  - right. destruct C as [C1 C2]. split; [exact L|]. split; [|exact C2]. apply not_finite_overflow, C1.
Qed.
Lemma fmul_cases : forall a b : float, is_finite a = true -> is_finite b = true ->
  (Rabs (rnd (B2R a * B2R b)) < big /\ is_finite (fmul prec emax Hp He a b) = true
   /\ B2R (fmul prec emax Hp He a b) = rnd (B2R a * B2R b))
  \/ (big <= Rabs (rnd (B2R a * B2R b)) /\ fmul prec emax Hp He a b = B754_infinity (xorb (Bsign a) (Bsign b))).
Proof.
  intros a b Fa Fb. pose proof (Bmult_correct prec emax Hp He mode_NE a b) as C.
  change (round_mode mode_NE) with ZnearestE in C. rewrite fexp_eq in C. fold (rnd (B2R a * B2R b)) in C. fold big in C.
  destruct (Rlt_bool_spec (Rabs (rnd (B2R a * B2R b))) big) as [L|L].
  - left. destruct C as [C1 [C2 _]]. rewrite Fa, Fb in C2. auto.
  - right. split; [exact L|]. apply not_finite_overflow, C.
Qed.
Lemma fdiv_cases : forall a b : float, is_finite a = true -> B2R b <> 0 ->
  (Rabs (rnd (B2R a / B2R b)) < big /\ is_finite (fdiv prec emax Hp He a b) = true
   /\ B2R (fdiv prec emax Hp He a b) = rnd (B2R a / B2R b))
  \/ (big <= Rabs (rnd (B2R a / B2R b)) /\ fdiv prec emax Hp He a b = B754_infinity (xorb (Bsign a) (Bsign b))).
Proof.
  intros a b Fa Nb. pose proof (Bdiv_correct prec emax Hp He mode_NE a b Nb) as C.
  change (round_mode mode_NE) with ZnearestE in C. rewrite fexp_eq in C. fold (rnd (B2R a / B2R b)) in C. fold big in C.
  destruct (Rlt_bool_spec (Rabs (rnd (B2R a / B2R b))) big) as [L|L].
  - left. destruct C as [C1 [C2 _]]. rewrite Fa in C2. auto.
  - right. split; [exact L|]. apply not_finite_overflow, C.
Qed.

(* values of finite results *)
Lemma fadd_val : forall a b : float, is_finite (fadd prec emax Hp He a b) = true ->
  B2R (fadd prec emax Hp He a b) = rnd (B2R a + B2R b).
Proof.
  intros a b F. destruct (fadd_finite_inv a b F) as [Fa Fb].
  destruct (fadd_cases a b Fa Fb) as [[_ [_ E]]|[_ [E _]]]; [exact E|rewrite E in F; discriminate].
Qed.
Lemma fsub_val : forall a b : float, is_finite (fsub prec emax Hp He a b) = true ->
  B2R (fsub prec emax Hp He a b) = rnd (B2R a - B2R b).
Proof.
  intros a b F. destruct (fsub_finite_inv a b F) as [Fa Fb].
  destruct (fsub_cases a b Fa Fb) as [[_ [_ E]]|[_ [E _]]]; [exact E|rewrite E in F; discriminate].
Qed.
Lemma fmul_val : forall a b : float, is_finite (fmul prec emax Hp He a b) = true ->
  B2R (fmul prec emax Hp He a b) = rnd (B2R a * B2R b).
Proof.
  intros a b F. destruct (fmul_finite_inv a b F) as [Fa Fb].
  destruct (fmul_cases a b Fa Fb) as [[_ [_ E]]|[_ E]]; [exact E|rewrite E in F; discriminate].
Qed.
Lemma fdiv_val : forall a b : float, is_finite (fdiv prec emax Hp He a b) = true -> B2R b <> 0 ->
  B2R (fdiv prec emax Hp He a b) = rnd (B2R a / B2R b).
Proof.
  intros a b F N. pose proof (fdiv_finite_inv a b F) as Fa.
  destruct (fdiv_cases a b Fa N) as [[_ [_ E]]|[_ E]]; [exact E|rewrite E in F; discriminate].
Qed.

(* ---- non-negative values ---- *)
Notation nn := (nonneg_or_nan prec emax).
Lemma nn_finite : forall a : float, nn a -> is_finite a = true -> 0 <= B2R a.
Proof. intros [s|s| |s m e Hb] N F; cbn in *; try discriminate; auto. Qed.
Lemma nn_of_finite : forall a : float, is_finite a = true -> 0 <= B2R a -> nn a.
Proof. intros [s|s| |s m e Hb] F N; cbn in *; try discriminate; auto. Qed.
Lemma nn_sign : forall a : float, is_finite a = true -> 0 <= B2R a -> Bsign a = true -> B2R a = 0.
Proof.
  intros [s|s| |s m e Hb] F N S; cbn in *; try discriminate; try reflexivity. subst s.
  exfalso. assert (F2R (Float radix2 (Z.neg m) e) < 0) by (apply F2R_lt_0; cbn; reflexivity).
  cbn in N. lra.
Qed.
Lemma sign_zero_or : forall a : float, is_finite a = true -> B2R a <> 0 -> Bsign a = Rlt_bool (B2R a) 0.
Proof.
  intros [s|s| |s m e Hb] F N; cbn in *; try discriminate; try (exfalso; apply N; reflexivity).
  destruct s; symmetry; [apply Rlt_bool_true; apply F2R_lt_0; reflexivity | apply Rlt_bool_false; apply F2R_ge_0; cbn; lia].
Qed.

Lemma fadd_nn : forall a b : float, nn a -> nn b -> nn (fadd prec emax Hp He a b).
Proof.
  intros a b Na Nb.
  destruct (is_finite a) eqn:Fa; destruct (is_finite b) eqn:Fb.
  - pose proof (nn_finite _ Na Fa) as La. pose proof (nn_finite _ Nb Fb) as Lb.
    destruct (fadd_cases a b Fa Fb) as [[_ [F E]]|[O [E S]]].
    + apply nn_of_finite; [exact F|]. rewrite E. apply rnd_nonneg. lra.
    + rewrite E. cbn. destruct (Bsign a) eqn:Sa; [|reflexivity]. exfalso.
      rewrite (nn_sign a Fa La Sa), (nn_sign b Fb Lb (eq_sym S)) in O. rewrite Rplus_0_l, rnd_0, Rabs_R0 in O.
      pose proof big_pos; lra.
  - destruct a as [sa|sa| |sa ma ea Ha]; destruct b as [sb|sb| |sb mb eb Hb]; cbn in *; try discriminate; auto.
  - destruct a as [sa|sa| |sa ma ea Ha]; destruct b as [sb|sb| |sb mb eb Hb]; cbn in *; try discriminate; auto.
  - destruct a as [sa|sa| |sa ma ea Ha]; destruct b as [sb|sb| |sb mb eb Hb]; cbn in *; try discriminate; auto.
    subst. cbn. reflexivity.
Qed.

Lemma fmul_nn : forall a b : float,
  (is_finite a = true -> is_finite b = true -> 0 <= B2R a * B2R b) ->
  (is_finite a = false \/ is_finite b = false -> xorb (Bsign a) (Bsign b) = false) ->
  nn (fmul prec emax Hp He a b).
Proof.
  intros a b N S.
  destruct (is_finite a) eqn:Fa; [destruct (is_finite b) eqn:Fb|].
  - specialize (N eq_refl eq_refl). destruct (fmul_cases a b Fa Fb) as [[_ [F E]]|[O E]].
    + apply nn_of_finite; [exact F|]. rewrite E. apply rnd_nonneg, N.
    + rewrite E. cbn.
      assert (Z : B2R a * B2R b <> 0) by (intros Z; rewrite Z, rnd_0, Rabs_R0 in O; pose proof big_pos; lra).
      assert (Za : B2R a <> 0) by (intros Q; apply Z; rewrite Q; ring).
      assert (Zb : B2R b <> 0) by (intros Q; apply Z; rewrite Q; ring).
      rewrite (sign_zero_or a Fa Za), (sign_zero_or b Fb Zb).
      destruct (Rlt_bool_spec (B2R a) 0) as [L1|L1]; destruct (Rlt_bool_spec (B2R b) 0) as [L2|L2]; try reflexivity; exfalso.
      * assert (B2R a * B2R b < 0) by (assert (0 < B2R b) by lra; nra). lra.
      * assert (B2R a * B2R b < 0) by (assert (0 < B2R a) by lra; nra). lra.
  - specialize (S (or_intror eq_refl)).
    destruct a as [sa|sa| |sa ma ea Ha]; destruct b as [sb|sb| |sb mb eb Hb]; cbn in *; try discriminate; auto.
  - specialize (S (or_introl eq_refl)).
    destruct a as [sa|sa| |sa ma ea Ha]; destruct b as [sb|sb| |sb mb eb Hb]; cbn in *; try discriminate; auto.
Qed.

Lemma fsq_nn : forall a : float, nn (fsq prec emax Hp He a).
Proof.
  intros a. apply fmul_nn; [intros _ _; pose proof (Rle_0_sqr (B2R a)) as Q; unfold Rsqr in Q; exact Q|].
  intros _. apply xorb_nilpotent.
Qed.

Lemma fdiv_nn : forall a b : float, nn a -> nn b -> Bsign b = false -> nn (fdiv prec emax Hp He a b).
Proof.
  intros a b Na Nb S.
  destruct (is_finite a) eqn:Fa.
  - destruct (Req_dec (B2R b) 0) as [Z|Z].
    + destruct b as [sb|sb| |sb mb eb Hb].
      * destruct a as [sa|sa| |sa ma ea Ha]; cbn in *; try discriminate; auto. subst. rewrite xorb_false_r.
        destruct sa; [|reflexivity]. exfalso. assert (F2R (Float radix2 (Z.neg ma) ea) < 0) by (apply F2R_lt_0; reflexivity). cbn in Na. lra.
      * destruct a as [sa|sa| |sa ma ea Ha]; cbn in *; try discriminate; auto; lra.
      * destruct a as [sa|sa| |sa ma ea Ha]; cbn in *; try discriminate; auto; lra.
      * exfalso. cbn in Z. destruct sb; cbn in Z.
        -- assert (F2R (Float radix2 (Z.neg mb) eb) < 0) by (apply F2R_lt_0; reflexivity). lra.
        -- assert (0 < F2R (Float radix2 (Z.pos mb) eb)) by (apply F2R_gt_0; reflexivity). lra.
    + assert (Fb : is_finite b = true) by (destruct b; cbn in *; try reflexivity; exfalso; apply Z; reflexivity).
      pose proof (nn_finite _ Na Fa) as La. pose proof (nn_finite _ Nb Fb) as Lb.
      destruct (fdiv_cases a b Fa Z) as [[_ [F E]]|[O E]].
      * apply nn_of_finite; [exact F|]. rewrite E. apply rnd_nonneg. apply Rmult_le_pos; [exact La|].
        left. apply Rinv_0_lt_compat. lra.
      * rewrite E. cbn. rewrite S, xorb_false_r. destruct (Bsign a) eqn:Sa; [|reflexivity]. exfalso.
        rewrite (nn_sign a Fa La Sa) in O. unfold Rdiv in O. rewrite Rmult_0_l, rnd_0, Rabs_R0 in O. pose proof big_pos; lra.
  - destruct a as [sa|sa| |sa ma ea Ha]; destruct b as [sb|sb| |sb mb eb Hb]; cbn in *; try discriminate; auto;
      subst; cbn; auto.
Qed.

Lemma fsqrt_nn : forall a : float, nn (fsqrt prec emax Hp He a).
Proof.
  intros a. pose proof (Bsqrt_correct prec emax Hp He mode_NE a) as [E [F S]].
  change (Bsqrt mode_NE a) with (fsqrt prec emax Hp He a) in *.
  destruct (is_finite (fsqrt prec emax Hp He a)) eqn:G.
  - apply nn_of_finite; [exact G|]. rewrite E. change (0 <= rnd (sqrt (B2R a))). apply rnd_nonneg, sqrt_pos.
  - destruct a as [sa|sa| |sa ma ea Ha]; try (cbn in *; discriminate); cbn in *; auto.
    + destruct sa; cbn; auto.
    + destruct sa; [cbn; exact Logic.I|discriminate].
Qed.
Lemma fsqrt_nan : forall a : float, nn a -> is_nan (fsqrt prec emax Hp He a) = is_nan a.
Proof.
  intros a N. pose proof (Bsqrt_correct prec emax Hp He mode_NE a) as [E [F S]].
  change (Bsqrt mode_NE a) with (fsqrt prec emax Hp He a) in *.
  destruct a as [sa|sa| |sa ma ea Ha]; try reflexivity.
  - cbn in N. subst. reflexivity.
  - destruct sa.
    + exfalso. cbn in N. assert (F2R (Float radix2 (Z.neg ma) ea) < 0) by (apply F2R_lt_0; reflexivity). lra.
    + cbn [is_nan]. destruct (fsqrt prec emax Hp He (B754_finite false ma ea Ha)); try reflexivity; discriminate.
Qed.

(* ---- conversions of integers ---- *)
Lemma of_z_cases : forall z : Z,
  (Rabs (rnd (IZR z)) < big /\ is_finite (of_z prec emax Hp He z) = true /\ B2R (of_z prec emax Hp He z) = rnd (IZR z)
   /\ Bsign (of_z prec emax Hp He z) = Z.ltb z 0)
  \/ (big <= Rabs (rnd (IZR z)) /\ of_z prec emax Hp He z = B754_infinity (Z.ltb z 0)).
Proof.
  intros z. pose proof (binary_normalize_correct prec emax Hp He mode_NE z 0 false) as C. cbv zeta in C.
  assert (E : F2R (Float radix2 z 0) = IZR z) by (unfold F2R; cbn; ring). rewrite E in C.
  change (round_mode mode_NE) with ZnearestE in C. rewrite fexp_eq in C. fold (rnd (IZR z)) in C. fold big in C.
  fold (of_z prec emax Hp He z) in C.
  destruct (Rlt_bool_spec (Rabs (rnd (IZR z))) big) as [L|L].
  - left. destruct C as [C1 [C2 C3]]. split; [exact L|]. split; [exact C2|]. split; [exact C1|]. rewrite C3.
    destruct (Rcompare_spec (IZR z) 0) as [Q|Q|Q].
    + apply lt_IZR in Q. symmetry. apply Z.ltb_lt. exact Q.
    + apply eq_IZR in Q. subst. reflexivity.
    + apply lt_IZR in Q. symmetry. apply Z.ltb_ge. lia.
  - right. split; [exact L|]. rewrite (not_finite_overflow _ _ C). f_equal.
    destruct (Rlt_bool_spec (IZR z) 0) as [Q|Q].
    + apply lt_IZR in Q. symmetry. apply Z.ltb_lt. exact Q.
    + apply le_IZR in Q. symmetry. apply Z.ltb_ge. exact Q.
Qed.
Lemma of_n_nn : forall n : nat, nn (of_n prec emax Hp He n) /\ Bsign (of_n prec emax Hp He n) = false.
Proof.
  intros n. unfold of_n. assert (P : Z.ltb (Z.of_nat n) 0 = false) by (apply Z.ltb_ge; lia).
  destruct (of_z_cases (Z.of_nat n)) as [[_ [F [E S]]]|[_ E]].
  - split; [|rewrite S; exact P]. apply nn_of_finite; [exact F|]. rewrite E. apply rnd_nonneg. apply IZR_le. lia.
  - rewrite E, P. split; reflexivity.
Qed.
Lemma f1_val : is_finite (f1 prec emax Hp He) = true /\ B2R (f1 prec emax Hp He) = 1.
Proof. split; [apply (is_finite_Bone prec emax)|apply (Bone_correct prec emax)]. Qed.
Lemma fm1_val : is_finite (fm1 prec emax Hp He) = true /\ B2R (fm1 prec emax Hp He) = -1.
Proof.
  unfold fm1. rewrite is_finite_Bopp, B2R_Bopp. destruct f1_val as [F E]. rewrite E. split; [exact F|lra].
Qed.
End FloatProofs.
