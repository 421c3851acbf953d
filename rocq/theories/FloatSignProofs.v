(* Changing the sign of one or both series, in IEEE 754 arithmetic. *)
From Coq Require Import ZArith Reals List Lia Lra Bool.
From Flocq Require Import Core Plus_error IEEE754.BinarySingleNaN.
From Verif Require Import FloatModel FloatSpec FloatProofs FloatProofs2.
Import ListNotations.
Open Scope R_scope.

Section FloatSign.
Variables prec emax : Z.
Context (Hp : Prec_gt_0 prec) (He : Prec_lt_emax prec emax).
Notation float := (binary_float prec emax).
Notation fadd := (fadd prec emax Hp He).
Notation fsub := (fsub prec emax Hp He).
Notation fmul := (fmul prec emax Hp He).
Notation fdiv := (fdiv prec emax Hp He).
Notation fsqrt := (fsqrt prec emax Hp He).
Notation fsq := (fsq prec emax Hp He).
Notation f0 := (f0 prec emax).
Notation f1 := (f1 prec emax Hp He).
Notation fm1 := (fm1 prec emax Hp He).
Notation py_max := (py_max prec emax).
Notation py_min := (py_min prec emax).
Notation f_moments := (f_moments prec emax Hp He).
Notation fs_step := (fs_step prec emax Hp He).
Notation fs_init := (fs_init prec emax).
Notation f_pearson := (f_pearson prec emax Hp He).
Notation f_pearson_of := (f_pearson_of prec emax Hp He).
Notation f_bias := (f_bias prec emax Hp He).
Notation f_RSS := (f_RSS prec emax Hp He).
Notation f_msd := (f_msd prec emax Hp He).
Notation f_rmsd := (f_rmsd prec emax Hp He).
Notation f_ubrmsd := (f_ubrmsd prec emax Hp He).
Notation big := (big emax).
Notation rnd := (rnd prec emax).
Notation osem := (osem prec emax).
Notation opposite := (opposite prec emax).
Notation fst4 := (fstate prec emax).

Lemma osem_opp : forall a : float, osem a (Bopp a).
Proof. intros a. apply opposite_osem. left. reflexivity. Qed.
Lemma osem_finite_inv : forall a b : float, osem a b -> is_finite a = true -> is_finite b = true /\ B2R b = - B2R a.
Proof. intros a b O F. destruct a; try (cbn in F; discriminate); destruct b; cbn in O |- *; tauto. Qed.
Lemma finite_zero : forall a : float, is_finite a = true -> B2R a = 0 -> exists s, a = B754_zero s.
Proof.
  intros [s|s| |s m e H] F Z; try (cbn in F; discriminate); [eauto|].
  exfalso. cbn in Z. destruct s; cbn in Z.
  - assert (F2R (Float radix2 (Z.neg m) e) < 0) by (apply F2R_lt_0; reflexivity). lra.
  - assert (0 < F2R (Float radix2 (Z.pos m) e)) by (apply F2R_gt_0; reflexivity). lra.
Qed.
Lemma osem_sign : forall a b : float, osem a b -> is_finite a = true -> B2R a <> 0 -> Bsign b = negb (Bsign a).
Proof.
  intros a b O Fa Za. destruct (osem_finite_inv a b O Fa) as [Fb Vb].
  rewrite (sign_zero_or prec emax a Fa Za), (sign_zero_or prec emax b Fb) by (rewrite Vb; lra). rewrite Vb.
  destruct (Rlt_bool_spec (B2R a) 0); [apply Rlt_bool_false|apply Rlt_bool_true]; lra.
Qed.
Lemma osem_cases : forall a b : float, osem a b ->
  b = Bopp a \/ (exists s t, a = B754_zero s /\ b = B754_zero t).
Proof.
  intros a b O. destruct (osem_opposite prec emax a b O) as [E|[Fa [Fb [A B]]]]; [left; exact E|right].
  destruct (finite_zero a Fa A) as [s ->]. destruct (finite_zero b Fb B) as [t ->]. eauto.
Qed.

(* ---- the product of a number and of its opposite with a third ---- *)
Lemma fmul_comm : forall a b : float, fmul a b = fmul b a.
Proof.
  intros a b. destruct (is_finite a) eqn:Fa; [destruct (is_finite b) eqn:Fb|].
  - apply fmul_same; auto; [ring|apply xorb_comm].
  - destruct b as [s|s| |s m e H]; try (cbn in Fb; discriminate); destruct a as [t|t| |t k f K]; try (cbn in Fa; discriminate);
      cbn; try reflexivity; rewrite xorb_comm; reflexivity.
  - destruct a as [t|t| |t k f K]; try (cbn in Fa; discriminate); destruct b as [s|s| |s m e H];
      cbn; try reflexivity; rewrite xorb_comm; reflexivity.
Qed.
Lemma fmul_osem : forall a b c : float, osem a b -> osem (fmul a c) (fmul b c).
Proof.
  intros a b c O. destruct (osem_cases a b O) as [->|[s [t [-> ->]]]].
  - destruct (is_finite a) eqn:Fa; [destruct (is_finite c) eqn:Fc|].
    + assert (Fb : is_finite (Bopp a) = true) by (rewrite is_finite_Bopp; exact Fa).
      assert (N : rnd (B2R (Bopp a) * B2R c) = - rnd (B2R a * B2R c)).
      { rewrite <- rnd_opp. f_equal. rewrite B2R_Bopp. ring. }
      destruct (fmul_cases prec emax Hp He a c Fa Fc) as [[B [F V]]|[B E]];
      destruct (fmul_cases prec emax Hp He (Bopp a) c Fb Fc) as [[B' [F' V']]|[B' E']];
        rewrite N in B'; rewrite ?Rabs_Ropp in B'; try (exfalso; lra).
      * apply osem_finite; auto. rewrite V, V', N. reflexivity.
      * rewrite E, E'. cbn. rewrite Bsign_Bopp by (destruct a; try reflexivity; discriminate).
        destruct (Bsign a); destruct (Bsign c); reflexivity.
    + destruct c as [s|s| |s m e H]; try (cbn in Fc; discriminate); destruct a as [t|t| |t k f K]; try (cbn in Fa; discriminate);
        cbn; auto; destruct s; destruct t; reflexivity.
    + destruct a as [t|t| |t k f K]; try (cbn in Fa; discriminate); destruct c as [s|s| |s m e H];
        cbn; auto; destruct s; destruct t; reflexivity.
  - destruct c as [u|u| |u m e H]; cbn; auto; repeat split; lra.
Qed.
Lemma fmul_osem_r : forall a b c : float, osem a b -> osem (fmul c a) (fmul c b).
Proof. intros a b c O. rewrite (fmul_comm c a), (fmul_comm c b). apply fmul_osem, O. Qed.

(* ---- equal up to the sign of zero ---- *)
Definition esem (a b : float) : Prop := exists m, osem a m /\ osem m b.
Lemma esem_cases : forall a b : float, esem a b -> a = b \/ (exists s t, a = B754_zero s /\ b = B754_zero t).
Proof.
  intros a b [m [A B]]. destruct (osem_cases a m A) as [->|[s [t [-> ->]]]].
  - destruct (osem_cases _ b B) as [->|[s [t [E ->]]]].
    + left. symmetry. apply Bopp_involutive.
    + right. destruct a; try discriminate. eauto.
  - right. destruct (osem_cases _ b B) as [->|[u [v [E ->]]]]; eauto. exists s, (negb t). split; reflexivity.
Qed.
Lemma esem_refl : forall a : float, esem a a.
Proof. intros a. exists (Bopp a). split; [apply osem_opp|]. pose proof (osem_opp (Bopp a)) as X. rewrite Bopp_involutive in X. exact X. Qed.
Lemma fadd_esem : forall a b c e : float, esem a b -> esem c e -> esem (fadd a c) (fadd b e).
Proof. intros a b c e [m [A B]] [k [C D]]. exists (fadd m k). split; apply fadd_osem; assumption. Qed.
Lemma fdiv_esem : forall a b n : float, esem a b -> esem (fdiv a n) (fdiv b n).
Proof. intros a b n [m [A B]]. exists (fdiv m n). split; apply fdiv_osem; assumption. Qed.
Lemma fmul_osem2 : forall a b c e : float, osem a b -> osem c e -> esem (fmul a c) (fmul b e).
Proof. intros a b c e A C. exists (fmul b c). split; [apply fmul_osem, A|apply fmul_osem_r, C]. Qed.

(* ---- the moments ---- *)
Definition flip (p : float * float) : float * float := (fst p, Bopp (snd p)).
Definition flipped (s t : fst4) : Prop :=
  s_n prec emax t = s_n prec emax s /\ s_mx prec emax t = s_mx prec emax s /\ s_M2x prec emax t = s_M2x prec emax s
  /\ osem (s_my prec emax s) (s_my prec emax t) /\ esem (s_M2y prec emax s) (s_M2y prec emax t)
  /\ osem (s_C prec emax s) (s_C prec emax t).
Lemma flip_step : forall s t p, flipped s t -> flipped (fs_step s p) (fs_step t (flip p)).
Proof.
  intros s t [x y] (N & MX & M2X & MY & M2Y & CC). unfold flipped, fs_step, flip.
  cbn [s_n s_mx s_my s_M2x s_M2y s_C fst snd]. rewrite N, MX, M2X.
  assert (D : osem (fsub y (s_my prec emax s)) (fsub (Bopp y) (s_my prec emax t))) by (apply fsub_osem; [apply osem_opp|exact MY]).
  assert (M' : osem (fadd (s_my prec emax s) (fdiv (fsub y (s_my prec emax s)) (fadd (s_n prec emax s) f1)))
                    (fadd (s_my prec emax t) (fdiv (fsub (Bopp y) (s_my prec emax t)) (fadd (s_n prec emax s) f1))))
    by (apply fadd_osem; [exact MY|apply fdiv_osem, D]).
  repeat split; try reflexivity.
  - exact M'.
  - apply fadd_esem; [exact M2Y|]. apply fmul_osem2; [|exact D]. apply fsub_osem; [apply osem_opp|exact M'].
  - apply fadd_osem; [exact CC|]. apply fmul_osem_r, D.
Qed.
Lemma flip_fold : forall d s t, flipped s t -> flipped (fold_left fs_step d s) (fold_left fs_step (map flip d) t).
Proof. induction d as [|p r IH]; intros s t F; cbn [fold_left map]; [exact F|]. apply IH, flip_step, F. Qed.
Lemma flip_moments : forall d,
  fm_x prec emax (f_moments (map flip d)) = fm_x prec emax (f_moments d)
  /\ osem (fm_y prec emax (f_moments d)) (fm_y prec emax (f_moments (map flip d)))
  /\ fm_vx prec emax (f_moments (map flip d)) = fm_vx prec emax (f_moments d)
  /\ esem (fm_vy prec emax (f_moments d)) (fm_vy prec emax (f_moments (map flip d)))
  /\ osem (fm_cov prec emax (f_moments d)) (fm_cov prec emax (f_moments (map flip d))).
Proof.
  intros d. unfold FloatModel.f_moments. cbv zeta. cbn [fm_x fm_y fm_vx fm_vy fm_cov]. rewrite map_length.
  assert (Z0 : osem f0 f0) by (cbn; repeat split; auto; lra).
  assert (I0 : flipped fs_init fs_init).
  { repeat split; try reflexivity; try exact Z0; try apply esem_refl; cbn; lra. }
  destruct (flip_fold d fs_init fs_init I0) as (N & MX & M2X & MY & M2Y & CC).
  rewrite MX, M2X. repeat split; try reflexivity; [exact MY|apply fdiv_esem, M2Y|apply fdiv_osem, CC].
Qed.

(* ---- the correlation ---- *)
Lemma clip_osem : forall q q' : float, osem q q' -> is_nan q = false ->
  osem (py_max fm1 (py_min q f1)) (py_max fm1 (py_min q' f1)).
Proof.
  intros q q' O N. destruct (f1_val prec emax Hp He) as [F1 V1]. destruct (fm1_val prec emax Hp He) as [Fm Vm].
  assert (O1 : osem f1 fm1) by (apply osem_opp).
  assert (O2 : osem fm1 f1) by (apply osem_finite; auto; rewrite V1, Vm; lra).
  assert (L : Bltb fm1 f1 = true) by (rewrite Bltb_correct by assumption; apply Rlt_bool_true; lra).
  unfold FloatModel.py_max, FloatModel.py_min.
  destruct (is_finite q) eqn:Fq.
  - destruct (osem_finite_inv q q' O Fq) as [Fq' Vq].
    rewrite (Bltb_correct prec emax f1 q F1 Fq), (Bltb_correct prec emax f1 q' F1 Fq').
    rewrite Vq, V1.
    destruct (Rlt_bool_spec 1 (B2R q)) as [A|A]; destruct (Rlt_bool_spec 1 (- B2R q)) as [B|B].
    + exfalso. lra.
    + rewrite L. rewrite (Bltb_correct prec emax fm1 q' Fm Fq'), Vq, Vm.
      destruct (Rlt_bool_spec (-1) (- B2R q)) as [C|C]; [exfalso; lra|exact O1].
    + rewrite L. rewrite (Bltb_correct prec emax fm1 q Fm Fq), Vm.
      destruct (Rlt_bool_spec (-1) (B2R q)) as [C|C]; [exfalso; lra|exact O2].
    + rewrite (Bltb_correct prec emax fm1 q Fm Fq), (Bltb_correct prec emax fm1 q' Fm Fq'), Vq, Vm.
      destruct (Rlt_bool_spec (-1) (B2R q)) as [C|C]; destruct (Rlt_bool_spec (-1) (- B2R q)) as [D|D].
      * exact O.
      * apply osem_finite; auto. rewrite Vm. lra.
      * apply osem_finite; auto. rewrite Vq, Vm. lra.
      * exfalso. lra.
  - destruct q as [s|s| |s m e H]; try (cbn in Fq; discriminate); try (cbn in N; discriminate).
    destruct q' as [t|t| |t k f K]; cbn in O; try tauto; try (destruct O; discriminate). destruct s; destruct t; cbn in O; try discriminate.
    + rewrite (Bltb_minf _ _ f1 F1), (Bltb_minf _ _ fm1 Fm), (Bltb_pinf _ _ f1 F1), L. exact O2.
    + rewrite (Bltb_minf _ _ f1 F1), (Bltb_minf _ _ fm1 Fm), (Bltb_pinf _ _ f1 F1), L. exact O1.
Qed.
Lemma Babs_osem : forall a b : float, osem a b -> Babs a = Babs b.
Proof.
  intros a b O. destruct (osem_cases a b O) as [->|[s [t [-> ->]]]]; [|reflexivity].
  destruct a; reflexivity.
Qed.
(* (1 - r) (1 + r) *)
Lemma one_pm : forall r r' : float, osem r r' -> is_finite r = true -> -1 < B2R r < 1 ->
  fmul (fsub f1 r) (fadd f1 r) = fmul (fsub f1 r') (fadd f1 r').
Proof.
  intros r r' O Fr B. destruct (f1_val prec emax Hp He) as [F1 V1].
  destruct (osem_finite_inv r r' O Fr) as [Fr' Vr].
  assert (B2 : 2 < big) by (apply (big_gt prec); assumption).
  assert (RB : forall a, 0 < a < 2 -> Rabs (rnd a) < big).
  { intros a [A1 A2]. rewrite Rabs_pos_eq by (apply (rnd_nonneg prec emax Hp); lra).
    apply Rle_lt_trans with (rnd 2); [apply (rnd_le prec emax Hp); lra|].
    rewrite (rnd_2 prec emax Hp He). exact B2. }
  assert (SA : forall u v : float, osem u v -> is_finite u = true -> -1 < B2R u < 1 -> fsub f1 u = fadd f1 v).
  { intros u v Ou Fu Bu. destruct (osem_finite_inv u v Ou Fu) as [Fv Vv].
    destruct (fsub_cases prec emax Hp He f1 u F1 Fu) as [[_ [F V]]|[A _]];
      [|exfalso; pose proof (RB (B2R f1 - B2R u)); rewrite V1 in *; lra].
    destruct (fadd_cases prec emax Hp He f1 v F1 Fv) as [[_ [F' V']]|[A _]];
      [|exfalso; pose proof (RB (B2R f1 + B2R v)); rewrite V1, Vv in *; lra].
    assert (VV : B2R (fsub f1 u) = B2R (fadd f1 v)) by (rewrite V, V', Vv; f_equal; ring).
    destruct (Req_dec (B2R (fsub f1 u)) 0) as [Z|Z].
    - exfalso.
      rewrite V in Z. unfold FloatProofs.rnd in Z. revert Z. unfold Rminus.
      apply round_plus_neq_0; try typeclasses eauto.
      + apply (generic_format_B2R prec emax).
      + apply generic_format_opp, (generic_format_B2R prec emax).
      + rewrite V1. lra.
    - apply B2R_Bsign_inj; auto. rewrite (sign_zero_or prec emax _ F Z), (sign_zero_or prec emax _ F') by (rewrite <- VV; exact Z).
      rewrite VV. reflexivity. }
  rewrite (SA r r' O Fr B).
  assert (O' : osem r' r) by (apply osem_finite; auto; lra).
  rewrite (SA r' r O' Fr' ltac:(rewrite Vr; lra)).
  apply fmul_comm.
Qed.

Lemma pearson_flip : forall betainc (vx vy vy' c c' : float) (n : Z), esem vy vy' -> osem c c' ->
  is_nan (fdiv c (fsqrt (fmul vx vy))) = false ->
  osem (fst (f_pearson betainc vx vy c n)) (fst (f_pearson betainc vx vy' c' n))
  /\ snd (f_pearson betainc vx vy' c' n) = snd (f_pearson betainc vx vy c n).
Proof.
  intros betainc vx vy vy' c c' n V C N. destruct (esem_cases vy vy' V) as [<-|[s [t [-> ->]]]].
  2:{ assert (Z : forall u, Beqb (B754_zero u : float) f0 = true) by (intros []; reflexivity).
      unfold FloatModel.f_pearson. rewrite !Z, !orb_true_r. split; reflexivity. }
  unfold FloatModel.f_pearson. destruct (Beqb vx f0 || Beqb vy f0)%bool; [split; reflexivity|]. cbv zeta.
  assert (Q : osem (fdiv c (fsqrt (fmul vx vy))) (fdiv c' (fsqrt (fmul vx vy)))) by (apply fdiv_osem, C).
  pose proof (clip_osem _ _ Q N) as K.
  pose proof (clip_range prec emax Hp He (fdiv c (fsqrt (fmul vx vy)))) as [F B]. cbv zeta in F, B.
  set (r := py_max fm1 (py_min (fdiv c (fsqrt (fmul vx vy))) f1)) in *.
  set (r' := py_max fm1 (py_min (fdiv c' (fsqrt (fmul vx vy))) f1)) in *.
  rewrite <- (Babs_osem r r' K).
  destruct (Beqb (Babs r) f1) eqn:A; cbn [fst snd]; [split; [exact K|reflexivity]|].
  split; [exact K|].
  destruct (f1_val prec emax Hp He) as [F1 V1].
  assert (B' : -1 < B2R r < 1).
  { rewrite Beqb_correct in A; [|rewrite is_finite_Babs; exact F|exact F1]. rewrite B2R_Babs, V1 in A.
    destruct (Req_bool_spec (Rabs (B2R r)) 1) as [X|X]; [discriminate|].
    destruct (Rcase_abs (B2R r)) as [Y|Y]; [rewrite Rabs_left in X by exact Y|rewrite Rabs_right in X by exact Y]; lra. }
  rewrite <- (one_pm r r' K F B'). pose proof (fsq_osem prec emax Hp He r r' K) as SQ.
  unfold FloatModel.fsq in SQ. rewrite SQ. reflexivity.
Qed.
Lemma pearson_of_flip : forall betainc d, let m := f_moments d in
  is_nan (fdiv (fm_cov prec emax m) (fsqrt (fmul (fm_vx prec emax m) (fm_vy prec emax m)))) = false ->
  opposite (fst (f_pearson_of betainc d)) (fst (f_pearson_of betainc (map flip d)))
  /\ snd (f_pearson_of betainc (map flip d)) = snd (f_pearson_of betainc d).
Proof.
  intros betainc d m N. unfold FloatModel.f_pearson_of. cbv zeta. rewrite map_length.
  destruct (flip_moments d) as (_ & _ & VX & VY & CC). rewrite VX.
  destruct (pearson_flip betainc _ _ _ _ _ (Z.of_nat (length d)) VY CC N) as [A B]. split; [apply osem_opposite, A|exact B].
Qed.

(* ---- the other series ---- *)
Definition flipx (p : float * float) : float * float := (Bopp (fst p), snd p).
Definition flippedx (s t : fst4) : Prop :=
  s_n prec emax t = s_n prec emax s /\ s_my prec emax t = s_my prec emax s /\ s_M2y prec emax t = s_M2y prec emax s
  /\ osem (s_mx prec emax s) (s_mx prec emax t) /\ esem (s_M2x prec emax s) (s_M2x prec emax t)
  /\ osem (s_C prec emax s) (s_C prec emax t).
Lemma flipx_step : forall s t p, flippedx s t -> flippedx (fs_step s p) (fs_step t (flipx p)).
Proof.
  intros s t [x y] (N & MY & M2Y & MX & M2X & CC). unfold flippedx, fs_step, flipx.
  cbn [s_n s_mx s_my s_M2x s_M2y s_C fst snd]. rewrite N, MY, M2Y.
  assert (D : osem (fsub x (s_mx prec emax s)) (fsub (Bopp x) (s_mx prec emax t))) by (apply fsub_osem; [apply osem_opp|exact MX]).
  assert (M' : osem (fadd (s_mx prec emax s) (fdiv (fsub x (s_mx prec emax s)) (fadd (s_n prec emax s) f1)))
                    (fadd (s_mx prec emax t) (fdiv (fsub (Bopp x) (s_mx prec emax t)) (fadd (s_n prec emax s) f1))))
    by (apply fadd_osem; [exact MX|apply fdiv_osem, D]).
  repeat split; try reflexivity.
  - exact M'.
  - apply fadd_esem; [exact M2X|]. apply fmul_osem2; [|exact D]. apply fsub_osem; [apply osem_opp|exact M'].
  - apply fadd_osem; [exact CC|]. apply fmul_osem. apply fsub_osem; [apply osem_opp|exact M'].
Qed.
Lemma flipx_fold : forall d s t, flippedx s t -> flippedx (fold_left fs_step d s) (fold_left fs_step (map flipx d) t).
Proof. induction d as [|p r IH]; intros s t F; cbn [fold_left map]; [exact F|]. apply IH, flipx_step, F. Qed.
Lemma flipx_moments : forall d,
  fm_vy prec emax (f_moments (map flipx d)) = fm_vy prec emax (f_moments d)
  /\ esem (fm_vx prec emax (f_moments d)) (fm_vx prec emax (f_moments (map flipx d)))
  /\ osem (fm_cov prec emax (f_moments d)) (fm_cov prec emax (f_moments (map flipx d))).
Proof.
  intros d. unfold FloatModel.f_moments. cbv zeta. cbn [fm_x fm_y fm_vx fm_vy fm_cov]. rewrite map_length.
  assert (Z0 : osem f0 f0) by (cbn; repeat split; auto; lra).
  assert (I0 : flippedx fs_init fs_init).
  { repeat split; try reflexivity; try exact Z0; try apply esem_refl; cbn; lra. }
  destruct (flipx_fold d fs_init fs_init I0) as (N & MY & M2Y & MX & M2X & CC).
  rewrite M2Y. repeat split; try reflexivity; [apply fdiv_esem, M2X|apply fdiv_osem, CC].
Qed.
Lemma pearson_swap_vars : forall betainc (vx vy c : float) (n : Z), f_pearson betainc vx vy c n = f_pearson betainc vy vx c n.
Proof. intros betainc vx vy c n. unfold FloatModel.f_pearson. rewrite (orb_comm (Beqb vx f0)), (fmul_comm vx vy). reflexivity. Qed.
Lemma pearson_of_flipx : forall betainc d, let m := f_moments d in
  is_nan (fdiv (fm_cov prec emax m) (fsqrt (fmul (fm_vx prec emax m) (fm_vy prec emax m)))) = false ->
  opposite (fst (f_pearson_of betainc d)) (fst (f_pearson_of betainc (map flipx d)))
  /\ snd (f_pearson_of betainc (map flipx d)) = snd (f_pearson_of betainc d).
Proof.
  intros betainc d m N. unfold FloatModel.f_pearson_of. cbv zeta. rewrite map_length.
  destruct (flipx_moments d) as (VY & VX & CC). rewrite VY.
  rewrite (pearson_swap_vars betainc (fm_vx _ _ (f_moments d))), (pearson_swap_vars betainc (fm_vx _ _ (f_moments (map flipx d)))).
  rewrite fmul_comm in N.
  destruct (pearson_flip betainc _ _ _ _ _ (Z.of_nat (length d)) VX CC N) as [A B]. split; [apply osem_opposite, A|exact B].
Qed.
(* a series and its opposite *)
Lemma quotient_nan : forall betainc d, let m := f_moments d in
  is_nan (fdiv (fm_cov prec emax m) (fsqrt (fmul (fm_vx prec emax m) (fm_vy prec emax m)))) = true ->
  fst (f_pearson_of betainc d) = B754_nan \/ fst (f_pearson_of betainc d) = fm1.
Proof.
  intros betainc d m N. unfold FloatModel.f_pearson_of. cbv zeta. fold m. unfold FloatModel.f_pearson.
  destruct (Beqb _ _ || Beqb _ _)%bool; [left; reflexivity|right]. cbv zeta.
  destruct (fdiv (fm_cov prec emax m) (fsqrt (fmul (fm_vx prec emax m) (fm_vy prec emax m)))) eqn:E; cbn in N; try discriminate.
  unfold FloatModel.py_max, FloatModel.py_min. rewrite !(Bltb_nan_r prec emax).
  destruct (Beqb (Babs fm1) f1); reflexivity.
Qed.

(* ---- both series ---- *)
Definition flip2 (p : float * float) : float * float := (Bopp (fst p), Bopp (snd p)).
Lemma diff_flip2 : forall p, osem (fsub (fst p) (snd p)) (fsub (fst (flip2 p)) (snd (flip2 p))).
Proof. intros p. apply fsub_osem; apply osem_opp. Qed.
Lemma zero_osem : osem f0 f0.
Proof. cbn. repeat split; auto; lra. Qed.
Lemma bias_flip2 : forall d, opposite (f_bias d) (f_bias (map flip2 d)).
Proof.
  intros d. apply osem_opposite. unfold FloatModel.f_bias. rewrite map_length. apply fdiv_osem.
  assert (G : forall a b, osem a b -> osem (fold_left (fun b p => fadd b (fsub (fst p) (snd p))) d a)
                                     (fold_left (fun b p => fadd b (fsub (fst p) (snd p))) (map flip2 d) b)).
  { induction d as [|p r IH]; intros a b O; cbn [fold_left map]; [exact O|]. apply IH. apply fadd_osem; [exact O|apply diff_flip2]. }
  apply G, zero_osem.
Qed.
Lemma RSS_flip2 : forall d, f_RSS (map flip2 d) = f_RSS d.
Proof.
  intros d. unfold FloatModel.f_RSS. generalize f0. induction d as [|p r IH]; intros a; cbn [fold_left map]; [reflexivity|].
  rewrite <- (fsq_osem prec emax Hp He _ _ (diff_flip2 p)). apply IH.
Qed.
Lemma msd_flip2 : forall d, f_msd (map flip2 d) = f_msd d.
Proof. intros d. unfold FloatModel.f_msd. rewrite RSS_flip2, map_length. reflexivity. Qed.
Lemma rmsd_flip2 : forall d, f_rmsd (map flip2 d) = f_rmsd d.
Proof. intros d. unfold FloatModel.f_rmsd. rewrite msd_flip2. reflexivity. Qed.
Lemma sum_flip2 : forall (g : float * float -> float) d a b, (forall p, osem (g p) (g (flip2 p))) -> osem a b ->
  osem (fold_left (fun s p => fadd s (g p)) d a) (fold_left (fun s p => fadd s (g p)) (map flip2 d) b).
Proof.
  intros g. induction d as [|p r IH]; intros a b G O; cbn [fold_left map]; [exact O|]. apply IH; [exact G|]. apply fadd_osem; [exact O|apply G].
Qed.
Lemma sq_fold_flip2 : forall d m n m' n' a, osem m m' -> osem n n' ->
  fold_left (fun s p => fadd s (fsq (fsub (fsub (fst p) m') (fsub (snd p) n')))) (map flip2 d) a
  = fold_left (fun s p => fadd s (fsq (fsub (fsub (fst p) m) (fsub (snd p) n)))) d a.
Proof.
  induction d as [|p r IH]; intros m n m' n' a M N; cbn [fold_left map]; [reflexivity|].
  rewrite <- (fsq_osem prec emax Hp He (fsub (fsub (fst p) m) (fsub (snd p) n)) (fsub (fsub (fst (flip2 p)) m') (fsub (snd (flip2 p)) n'))).
  - apply IH; assumption.
  - apply fsub_osem; apply fsub_osem; first [apply osem_opp|assumption].
Qed.
Lemma ubrmsd_flip2 : forall d, f_ubrmsd (map flip2 d) = f_ubrmsd d.
Proof.
  intros d. destruct d as [|p r]; [reflexivity|].
  assert (E : map flip2 (p :: r) <> []) by discriminate. unfold FloatModel.f_ubrmsd.
  change (map flip2 (p :: r)) with (flip2 p :: map flip2 r). cbv iota. cbv zeta.
  change (flip2 p :: map flip2 r) with (map flip2 (p :: r)). rewrite map_length. f_equal. f_equal.
  apply sq_fold_flip2; apply fdiv_osem.
  - apply (sum_flip2 fst); [intros q; apply osem_opp|apply zero_osem].
  - apply (sum_flip2 snd); [intros q; apply osem_opp|apply zero_osem].
Qed.
End FloatSign.
