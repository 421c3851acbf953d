(* Range of the correlation, missing values, and exchange of the series in IEEE 754 arithmetic. *)
From Coq Require Import ZArith Reals List Lia Lra Bool.
From Flocq Require Import Core IEEE754.BinarySingleNaN.
From Verif Require Import FloatModel FloatSpec FloatProofs.
Import ListNotations.
Open Scope R_scope.

Section FloatProofs2.
Variables prec emax : Z.
Context (Hp : Prec_gt_0 prec) (He : Prec_lt_emax prec emax).
Notation float := (binary_float prec emax).
Notation fadd := (fadd prec emax Hp He).
Notation fsub := (fsub prec emax Hp He).
Notation fmul := (fmul prec emax Hp He).
Notation fdiv := (fdiv prec emax Hp He).
Notation fsqrt := (fsqrt prec emax Hp He).
Notation fsq := (fsq prec emax Hp He).
Notation f0 := (f0 prec emax).
Notation f1 := (f1 prec emax Hp He).
Notation fm1 := (fm1 prec emax Hp He).
Notation of_n := (of_n prec emax Hp He).
Notation py_max := (py_max prec emax).
Notation py_min := (py_min prec emax).
Notation f_moments := (f_moments prec emax Hp He).
Notation fs_step := (fs_step prec emax Hp He).
Notation fs_init := (fs_init prec emax).
Notation f_pearson := (f_pearson prec emax Hp He).
Notation f_pearson_of := (f_pearson_of prec emax Hp He).
Notation nn := (nonneg_or_nan prec emax).
Notation big := (big emax).
Notation rnd := (rnd prec emax).

(* ---- the range of the correlation ---- *)
Lemma Bltb_nan_r : forall a : float, Bltb a B754_nan = false.
Proof. intros [s|s| |s m e H]; cbn; try reflexivity; destruct s; reflexivity. Qed.
Lemma Bltb_pinf : forall a : float, is_finite a = true -> Bltb a (B754_infinity false) = true.
Proof. intros [s|s| |s m e H] F; cbn in *; try discriminate; try reflexivity; destruct s; reflexivity. Qed.
Lemma Bltb_minf : forall a : float, is_finite a = true -> Bltb a (B754_infinity true) = false.
Proof. intros [s|s| |s m e H] F; cbn in *; try discriminate; try reflexivity; destruct s; reflexivity. Qed.
Lemma Bltb_inf_l : forall a : float, is_finite a = true -> Bltb (B754_infinity true) a = true /\ Bltb (B754_infinity false) a = false.
Proof. intros [s|s| |s m e H] F; cbn in *; try discriminate; split; try reflexivity; destruct s; reflexivity. Qed.

Lemma clip_range : forall q : float, let r := py_max fm1 (py_min q f1) in
  is_finite r = true /\ -1 <= B2R r <= 1.
Proof.
  intros q. destruct (f1_val prec emax Hp He) as [F1 V1]. destruct (fm1_val prec emax Hp He) as [Fm Vm].
  unfold py_max, py_min. cbv zeta.
  destruct (is_finite q) eqn:Fq.
  - destruct (Bltb f1 q) eqn:L1.
    + destruct (Bltb fm1 f1) eqn:L2; [rewrite V1|rewrite Vm]; split; auto; lra.
    + rewrite Bltb_correct in L1 by assumption. destruct (Rlt_bool_spec (B2R f1) (B2R q)) as [X|X]; [discriminate|].
      destruct (Bltb fm1 q) eqn:L2.
      * rewrite Bltb_correct in L2 by assumption. destruct (Rlt_bool_spec (B2R fm1) (B2R q)) as [Y|Y]; [|discriminate].
        split; [exact Fq|]. lra.
      * rewrite Vm. split; auto; lra.
  - destruct q as [s|s| |s m e H]; try (cbn in Fq; discriminate).
    + destruct s.
      * rewrite (Bltb_minf f1 F1), (Bltb_minf fm1 Fm), Vm. split; auto; lra.
      * rewrite (Bltb_pinf f1 F1). destruct (Bltb fm1 f1); [rewrite V1|rewrite Vm]; split; auto; lra.
    + rewrite !Bltb_nan_r, Vm. split; auto; lra.
Qed.

Lemma f_pearson_range : forall betainc (vx vy c : float) (n : Z),
  let r := fst (f_pearson betainc vx vy c n) in
  (r = B754_nan /\ (Beqb vx f0 || Beqb vy f0)%bool = true) \/
  (is_finite r = true /\ -1 <= B2R r <= 1 /\ (Beqb vx f0 || Beqb vy f0)%bool = false).
Proof.
  intros betainc vx vy c n. unfold FloatModel.f_pearson. destruct (Beqb vx f0 || Beqb vy f0)%bool.
  - left. split; reflexivity.
  - right. cbv zeta.
    assert (E : forall (b : bool) (r : float) (p q : float), fst (if b then (r, p) else (r, q)) = r) by (intros []; reflexivity).
    rewrite E. pose proof (clip_range (fdiv c (fsqrt (fmul vx vy)))) as [A B]. auto.
Qed.
Lemma f_pearson_or_nan : forall betainc (vx vy c : float) (n : Z),
  correlation_or_nan prec emax (fst (f_pearson betainc vx vy c n)).
Proof.
  intros betainc vx vy c n. destruct (f_pearson_range betainc vx vy c n) as [[E _]|[F [B _]]].
  - left. rewrite E. reflexivity.
  - right. auto.
Qed.

(* ---- a missing value ---- *)
Lemma fadd_nan_l : forall b : float, fadd B754_nan b = B754_nan. Proof. intros [ | | | ]; reflexivity. Qed.
Lemma fadd_nan_r : forall b : float, fadd b B754_nan = B754_nan. Proof. intros [ | | | ]; reflexivity. Qed.
Lemma fsub_nan_l : forall b : float, fsub B754_nan b = B754_nan. Proof. intros [ | | | ]; reflexivity. Qed.
Lemma fsub_nan_r : forall b : float, fsub b B754_nan = B754_nan. Proof. intros [ | | | ]; reflexivity. Qed.
Lemma fmul_nan_l : forall b : float, fmul B754_nan b = B754_nan. Proof. intros [ | | | ]; reflexivity. Qed.
Lemma fmul_nan_r : forall b : float, fmul b B754_nan = B754_nan. Proof. intros [ | | | ]; reflexivity. Qed.
Lemma fdiv_nan_l : forall b : float, fdiv B754_nan b = B754_nan. Proof. intros [ | | | ]; reflexivity. Qed.
Lemma fdiv_nan_r : forall b : float, fdiv b B754_nan = B754_nan. Proof. intros [ | | | ]; reflexivity. Qed.

Ltac nanify := rewrite ?fsub_nan_l, ?fsub_nan_r, ?fmul_nan_l, ?fmul_nan_r, ?fdiv_nan_l, ?fadd_nan_l, ?fadd_nan_r.

Lemma nan_stays : forall (d : list (float * float)) s, s_C prec emax s = B754_nan ->
  (s_M2x prec emax s = B754_nan -> s_M2x prec emax (fold_left fs_step d s) = B754_nan)
  /\ (s_M2y prec emax s = B754_nan -> s_M2y prec emax (fold_left fs_step d s) = B754_nan)
  /\ s_C prec emax (fold_left fs_step d s) = B754_nan.
Proof.
  induction d as [|p r IH]; intros s C; cbn [fold_left]; [auto|].
  assert (C' : s_C prec emax (fs_step s p) = B754_nan) by (cbn; rewrite C; apply fadd_nan_l).
  destruct (IH _ C') as [A [B D]]. split; [|split; [|exact D]].
  - intros X. apply A. cbn. rewrite X. apply fadd_nan_l.
  - intros X. apply B. cbn. rewrite X. apply fadd_nan_l.
Qed.
Lemma nan_x_moments : forall (d : list (float * float)) s, Exists (fun p => is_nan (fst p) = true) d ->
  s_M2x prec emax (fold_left fs_step d s) = B754_nan /\ s_C prec emax (fold_left fs_step d s) = B754_nan.
Proof.
  induction d as [|[x y] r IH]; intros s E; [inversion E|]. cbn [fold_left].
  inversion E as [p l N|p l N]; subst; [|apply IH, N].
  cbn in N. destruct x; try discriminate.
  destruct (nan_stays r (fs_step s (B754_nan, y))) as [A [B C]].
  - cbn [FloatModel.fs_step s_C fst snd]. nanify. reflexivity.
  - split; [apply A|exact C]. cbn [FloatModel.fs_step s_M2x fst snd]. nanify. reflexivity.
Qed.
Lemma nan_y_moments : forall (d : list (float * float)) s, Exists (fun p => is_nan (snd p) = true) d ->
  s_M2y prec emax (fold_left fs_step d s) = B754_nan /\ s_C prec emax (fold_left fs_step d s) = B754_nan.
Proof.
  induction d as [|[x y] r IH]; intros s E; [inversion E|]. cbn [fold_left].
  inversion E as [p l N|p l N]; subst; [|apply IH, N].
  cbn in N. destruct y; try discriminate.
  destruct (nan_stays r (fs_step s (x, B754_nan))) as [A [B C]].
  - cbn [FloatModel.fs_step s_C fst snd]. nanify. reflexivity.
  - split; [apply B|exact C]. cbn [FloatModel.fs_step s_M2y fst snd]. nanify. reflexivity.
Qed.
Lemma pearson_nan_cov : forall betainc (vx vy : float) (n : Z),
  (Beqb vx f0 || Beqb vy f0)%bool = false -> f_pearson betainc vx vy B754_nan n = (fm1, f0).
Proof.
  intros betainc vx vy n Z. unfold FloatModel.f_pearson. rewrite Z. cbv zeta. rewrite fdiv_nan_l.
  assert (E : py_max fm1 (py_min B754_nan f1) = fm1).
  { unfold py_max, py_min. rewrite !Bltb_nan_r. reflexivity. }
  rewrite E. replace (Beqb (Babs fm1) f1) with true; [reflexivity|]. symmetry.
  destruct (fm1_val prec emax Hp He) as [Fm Vm]. destruct (f1_val prec emax Hp He) as [F1 V1].
  rewrite Beqb_correct; [|rewrite is_finite_Babs; exact Fm|exact F1]. rewrite B2R_Babs, Vm, V1.
  rewrite Rabs_left by lra. apply Req_bool_true. lra.
Qed.
Lemma missing_x : forall betainc (d : list (float * float)),
  Exists (fun p => is_nan (fst p) = true) d -> Beqb (fm_vy prec emax (f_moments d)) f0 = false ->
  f_pearson_of betainc d = (fm1, f0).
Proof.
  intros betainc d E V. destruct (nan_x_moments d fs_init E) as [A B].
  unfold FloatModel.f_pearson_of, FloatModel.f_moments. cbv zeta. cbn [fm_vx fm_vy fm_cov].
  rewrite A, B, !fdiv_nan_l. apply pearson_nan_cov. apply orb_false_iff. split; [reflexivity|exact V].
Qed.
Lemma missing_y : forall betainc (d : list (float * float)),
  Exists (fun p => is_nan (snd p) = true) d -> Beqb (fm_vx prec emax (f_moments d)) f0 = false ->
  f_pearson_of betainc d = (fm1, f0).
Proof.
  intros betainc d E V. destruct (nan_y_moments d fs_init E) as [A B].
  unfold FloatModel.f_pearson_of, FloatModel.f_moments. cbv zeta. cbn [fm_vx fm_vy fm_cov].
  rewrite A, B, !fdiv_nan_l. apply pearson_nan_cov. apply orb_false_iff. split; [exact V|reflexivity].
Qed.

(* ---- rolling ---- *)
Lemma roll_loop_range : forall betainc ts d window center mp is s,
  Forall (fun o => correlation_or_nan prec emax (fst (fst o)))
         (f_roll_loop prec emax Hp He betainc ts d window center mp is s).
Proof.
  intros betainc ts d window center mp is. induction is as [|i r IH]; intros s; cbn [f_roll_loop]; [constructor|].
  destruct (f_roll_step prec emax Hp He betainc ts d window center mp s i) as [s' o] eqn:E. constructor; [|apply IH].
  unfold f_roll_step in E. destruct s as [[lold hold] sums]. cbv zeta in E.
  injection E as _ E. subst o.
  match goal with |- context [if ?b then _ else _] => destruct b end.
  - left. reflexivity.
  - apply f_pearson_or_nan.
Qed.

(* ---- exchange of the series ---- *)
Definition osem (a b : float) : Prop :=
  match a, b with
  | B754_nan, B754_nan => True
  | B754_infinity s, B754_infinity t => t = negb s
  | _, _ => is_finite a = true /\ is_finite b = true /\ B2R b = - B2R a
  end.
Lemma osem_finite : forall a b : float, is_finite a = true -> is_finite b = true -> B2R b = - B2R a -> osem a b.
Proof. intros [ | | | ] [ | | | ]; cbn; try discriminate; auto. Qed.
Lemma osem_opposite : forall a b : float, osem a b -> opposite prec emax a b.
Proof.
  intros a b O. destruct (is_finite a) eqn:Fa.
  - assert (X : is_finite b = true /\ B2R b = - B2R a).
    { destruct a; try (cbn in Fa; discriminate); destruct b; cbn in O |- *; tauto. }
    destruct X as [Fb V]. destruct (Req_dec (B2R a) 0) as [Z|Z].
    + right. repeat split; auto. rewrite V, Z. ring.
    + left. apply B2R_Bsign_inj; [exact Fb|rewrite is_finite_Bopp; exact Fa|rewrite B2R_Bopp; exact V|].
      rewrite Bsign_Bopp by (destruct a; try reflexivity; discriminate).
      rewrite (sign_zero_or prec emax a Fa Z), (sign_zero_or prec emax b Fb) by (rewrite V; lra). rewrite V.
      destruct (Rlt_bool_spec (B2R a) 0); [apply Rlt_bool_false|apply Rlt_bool_true]; lra.
  - left. destruct a; try (cbn in Fa; discriminate); destruct b; cbn in O |- *; try tauto; try (destruct O; discriminate).
    subst. reflexivity.
Qed.
Lemma opposite_osem : forall a b : float, opposite prec emax a b -> osem a b.
Proof.
  intros a b [E|[Fa [Fb [A B]]]].
  - subst. destruct a; cbn; auto.
    + repeat split; auto. lra.
    + repeat split; auto. destruct s; cbn; rewrite <- F2R_Zopp; reflexivity.
  - apply osem_finite; auto. rewrite A, B. lra.
Qed.

Lemma fsub_exchange : forall a b : float, osem (fsub a b) (fsub b a).
Proof.
  intros a b. destruct (is_finite a) eqn:Fa; [destruct (is_finite b) eqn:Fb|].
  - assert (N : rnd (B2R b - B2R a) = - rnd (B2R a - B2R b)).
    { rewrite <- rnd_opp. f_equal. ring. }
    destruct (fsub_cases prec emax Hp He a b Fa Fb) as [[B [F V]]|[B [E S]]];
    destruct (fsub_cases prec emax Hp He b a Fb Fa) as [[B' [F' V']]|[B' [E' S']]];
      rewrite N in B'; rewrite ?Rabs_Ropp in B'; try (exfalso; lra).
    + apply osem_finite; auto. rewrite V, V', N. reflexivity.
    + rewrite E, E'. cbn. rewrite S'. reflexivity.
  - destruct a; destruct b; cbn in *; try discriminate; auto; rewrite negb_involutive; reflexivity.
  - destruct a; destruct b; cbn in *; try discriminate; auto; try (rewrite negb_involutive; reflexivity);
      try (destruct s; destruct s0; cbn; auto).
Qed.
Lemma fsub_osem : forall a b c e : float, osem a b -> osem c e -> osem (fsub a c) (fsub b e) .
Proof.
  intros a b c e O P. destruct (is_finite a) eqn:Fa; [destruct (is_finite c) eqn:Fc|].
  - assert (X : is_finite b = true /\ B2R b = - B2R a) by (destruct a; try (cbn in Fa; discriminate); destruct b; cbn in O |- *; tauto).
    assert (Y : is_finite e = true /\ B2R e = - B2R c) by (destruct c; try (cbn in Fc; discriminate); destruct e; cbn in P |- *; tauto).
    destruct X as [Fb Vb]. destruct Y as [Fe Ve].
    assert (N : rnd (B2R b - B2R e) = - rnd (B2R a - B2R c)).
    { rewrite <- rnd_opp. f_equal. rewrite Vb, Ve. ring. }
    destruct (fsub_cases prec emax Hp He a c Fa Fc) as [[B [F V]]|[B [E S]]];
    destruct (fsub_cases prec emax Hp He b e Fb Fe) as [[B' [F' V']]|[B' [E' S']]];
      rewrite N in B'; rewrite ?Rabs_Ropp in B'; try (exfalso; lra).
    + apply osem_finite; auto. rewrite V, V', N. reflexivity.
    + rewrite E, E'. cbn.
      assert (Za : B2R a <> 0).
      { intros Z. rewrite Z in B. replace (0 - B2R c) with (- B2R c) in B by ring.
        rewrite rnd_opp, Rabs_Ropp, rnd_id in B by exact Hp. pose proof (abs_B2R_lt_emax _ _ c). unfold big in B. lra. }
      rewrite (sign_zero_or prec emax a Fa Za), (sign_zero_or prec emax b Fb) by (rewrite Vb; lra). rewrite Vb.
      destruct (Rlt_bool_spec (B2R a) 0); [apply Rlt_bool_false|apply Rlt_bool_true]; lra.
  - destruct a; destruct c; destruct b; destruct e; cbn in *; try discriminate; try tauto;
      try (destruct O; discriminate); try (destruct P; discriminate); try (destruct O as [? [? ?]]; discriminate); try (destruct P as [? [? ?]]; discriminate); subst; auto; repeat split; auto.
  - destruct a; destruct c; destruct b; destruct e; cbn in *; try discriminate; try tauto;
      try (destruct O; discriminate); try (destruct P; discriminate); try (destruct O as [? [? ?]]; discriminate); try (destruct P as [? [? ?]]; discriminate); subst; auto;
      try (destruct s; destruct s0; cbn; auto).
Qed.
Lemma fadd_osem : forall a b c e : float, osem a b -> osem c e -> osem (fadd a c) (fadd b e).
Proof.
  intros a b c e O P. destruct (is_finite a) eqn:Fa; [destruct (is_finite c) eqn:Fc|].
  - assert (X : is_finite b = true /\ B2R b = - B2R a) by (destruct a; try (cbn in Fa; discriminate); destruct b; cbn in O |- *; tauto).
    assert (Y : is_finite e = true /\ B2R e = - B2R c) by (destruct c; try (cbn in Fc; discriminate); destruct e; cbn in P |- *; tauto).
    destruct X as [Fb Vb]. destruct Y as [Fe Ve].
    assert (N : rnd (B2R b + B2R e) = - rnd (B2R a + B2R c)).
    { rewrite <- rnd_opp. f_equal. rewrite Vb, Ve. ring. }
    destruct (fadd_cases prec emax Hp He a c Fa Fc) as [[B [F V]]|[B [E S]]];
    destruct (fadd_cases prec emax Hp He b e Fb Fe) as [[B' [F' V']]|[B' [E' S']]];
      rewrite N in B'; rewrite ?Rabs_Ropp in B'; try (exfalso; lra).
    + apply osem_finite; auto. rewrite V, V', N. reflexivity.
    + rewrite E, E'. cbn.
      assert (Za : B2R a <> 0).
      { intros Z. rewrite Z in B. rewrite Rplus_0_l in B.
        rewrite rnd_id in B by exact Hp. pose proof (abs_B2R_lt_emax _ _ c). unfold big in B. lra. }
      rewrite (sign_zero_or prec emax a Fa Za), (sign_zero_or prec emax b Fb) by (rewrite Vb; lra). rewrite Vb.
      destruct (Rlt_bool_spec (B2R a) 0); [apply Rlt_bool_false|apply Rlt_bool_true]; lra.
  - destruct a; destruct c; destruct b; destruct e; cbn in *; try discriminate; try tauto;
      try (destruct O; discriminate); try (destruct P; discriminate); try (destruct O as [? [? ?]]; discriminate); try (destruct P as [? [? ?]]; discriminate); subst; auto; repeat split; auto.
  - destruct a; destruct c; destruct b; destruct e; cbn in *; try discriminate; try tauto;
      try (destruct O; discriminate); try (destruct P; discriminate); try (destruct O as [? [? ?]]; discriminate); try (destruct P as [? [? ?]]; discriminate); subst; auto;
      try (destruct s; destruct s0; cbn; auto).
Qed.
Lemma fmul_same : forall a b a' b' : float, is_finite a = true -> is_finite b = true -> is_finite a' = true -> is_finite b' = true ->
  B2R a * B2R b = B2R a' * B2R b' -> xorb (Bsign a) (Bsign b) = xorb (Bsign a') (Bsign b') -> fmul a b = fmul a' b'.
Proof.
  intros a b a' b' Fa Fb Fa' Fb' V S.
  pose proof (Bmult_correct prec emax Hp He mode_NE a b) as C.
  pose proof (Bmult_correct prec emax Hp He mode_NE a' b') as C'.
  rewrite <- V in C'. destruct (Rlt_bool _ _).
  - destruct C as [C1 [C2 C3]]. destruct C' as [C1' [C2' C3']]. rewrite Fa, Fb in C2. rewrite Fa', Fb' in C2'.
    assert (NN : forall z : float, is_finite z = true -> is_nan z = false) by (intros [ | | | ]; cbn; intros; try discriminate; reflexivity).
    apply B2R_Bsign_inj; auto; unfold FloatModel.fmul.
    + rewrite C1, C1'. reflexivity.
    + rewrite C3, C3' by (apply NN; assumption). exact S.
  - rewrite <- S in C'. unfold FloatModel.fmul. rewrite (not_finite_overflow prec emax _ _ C). symmetry.
    apply (not_finite_overflow prec emax), C'.
Qed.
Lemma fsq_osem : forall a b : float, osem a b -> fsq a = fsq b.
Proof.
  intros a b O. destruct (is_finite a) eqn:Fa.
  - assert (X : is_finite b = true /\ B2R b = - B2R a) by (destruct a; try (cbn in Fa; discriminate); destruct b; cbn in O |- *; tauto).
    destruct X as [Fb Vb]. apply fmul_same; auto; [rewrite Vb; ring|rewrite !xorb_nilpotent; reflexivity].
  - destruct a; destruct b; cbn in *; try discriminate; try tauto; try (destruct O; discriminate).
    subst. destruct s; reflexivity.
Qed.
Lemma fdiv_osem : forall a b n : float, osem a b -> osem (fdiv a n) (fdiv b n).
Proof.
  intros a b n O. destruct (is_finite a) eqn:Fa.
  - assert (X : is_finite b = true /\ B2R b = - B2R a) by (destruct a; try (cbn in Fa; discriminate); destruct b; cbn in O |- *; tauto).
    destruct X as [Fb Vb].
    assert (SG : B2R a <> 0 -> Bsign b = negb (Bsign a)).
    { intros Za. rewrite (sign_zero_or prec emax a Fa Za), (sign_zero_or prec emax b Fb) by (rewrite Vb; lra). rewrite Vb.
      destruct (Rlt_bool_spec (B2R a) 0); [apply Rlt_bool_false|apply Rlt_bool_true]; lra. }
    destruct (Req_dec (B2R n) 0) as [Z|Z].
    + destruct n as [sn|sn| |sn mn en Hn].
      * destruct a as [sa|sa| |sa ma ea Ha]; try (cbn in Fa; discriminate); destruct b as [sb|sb| |sb mb eb Hb]; try (cbn in Fb; discriminate); cbn; auto.
        -- exfalso. cbn in Vb. destruct sb; cbn in Vb.
           ++ assert (F2R (Float radix2 (Z.neg mb) eb) < 0) by (apply F2R_lt_0; reflexivity). lra.
           ++ assert (0 < F2R (Float radix2 (Z.pos mb) eb)) by (apply F2R_gt_0; reflexivity). lra.
        -- exfalso. cbn in Vb. destruct sa; cbn in Vb.
           ++ assert (F2R (Float radix2 (Z.neg ma) ea) < 0) by (apply F2R_lt_0; reflexivity). lra.
           ++ assert (0 < F2R (Float radix2 (Z.pos ma) ea)) by (apply F2R_gt_0; reflexivity). lra.
        -- assert (Q : sb = negb sa).
           { apply SG. cbn. destruct sa; cbn.
             - assert (F2R (Float radix2 (Z.neg ma) ea) < 0) by (apply F2R_lt_0; reflexivity). lra.
             - assert (0 < F2R (Float radix2 (Z.pos ma) ea)) by (apply F2R_gt_0; reflexivity). lra. }
           subst. destruct sa; destruct sn; reflexivity.
      * destruct a; try (cbn in Fa; discriminate); destruct b; try (cbn in Fb; discriminate); cbn; repeat split; auto; lra.
      * rewrite !fdiv_nan_r. exact Logic.I.
      * exfalso. cbn in Z. destruct sn; cbn in Z.
        -- assert (F2R (Float radix2 (Z.neg mn) en) < 0) by (apply F2R_lt_0; reflexivity). lra.
        -- assert (0 < F2R (Float radix2 (Z.pos mn) en)) by (apply F2R_gt_0; reflexivity). lra.
    + assert (N : rnd (B2R b / B2R n) = - rnd (B2R a / B2R n)).
      { rewrite <- rnd_opp. f_equal. rewrite Vb. field. exact Z. }
      destruct (fdiv_cases prec emax Hp He a n Fa Z) as [[B [F V]]|[B E]];
      destruct (fdiv_cases prec emax Hp He b n Fb Z) as [[B' [F' V']]|[B' E']];
        rewrite N in B'; rewrite ?Rabs_Ropp in B'; try (exfalso; lra).
      * apply osem_finite; auto. rewrite V, V', N. reflexivity.
      * rewrite E, E'. cbn. rewrite SG; [destruct (Bsign a); destruct (Bsign n); reflexivity|].
        intros Q. rewrite Q in B. unfold Rdiv in B. rewrite Rmult_0_l, rnd_0, Rabs_R0 in B.
        pose proof (big_pos emax). lra.
  - destruct a; destruct b; cbn in O; try (cbn in Fa; discriminate); try tauto; try (destruct O; discriminate).
    + subst. destruct n as [sn|sn| |sn mn en Hn]; cbn; auto; destruct s; destruct sn; reflexivity.
Qed.

Lemma fsq_exchange : forall a b : float, fsq (fsub a b) = fsq (fsub b a).
Proof. intros a b. apply fsq_osem, fsub_exchange. Qed.

Notation exchanged := (exchanged prec emax).
Lemma exchanged_length : forall d, length (exchanged d) = length d.
Proof. intros d. apply map_length. Qed.
Lemma fold_exchanged : forall (A : Type) (f g : A -> float * float -> A) (d : list (float * float)) a,
  (forall a p, f a (snd p, fst p) = g a p) -> fold_left f (exchanged d) a = fold_left g d a.
Proof.
  intros A f g d. induction d as [|p r IH]; intros a H; cbn; [reflexivity|]. rewrite H. apply IH, H.
Qed.
Lemma RSS_exchanged : forall d, f_RSS prec emax Hp He (exchanged d) = f_RSS prec emax Hp He d.
Proof.
  intros d. apply fold_exchanged. intros a p. cbn [fst snd]. f_equal. apply fsq_exchange.
Qed.
Lemma msd_exchanged : forall d, f_msd prec emax Hp He (exchanged d) = f_msd prec emax Hp He d.
Proof. intros d. unfold f_msd. rewrite RSS_exchanged, exchanged_length. reflexivity. Qed.
Lemma rmsd_exchanged : forall d, f_rmsd prec emax Hp He (exchanged d) = f_rmsd prec emax Hp He d.
Proof. intros d. unfold f_rmsd. rewrite msd_exchanged. reflexivity. Qed.
Lemma bias_exchanged : forall d, opposite prec emax (f_bias prec emax Hp He d) (f_bias prec emax Hp He (exchanged d)).
Proof.
  intros d. apply osem_opposite. unfold f_bias. rewrite exchanged_length. apply fdiv_osem.
  rewrite (fold_exchanged _ _ (fun b p => fadd b (fsub (snd p) (fst p))) d f0) by reflexivity.
  assert (G : forall a b, osem a b -> osem (fold_left (fun b p => fadd b (fsub (fst p) (snd p))) d a)
                                           (fold_left (fun b p => fadd b (fsub (snd p) (fst p))) d b)).
  { induction d as [|p r IH]; intros a b O; cbn; [exact O|]. apply IH. apply fadd_osem; [exact O|apply fsub_exchange]. }
  apply G. cbn. repeat split; auto. lra.
Qed.
Lemma ubrmsd_exchanged : forall d, f_ubrmsd prec emax Hp He (exchanged d) = f_ubrmsd prec emax Hp He d.
Proof.
  intros d. unfold f_ubrmsd. destruct d as [|p r]; [reflexivity|].
  change (exchanged (p :: r)) with ((snd p, fst p) :: exchanged r) at 1. cbv iota.
  change ((snd p, fst p) :: exchanged r) with (exchanged (p :: r)). cbv zeta.
  rewrite exchanged_length. f_equal. f_equal.
  assert (S1 : fold_left (fun s p => fadd s (fst p)) (exchanged (p :: r)) f0 = fold_left (fun s p => fadd s (snd p)) (p :: r) f0)
    by (apply fold_exchanged; reflexivity).
  assert (S2 : fold_left (fun s p => fadd s (snd p)) (exchanged (p :: r)) f0 = fold_left (fun s p => fadd s (fst p)) (p :: r) f0)
    by (apply fold_exchanged; reflexivity).
  rewrite S1, S2.
  apply fold_exchanged. intros a q. cbn [fst snd]. f_equal. apply fsq_exchange.
Qed.

(* the moments, but for the covariance *)
Lemma moments_exchanged : forall d,
  let m := f_moments d in let m' := f_moments (exchanged d) in
  fm_x prec emax m' = fm_y prec emax m /\ fm_y prec emax m' = fm_x prec emax m
  /\ fm_vx prec emax m' = fm_vy prec emax m /\ fm_vy prec emax m' = fm_vx prec emax m.
Proof.
  intros d. cbv zeta. unfold FloatModel.f_moments. cbn [fm_x fm_y fm_vx fm_vy]. rewrite exchanged_length.
  assert (G : forall s s', s_n _ _ s' = s_n _ _ s -> s_mx _ _ s' = s_my _ _ s -> s_my _ _ s' = s_mx _ _ s ->
    s_M2x _ _ s' = s_M2y _ _ s -> s_M2y _ _ s' = s_M2x _ _ s ->
    let t := fold_left fs_step d s in let t' := fold_left fs_step (exchanged d) s' in
    s_mx _ _ t' = s_my _ _ t /\ s_my _ _ t' = s_mx _ _ t /\ s_M2x _ _ t' = s_M2y _ _ t /\ s_M2y _ _ t' = s_M2x _ _ t).
  { induction d as [|p r IH]; intros s s' A B C D E; cbn [fold_left FloatSpec.exchanged map]; [cbv zeta; auto|].
    apply (IH (fs_step s p) (fs_step s' (snd p, fst p)));
      cbn [FloatModel.fs_step s_n s_mx s_my s_M2x s_M2y fst snd]; rewrite ?A, ?B, ?C, ?D, ?E; reflexivity. }
  destruct (G fs_init fs_init eq_refl eq_refl eq_refl eq_refl eq_refl) as [A [B [C D]]].
  rewrite A, B, C, D. auto.
Qed.
Lemma mse_parts_exchanged : forall d,
  let m := f_moments d in let m' := f_moments (exchanged d) in
  f_mse_var prec emax Hp He m' = f_mse_var prec emax Hp He m
  /\ f_mse_bias prec emax Hp He m' = f_mse_bias prec emax Hp He m.
Proof.
  intros d. cbv zeta. destruct (moments_exchanged d) as [A [B [C D]]]. unfold f_mse_var, f_mse_bias.
  rewrite A, B, C, D. split; apply fsq_exchange.
Qed.
End FloatProofs2.
