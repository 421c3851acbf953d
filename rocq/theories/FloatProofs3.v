(* Means, variances and identical series in IEEE 754 arithmetic. *)
From Coq Require Import ZArith Reals List Lia Lra Bool Psatz.
From Flocq Require Import Core IEEE754.BinarySingleNaN.
From Verif Require Import FloatModel FloatSpec FloatProofs FloatProofs2.
Import ListNotations.
Open Scope R_scope.

Section FloatProofs3.
Variables prec emax : Z.
Context (Hp : Prec_gt_0 prec) (He : Prec_lt_emax prec emax).
Notation float := (binary_float prec emax).
Notation fexp := (FLT_exp (3 - emax - prec) prec).
Notation fadd := (fadd prec emax Hp He).
Notation fsub := (fsub prec emax Hp He).
Notation fmul := (fmul prec emax Hp He).
Notation fdiv := (fdiv prec emax Hp He).
Notation fsqrt := (fsqrt prec emax Hp He).
Notation fsq := (fsq prec emax Hp He).
Notation f0 := (f0 prec emax).
Notation f1 := (f1 prec emax Hp He).
Notation fm1 := (fm1 prec emax Hp He).
Notation of_n := (of_n prec emax Hp He).
Notation py_max := (py_max prec emax).
Notation py_min := (py_min prec emax).
Notation f_moments := (f_moments prec emax Hp He).
Notation fs_step := (fs_step prec emax Hp He).
Notation fs_init := (fs_init prec emax).
Notation f_pearson := (f_pearson prec emax Hp He).
Notation f_pearson_of := (f_pearson_of prec emax Hp He).
Notation nn := (nonneg_or_nan prec emax).
Notation big := (big emax).
Notation rnd := (rnd prec emax).
Notation format := (generic_format radix2 fexp).
Local Instance valid3 : Valid_exp fexp.
Proof. apply FLT_exp_valid. exact Hp. Qed.
Local Instance mono3 : Monotone_exp fexp.
Proof. apply FLT_exp_monotone. Qed.

(* ---- the mean moves towards the new value, not past it ---- *)
Lemma diff_at_least : forall x m : R, format x -> format m -> m < x -> bpow radix2 (3 - emax - prec) <= x - m.
Proof.
  intros x m Fx Fm L. apply generic_format_FIX_FLT in Fx. apply generic_format_FIX_FLT in Fm.
  apply FIX_format_generic in Fx. apply FIX_format_generic in Fm.
  destruct Fx as [[mx ex] Ex Qx]. destruct Fm as [[mm em] Em Qm]. cbn [Fexp] in Qx, Qm. subst ex em.
  unfold F2R in Ex, Em. cbn [Fnum Fexp] in Ex, Em. rewrite Ex, Em in L |- *.
  set (b := bpow radix2 (3 - emax - prec)) in *. assert (Pb : 0 < b) by apply bpow_gt_0.
  assert (Q : IZR mm < IZR mx) by (apply Rmult_lt_reg_r with b; lra). apply lt_IZR in Q.
  assert (1 <= IZR mx - IZR mm) by (rewrite <- minus_IZR; apply IZR_le; lia). nra.
Qed.
Lemma step_up : forall x m n : R, format x -> format m -> m <= x -> 2 <= n ->
  m <= rnd (m + rnd (rnd (x - m) / n)) <= x.
Proof.
  intros x m n Fx Fm L N.
  assert (Px : rnd x = x) by (apply round_generic; auto with typeclass_instances).
  assert (Pm : rnd m = m) by (apply round_generic; auto with typeclass_instances).
  assert (Y0 : 0 <= rnd (x - m)) by (apply rnd_nonneg; [exact Hp|lra]).
  assert (I0 : 0 < / n) by (apply Rinv_0_lt_compat; lra).
  assert (T0 : 0 <= rnd (rnd (x - m) / n)) by (apply rnd_nonneg; [exact Hp|]; apply Rmult_le_pos; lra).
  split; [rewrite <- Pm at 1; apply rnd_le; [exact Hp|lra]|].
  rewrite <- Px at 2. apply rnd_le; [exact Hp|].
  destruct (Rle_lt_or_eq_dec _ _ L) as [LT|EQ].
  2:{ subst. replace (x - x) with 0 by ring. rewrite rnd_0 by exact Hp. unfold Rdiv. rewrite Rmult_0_l, rnd_0 by exact Hp. lra. }
  pose proof (diff_at_least x m Fx Fm LT) as D.
  assert (T : rnd (rnd (x - m) / n) <= x - m); [|lra].
  destruct (mag radix2 (x - m)) as [e E]. specialize (E ltac:(lra)). rewrite Rabs_pos_eq in E by lra.
  assert (LE : (3 - emax - prec < e)%Z) by (apply (lt_bpow radix2); lra).
  assert (Y : rnd (x - m) <= bpow radix2 e).
  { rewrite <- (rnd_bpow prec emax Hp e) by lia. apply rnd_le; [exact Hp|lra]. }
  apply Rle_trans with (bpow radix2 (e - 1)); [|lra].
  rewrite <- (rnd_bpow prec emax Hp (e - 1)) by lia. apply rnd_le; [exact Hp|].
  assert (B2 : bpow radix2 e = 2 * bpow radix2 (e - 1)).
  { replace e with (1 + (e - 1))%Z at 1 by ring. rewrite bpow_plus. reflexivity. }
  apply Rle_trans with (rnd (x - m) / 2); [|lra].
  unfold Rdiv. apply Rmult_le_compat_l; [exact Y0|]. apply Rinv_le_contravar; lra.
Qed.
Lemma step_down : forall x m n : R, format x -> format m -> x <= m -> 2 <= n ->
  x <= rnd (m + rnd (rnd (x - m) / n)) <= m.
Proof.
  intros x m n Fx Fm L N.
  pose proof (step_up (- x) (- m) n (generic_format_opp _ _ _ Fx) (generic_format_opp _ _ _ Fm) ltac:(lra) N) as H.
  replace (- x - - m) with (- (x - m)) in H by ring. rewrite rnd_opp in H.
  replace (- rnd (x - m) / n) with (- (rnd (x - m) / n)) in H by (field; lra). rewrite rnd_opp in H.
  replace (- m + - rnd (rnd (x - m) / n)) with (- (m + rnd (rnd (x - m) / n))) in H by ring. rewrite rnd_opp in H.
  lra.
Qed.

(* the count of the values: finite or infinite, never below k *)
Definition cnt (k : R) (n : float) : Prop := (is_finite n = true /\ k <= B2R n) \/ n = B754_infinity false.
Lemma cnt_step : forall (k : R) (n : float), 0 <= k -> rnd (k + 1) = k + 1 -> cnt k n -> cnt (k + 1) (fadd n f1).
Proof.
  intros k n K R1 [[F L]|E].
  - destruct (f1_val prec emax Hp He) as [F1 V1].
    destruct (fadd_cases prec emax Hp He n f1 F F1) as [[_ [G V]]|[O [E S]]].
    + left. split; [exact G|]. rewrite V, V1, <- R1. apply rnd_le; [exact Hp|lra].
    + right. rewrite E, S. f_equal. rewrite (sign_zero_or prec emax f1 F1) by lra. rewrite V1. apply Rlt_bool_false. lra.
  - right. subst. destruct (f1_val prec emax Hp He) as [F1 V1]. destruct f1; try discriminate; reflexivity.
Qed.

Lemma mean_step : forall x m n : float, cnt 2 n -> is_finite (fadd m (fdiv (fsub x m) n)) = true ->
  let m' := B2R (fadd m (fdiv (fsub x m) n)) in
  (B2R m <= B2R x -> B2R m <= m' <= B2R x) /\ (B2R x <= B2R m -> B2R x <= m' <= B2R m).
Proof.
  intros x m n C F. cbv zeta. destruct (fadd_finite_inv prec emax Hp He _ _ F) as [Fm Fd].
  pose proof (fdiv_finite_inv prec emax Hp He _ _ Fd) as Fs. destruct (fsub_finite_inv prec emax Hp He _ _ Fs) as [Fx _].
  rewrite (fadd_val prec emax Hp He _ _ F).
  destruct C as [[Fn L]|E].
  - rewrite (fdiv_val prec emax Hp He _ _ Fd) by lra. rewrite (fsub_val prec emax Hp He _ _ Fs).
    pose proof (B2R_format prec emax x) as Gx. pose proof (B2R_format prec emax m) as Gm.
    split; intros Q; [apply step_up|apply step_down]; auto.
  - subst n.
    assert (Z : B2R (fdiv (fsub x m) (B754_infinity false)) = 0) by (destruct (fsub x m); reflexivity).
    rewrite Z, Rplus_0_r, rnd_id by exact Hp. split; intros Q; lra.
Qed.
Lemma mean_first : forall x m n : float, B2R m = 0 -> is_finite n = true -> B2R n = 1 ->
  is_finite (fadd m (fdiv (fsub x m) n)) = true -> B2R (fadd m (fdiv (fsub x m) n)) = B2R x.
Proof.
  intros x m n Z Fn N F. destruct (fadd_finite_inv prec emax Hp He _ _ F) as [Fm Fd].
  pose proof (fdiv_finite_inv prec emax Hp He _ _ Fd) as Fs. destruct (fsub_finite_inv prec emax Hp He _ _ Fs) as [Fx _].
  rewrite (fadd_val prec emax Hp He _ _ F), (fdiv_val prec emax Hp He _ _ Fd) by lra.
  rewrite (fsub_val prec emax Hp He _ _ Fs), Z, N, Rminus_0_r, Rplus_0_l.
  unfold Rdiv. rewrite Rinv_1, Rmult_1_r, !rnd_id by exact Hp. reflexivity.
Qed.

(* a state is at the start, or has counted something *)
Definition started (n mx my : float) : Prop := cnt 1 n \/ (n = f0 /\ mx = f0 /\ my = f0).
Lemma count_first : is_finite (fadd f0 f1) = true /\ B2R (fadd f0 f1) = 1.
Proof.
  destruct (f1_val prec emax Hp He) as [F1 V1].
  assert (F0 : is_finite f0 = true) by reflexivity. assert (V0 : B2R f0 = 0) by reflexivity.
  destruct (fadd_cases prec emax Hp He f0 f1 F0 F1) as [[_ [F V]]|[O _]].
  - split; [exact F|]. rewrite V, V0, V1, Rplus_0_l. apply rnd_1; assumption.
  - exfalso. rewrite V0, V1, Rplus_0_l, rnd_1, Rabs_R1 in O by assumption. pose proof (big_gt prec emax Hp He). lra.
Qed.
Lemma started_step : forall n mx my mx' my', started n mx my -> started (fadd n f1) mx' my'.
Proof.
  intros n mx my mx' my' [C|[E _]].
  - left. assert (D : cnt (1 + 1) (fadd n f1)).
    { apply cnt_step; [lra| |exact C]. replace (1 + 1) with 2 by ring. apply rnd_2; assumption. }
    destruct D as [[F L]|D]; [left; split; [exact F|lra]|right; exact D].
  - subst. left. left. destruct count_first as [F V]. rewrite V. split; [exact F|lra].
Qed.
Lemma started_mean : forall n m my x : float, (started n m my \/ started n my m) ->
  is_finite (fadd m (fdiv (fsub x m) (fadd n f1))) = true ->
  let m' := B2R (fadd m (fdiv (fsub x m) (fadd n f1))) in
  (B2R m <= B2R x -> B2R m <= m' <= B2R x) /\ (B2R x <= B2R m -> B2R x <= m' <= B2R m).
Proof.
  intros n m my x S F.
  assert (S' : cnt 1 n \/ (n = f0 /\ m = f0)) by (destruct S as [[S|[A [B C]]]|[S|[A [B C]]]]; auto).
  destruct S' as [C|[E1 E2]].
  - apply mean_step; [|exact F]. replace 2 with (1 + 1) by ring. apply cnt_step; [lra| |exact C].
    replace (1 + 1) with 2 by ring. apply rnd_2; assumption.
  - subst. destruct count_first as [Fc Vc]. cbv zeta. rewrite (mean_first x f0 (fadd f0 f1) eq_refl Fc Vc F). split; intros; lra.
Qed.

(* ---- means lie between the smallest and the largest value ---- *)
Lemma fold_mean_finite : forall (d : list (float * float)) s,
  (is_finite (s_mx prec emax (fold_left fs_step d s)) = true -> is_finite (s_mx prec emax s) = true)
  /\ (is_finite (s_my prec emax (fold_left fs_step d s)) = true -> is_finite (s_my prec emax s) = true).
Proof.
  induction d as [|p r IH]; intros s; cbn [fold_left]; [auto|]. destruct (IH (fs_step s p)) as [A B].
  split; intros F; [apply A in F|apply B in F]; cbn in F; apply fadd_finite_inv in F; apply F.
Qed.
Lemma fold_mean_range : forall (d : list (float * float)) s (lo hi : R), started (s_n _ _ s) (s_mx _ _ s) (s_my _ _ s) ->
  is_finite (s_mx prec emax (fold_left fs_step d s)) = true ->
  Forall (fun p => lo <= B2R (fst p) <= hi) d ->
  (cnt 1 (s_n _ _ s) -> lo <= B2R (s_mx _ _ s) <= hi) ->
  (cnt 1 (s_n _ _ s) \/ d <> []) ->
  lo <= B2R (s_mx prec emax (fold_left fs_step d s)) <= hi.
Proof.
  induction d as [|p r IH]; intros s lo hi S F A L N; cbn [fold_left] in *.
  - destruct N as [C|N]; [apply L, C|congruence].
  - inversion A as [|p' r' Ap Ar]; subst p' r'.
    pose proof (proj1 (fold_mean_finite r (fs_step s p)) F) as G.
    assert (C' : cnt 1 (s_n _ _ (fs_step s p))).
    { destruct (started_step _ _ _ (s_mx _ _ (fs_step s p)) (s_my _ _ (fs_step s p)) S) as [C|[E _]]; [exact C|].
      exfalso. destruct S as [C|[E0 _]].
      - assert (D : cnt (1 + 1) (fadd (s_n _ _ s) f1)).
        { apply cnt_step; [lra| |exact C]. replace (1 + 1) with 2 by ring. apply rnd_2; assumption. }
        rewrite E in D. destruct D as [[_ D]|D]; [cbn in D; lra|discriminate].
      - rewrite E0 in E. pose proof count_first as [_ V]. rewrite E in V. cbn in V. lra. }
    apply IH; auto.
    + left. exact C'.
    + intros _. cbn [FloatModel.fs_step s_mx] in G |- *. destruct S as [C|[E1 [E2 E3]]].
      * specialize (L C). destruct (started_mean (s_n _ _ s) (s_mx _ _ s) (s_my _ _ s) (fst p) (or_introl (or_introl C)) G) as [U D].
        destruct (Rle_or_lt (B2R (s_mx _ _ s)) (B2R (fst p))) as [Q|Q]; [specialize (U Q)|specialize (D (Rlt_le _ _ Q))]; cbn in *; lra.
      * rewrite E1, E2 in *. destruct count_first as [Fc Vc]. rewrite (mean_first (fst p) f0 (fadd f0 f1) eq_refl Fc Vc G). exact Ap.
Qed.
Lemma mean_range : forall (d : list (float * float)) (lo hi : R), d <> [] -> is_finite (fm_x _ _ (f_moments d)) = true ->
  Forall (fun p => lo <= B2R (fst p) <= hi) d -> lo <= B2R (fm_x _ _ (f_moments d)) <= hi.
Proof.
  intros d lo hi N F A. apply (fold_mean_range d fs_init lo hi); auto.
  - right. repeat split.
  - intros [[_ C]|C]; [cbn in C; lra|discriminate].
Qed.

(* ---- variances are not negative ---- *)
Lemma product_nonneg : forall n m my x : float, (started n m my \/ started n my m) ->
  let m' := fadd m (fdiv (fsub x m) (fadd n f1)) in
  is_finite (fmul (fsub x m') (fsub x m)) = true -> 0 <= B2R (fmul (fsub x m') (fsub x m)).
Proof.
  intros n m my x S m' F. destruct (fmul_finite_inv prec emax Hp He _ _ F) as [F1 F2].
  destruct (fsub_finite_inv prec emax Hp He _ _ F1) as [Fx Fm'].
  rewrite (fmul_val prec emax Hp He _ _ F), (fsub_val prec emax Hp He _ _ F1), (fsub_val prec emax Hp He _ _ F2).
  destruct (started_mean n m my x S Fm') as [U D]. fold m' in U, D. cbv zeta in U, D.
  apply rnd_nonneg; [exact Hp|].
  destruct (Rle_or_lt (B2R m) (B2R x)) as [Q|Q].
  - specialize (U Q). assert (0 <= rnd (B2R x - B2R m')) by (apply rnd_nonneg; [exact Hp|lra]).
    assert (0 <= rnd (B2R x - B2R m)) by (apply rnd_nonneg; [exact Hp|lra]). apply Rmult_le_pos; assumption.
  - specialize (D (Rlt_le _ _ Q)).
    assert (N : forall z, z <= 0 -> rnd z <= 0) by (intros z Hz; rewrite <- (rnd_0 prec emax); apply rnd_le; [exact Hp|exact Hz]).
    pose proof (N (B2R x - B2R m') ltac:(lra)). pose proof (N (B2R x - B2R m) ltac:(lra)). nra.
Qed.
Lemma fold_M2_finite : forall (d : list (float * float)) s,
  (is_finite (s_M2x prec emax (fold_left fs_step d s)) = true -> is_finite (s_M2x prec emax s) = true)
  /\ (is_finite (s_M2y prec emax (fold_left fs_step d s)) = true -> is_finite (s_M2y prec emax s) = true).
Proof.
  induction d as [|p r IH]; intros s; cbn [fold_left]; [auto|]. destruct (IH (fs_step s p)) as [A B].
  split; intros F; [apply A in F|apply B in F]; cbn in F; apply fadd_finite_inv in F; apply F.
Qed.
Lemma fold_M2x_nonneg : forall (d : list (float * float)) s, started (s_n _ _ s) (s_mx _ _ s) (s_my _ _ s) ->
  (is_finite (s_M2x prec emax s) = true -> 0 <= B2R (s_M2x prec emax s)) ->
  is_finite (s_M2x prec emax (fold_left fs_step d s)) = true -> 0 <= B2R (s_M2x prec emax (fold_left fs_step d s)).
Proof.
  induction d as [|p r IH]; intros s S P F; cbn [fold_left] in *; [apply P, F|].
  apply IH; [|intros G|exact F].
  - cbn [FloatModel.fs_step s_n]. eapply started_step. exact S.
  - cbn [FloatModel.fs_step s_M2x] in G |- *. destruct (fadd_finite_inv prec emax Hp He _ _ G) as [G1 G2].
    rewrite (fadd_val prec emax Hp He _ _ G). apply rnd_nonneg; [exact Hp|].
    pose proof (P G1). pose proof (product_nonneg _ _ _ (fst p) (or_introl S) G2). cbv zeta in *. lra.
Qed.
Lemma fold_M2y_nonneg : forall (d : list (float * float)) s, started (s_n _ _ s) (s_mx _ _ s) (s_my _ _ s) ->
  (is_finite (s_M2y prec emax s) = true -> 0 <= B2R (s_M2y prec emax s)) ->
  is_finite (s_M2y prec emax (fold_left fs_step d s)) = true -> 0 <= B2R (s_M2y prec emax (fold_left fs_step d s)).
Proof.
  induction d as [|p r IH]; intros s S P F; cbn [fold_left] in *; [apply P, F|].
  apply IH; [|intros G|exact F].
  - cbn [FloatModel.fs_step s_n]. eapply started_step. exact S.
  - cbn [FloatModel.fs_step s_M2y] in G |- *. destruct (fadd_finite_inv prec emax Hp He _ _ G) as [G1 G2].
    rewrite (fadd_val prec emax Hp He _ _ G). apply rnd_nonneg; [exact Hp|].
    pose proof (P G1). pose proof (product_nonneg _ _ _ (snd p) (or_intror S) G2). cbv zeta in *. lra.
Qed.
Lemma variances_nonneg : forall d : list (float * float),
  (is_finite (fm_vx _ _ (f_moments d)) = true -> 0 <= B2R (fm_vx _ _ (f_moments d)))
  /\ (is_finite (fm_vy _ _ (f_moments d)) = true -> 0 <= B2R (fm_vy _ _ (f_moments d))).
Proof.
  intros d. assert (S : started (s_n _ _ fs_init) (s_mx _ _ fs_init) (s_my _ _ fs_init)) by (right; repeat split).
  destruct (of_n_nn prec emax Hp He (length d)) as [N1 N2].
  split; intros F; unfold FloatModel.f_moments in *; cbn [fm_vx fm_vy] in *;
    pose proof (fdiv_finite_inv prec emax Hp He _ _ F) as G; (apply nn_finite; [|exact F]); apply fdiv_nn; auto.
  - apply nn_of_finite; [exact G|]. apply fold_M2x_nonneg; auto. intros _. cbn. lra.
  - apply nn_of_finite; [exact G|]. apply fold_M2y_nonneg; auto. intros _. cbn. lra.
Qed.

(* ---- sums of squares ---- *)
Lemma fold_nn : forall (A : Type) (f : A -> float) (l : list A) (a : float), (forall x, nn (f x)) -> nn a ->
  nn (fold_left (fun s x => fadd s (f x)) l a).
Proof.
  intros A f l. induction l as [|x r IH]; intros a H N; cbn; [exact N|]. apply IH; [exact H|]. apply fadd_nn; auto.
Qed.
Lemma f0_nn : nn f0. Proof. cbn. lra. Qed.
Lemma RSS_nn : forall d, nn (f_RSS prec emax Hp He d).
Proof. intros d. apply fold_nn; [intros; apply fsq_nn|apply f0_nn]. Qed.
Lemma msd_nn : forall d, nn (f_msd prec emax Hp He d).
Proof. intros d. destruct (of_n_nn prec emax Hp He (length d)). apply fdiv_nn; auto. apply RSS_nn. Qed.
Lemma rmsd_nn : forall d, nn (f_rmsd prec emax Hp He d) /\ is_nan (f_rmsd prec emax Hp He d) = is_nan (f_msd prec emax Hp He d).
Proof. intros d. split; [apply fsqrt_nn|apply fsqrt_nan, msd_nn]. Qed.
Lemma ubrmsd_nn : forall d, nn (f_ubrmsd prec emax Hp He d).
Proof. intros [|p r]; [exact Logic.I|apply fsqrt_nn]. Qed.
Lemma mse_corr_nn : forall m, nn (f_mse_corr prec emax Hp He m).
Proof.
  intros m. unfold f_mse_corr. match goal with |- nn (py_max ?a _) => generalize a end. intros a. unfold py_max.
  destruct (Bltb a f0) eqn:L; [apply f0_nn|]. destruct (is_finite a) eqn:F.
  - apply nn_of_finite; [exact F|]. rewrite Bltb_correct in L; auto. destruct (Rlt_bool_spec (B2R a) (B2R f0)) as [Q|Q]; [discriminate|].
    cbn in Q. exact Q.
  - destruct a as [s|s| |s q e Hb]; cbn in *; try discriminate; auto. destruct s; [discriminate|reflexivity].
Qed.
Lemma mse_decomposition_nn : forall d, let '(t, c, b, v) := f_mse_decomposition prec emax Hp He d in
  nn t /\ nn c /\ nn b /\ nn v.
Proof.
  intros d. unfold f_mse_decomposition. cbv zeta.
  assert (C := mse_corr_nn (f_moments d)).
  assert (V : nn (f_mse_var prec emax Hp He (f_moments d))) by apply fsq_nn.
  assert (B : nn (f_mse_bias prec emax Hp He (f_moments d))) by apply fsq_nn.
  repeat split; auto. apply fadd_nn; [apply fadd_nn; auto|auto].
Qed.

(* ---- a series and itself ---- *)
Definition twice (l : list float) : list (float * float) := map (fun x => (x, x)) l.
Lemma fsub_self : forall x : float, is_finite x = true -> fsub x x = f0.
Proof.
  intros x F. pose proof (Bminus_correct prec emax Hp He mode_NE x x F F) as C.
  replace (B2R x - B2R x) with 0 in C by ring. rewrite round_0 in C by auto with typeclass_instances.
  rewrite Rabs_R0, Rlt_bool_true in C by apply bpow_gt_0. destruct C as [C1 [C2 C3]].
  rewrite Rcompare_Eq in C3 by reflexivity. apply B2R_Bsign_inj; auto.
  unfold FloatModel.fsub. rewrite C3. destruct (Bsign x); reflexivity.
Qed.
Lemma fdiv_zero : forall n : nat, n <> 0%nat -> fdiv f0 (of_n n) = f0.
Proof.
  intros n N. destruct (of_n_nn prec emax Hp He n) as [P S].
  destruct (of_n n) as [s|s| |s m e H] eqn:E; cbn in *; subst; try reflexivity; exfalso.
  - unfold FloatModel.of_n in E. destruct (of_z_cases prec emax Hp He (Z.of_nat n)) as [[_ [F [V _]]]|[_ V]].
    + rewrite E in V. cbn in V. assert (1 <= rnd (IZR (Z.of_nat n))); [|lra].
      rewrite <- (rnd_1 prec emax Hp He) at 1. apply rnd_le; [exact Hp|]. apply IZR_le. lia.
    + congruence.
  - unfold FloatModel.of_n in E. destruct (of_z_cases prec emax Hp He (Z.of_nat n)) as [[_ [F _]]|[_ V]]; [rewrite E in F; discriminate|congruence].
Qed.
Lemma self_zero : forall l : list float, Forall (fun x => is_finite x = true) l -> l <> [] ->
  f_RSS prec emax Hp He (twice l) = f0 /\ f_msd prec emax Hp He (twice l) = f0
  /\ f_rmsd prec emax Hp He (twice l) = f0 /\ f_bias prec emax Hp He (twice l) = f0.
Proof.
  intros l A N.
  assert (N' : length (twice l) <> 0%nat) by (unfold twice; rewrite map_length; destruct l; [congruence|cbn; discriminate]).
  assert (R : f_RSS prec emax Hp He (twice l) = f0).
  { unfold f_RSS. clear N N'. induction l as [|x r IH]; [reflexivity|]. inversion A; subst. cbn [twice map fold_left fst snd].
    rewrite fsub_self by assumption. change (fadd f0 (fsq f0)) with f0. apply IH. assumption. }
  assert (M : f_msd prec emax Hp He (twice l) = f0) by (unfold f_msd; rewrite R; apply fdiv_zero, N').
  repeat split; auto.
  - unfold f_rmsd. rewrite M. reflexivity.
  - unfold f_bias. replace (fold_left _ _ _) with f0; [apply fdiv_zero, N'|]. symmetry. clear N N' R M.
    induction l as [|x r IH]; [reflexivity|]. inversion A; subst. cbn [twice map fold_left fst snd].
    rewrite fsub_self by assumption. change (fadd f0 f0) with f0. apply IH. assumption.
Qed.
End FloatProofs3.
