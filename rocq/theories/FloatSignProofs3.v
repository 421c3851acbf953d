(* Changing the sign of one or both series in the rolling metrics, in IEEE 754 arithmetic. *)
From Coq Require Import ZArith Reals List Lia Lra Bool.
From Flocq Require Import Core IEEE754.BinarySingleNaN.
From Verif Require Import FloatModel FloatSpec FloatProofs FloatProofs2 FloatSignProofs.
Import ListNotations.
Open Scope R_scope.

Section FloatSign3.
Variables prec emax : Z.
Context (Hp : Prec_gt_0 prec) (He : Prec_lt_emax prec emax).
Notation float := (binary_float prec emax).
Notation fadd := (fadd prec emax Hp He).
Notation fsub := (fsub prec emax Hp He).
Notation fmul := (fmul prec emax Hp He).
Notation fdiv := (fdiv prec emax Hp He).
Notation fsqrt := (fsqrt prec emax Hp He).
Notation fsq := (fsq prec emax Hp He).
Notation f0 := (f0 prec emax).
Notation f1 := (f1 prec emax Hp He).
Notation fm1 := (fm1 prec emax Hp He).
Notation py_max := (py_max prec emax).
Notation py_min := (py_min prec emax).
Notation f_pearson := (f_pearson prec emax Hp He).
Notation osem := (osem prec emax).
Notation esem := (esem prec emax).
Notation f_add := (f_add prec emax Hp He).
Notation f_remove := (f_remove prec emax Hp He).
Notation froll := (froll prec emax).
Notation fst4 := (fstate prec emax).
Notation d_at := (d_at prec emax).
Notation f_roll_step := (f_roll_step prec emax Hp He).
Notation f_roll_loop := (f_roll_loop prec emax Hp He).
Notation frow := (frow prec emax).

Lemma fsub_esem : forall a b c e : float, esem a b -> esem c e -> esem (fsub a c) (fsub b e).
Proof. intros a b c e [m [A B]] [k [C D]]. exists (fsub m k). split; apply fsub_osem; assumption. Qed.

(* a relation between single pairs, kept by adding to and removing from related sums *)
Section Roll.
Variable pr : float * float -> float * float -> Prop.
Variable sr : froll -> froll -> Prop.
Variable rr : frow -> frow -> Prop.
Hypothesis pr0 : pr (f0, f0) (f0, f0).
Hypothesis add_ok : forall s t p q, sr s t -> pr p q -> sr (f_add s p) (f_add t q).
Hypothesis rem_ok : forall s t p q, sr s t -> pr p q -> sr (f_remove s p) (f_remove t q).
Variable betainc : float -> float -> float -> float.
Hypothesis row_nan : rr ((B754_nan, B754_nan), B754_nan) ((B754_nan, B754_nan), B754_nan).
Definition row_of (s : froll) (n : Z) : frow :=
  (f_pearson betainc (s_M2x prec emax (fst s)) (s_M2y prec emax (fst s)) (s_C prec emax (fst s)) n, fsqrt (snd s)).
Hypothesis row_ok : forall s t n, sr s t -> rr (row_of s n) (row_of t n).
Variable ts : list float.
Variables d e : list (float * float).
Hypothesis D : Forall2 pr d e.
Variable window : float.
Variable center : bool.
Variable min_periods : Z.
Lemma d_at_ok : forall i, pr (d_at d i) (d_at e i).
Proof.
  assert (G : forall l m, Forall2 pr l m -> forall i, pr (nth i l (f0, f0)) (nth i m (f0, f0))).
  { intros l m F. induction F as [|p q l' m' H F IH]; intros [|i]; cbn [nth]; [exact pr0|exact pr0|exact H|apply IH]. }
  exact (G d e D).
Qed.
Lemma fold_ok : forall (f : froll -> float * float -> froll), (forall s t p q, sr s t -> pr p q -> sr (f s p) (f t q)) ->
  forall l s t, sr s t -> sr (fold_left f (map (d_at d) l) s) (fold_left f (map (d_at e) l) t).
Proof. intros f F. induction l as [|i r IH]; intros s t X; cbn [map fold_left]; [exact X|]. apply IH. apply F; [exact X|apply d_at_ok]. Qed.
Lemma loop_ok : forall is lo hi s t, sr s t ->
  Forall2 rr (f_roll_loop betainc ts d window center min_periods is (lo, hi, s)) (f_roll_loop betainc ts e window center min_periods is (lo, hi, t)).
Proof.
  induction is as [|i r IH]; intros lo hi s t X; cbn [FloatModel.f_roll_loop]; [constructor|].
  unfold FloatModel.f_roll_step. cbv zeta.
  set (L := find_lower prec emax Hp He ts window center i lo). set (U := find_hi prec emax Hp He ts window center i hi).
  assert (Y : sr (fold_left f_remove (map (d_at d) (from_to lo L)) (fold_left f_add (map (d_at d) (from_to hi U)) s))
                 (fold_left f_remove (map (d_at e) (from_to lo L)) (fold_left f_add (map (d_at e) (from_to hi U)) t))).
  { apply (fold_ok f_remove rem_ok). apply (fold_ok f_add add_ok). exact X. }
  constructor; [|apply IH, Y].
  match goal with |- rr (if ?b then _ else _) _ => destruct b end; [exact row_nan|].
  apply (row_ok _ _ (Z.of_nat U - Z.of_nat L) Y).
Qed.
End Roll.

(* ---- one series ---- *)
Definition pr1 (p q : float * float) : Prop := fst q = fst p /\ osem (snd p) (snd q).
Definition sr1 (s t : froll) : Prop := flipped prec emax (fst s) (fst t).
Lemma pr1_step : forall s t p q, flipped prec emax s t -> pr1 p q ->
  flipped prec emax (fs_step prec emax Hp He s p) (fs_step prec emax Hp He t q).
Proof.
  intros s t [x y] [x' y'] (N & MX & M2X & MY & M2Y & CC) [EX OY]. cbn [fst snd] in EX, OY. subst x'. unfold flipped, fs_step.
  cbn [s_n s_mx s_my s_M2x s_M2y s_C fst snd]. rewrite N, MX, M2X.
  assert (DD : osem (fsub y (s_my prec emax s)) (fsub y' (s_my prec emax t))) by (apply fsub_osem; assumption).
  assert (M' : osem (fadd (s_my prec emax s) (fdiv (fsub y (s_my prec emax s)) (fadd (s_n prec emax s) f1)))
                    (fadd (s_my prec emax t) (fdiv (fsub y' (s_my prec emax t)) (fadd (s_n prec emax s) f1))))
    by (apply fadd_osem; [exact MY|apply fdiv_osem, DD]).
  repeat split; try reflexivity.
  - exact M'.
  - apply fadd_esem; [exact M2Y|]. apply fmul_osem2; [|exact DD]. apply fsub_osem; [exact OY|exact M'].
  - apply fadd_osem; [exact CC|]. apply fmul_osem_r, DD.
Qed.
Lemma add1 : forall s t p q, sr1 s t -> pr1 p q -> sr1 (f_add s p) (f_add t q).
Proof. intros s t p q X Y. unfold sr1, FloatModel.f_add. cbv zeta. cbn [fst]. apply pr1_step; assumption. Qed.
Lemma rem1 : forall s t p q, sr1 s t -> pr1 p q -> sr1 (f_remove s p) (f_remove t q).
Proof.
  intros [s ms] [t mt] [x y] [x' y'] (N & MX & M2X & MY & M2Y & CC) [EX OY]. cbn [fst snd] in *. subst x'. unfold sr1, flipped, FloatModel.f_remove.
  cbv zeta. cbn [s_n s_mx s_my s_M2x s_M2y s_C fst snd]. rewrite N, MX, M2X.
  assert (DD : osem (fsub y (s_my prec emax s)) (fsub y' (s_my prec emax t))) by (apply fsub_osem; assumption).
  assert (M' : osem (fsub (s_my prec emax s) (fdiv (fsub y (s_my prec emax s)) (fsub (s_n prec emax s) f1)))
                    (fsub (s_my prec emax t) (fdiv (fsub y' (s_my prec emax t)) (fsub (s_n prec emax s) f1))))
    by (apply fsub_osem; [exact MY|apply fdiv_osem, DD]).
  repeat split; try reflexivity.
  - exact M'.
  - apply fsub_esem; [exact M2Y|]. apply fmul_osem2; [exact DD|]. apply fsub_osem; [exact OY|exact M'].
  - apply fsub_osem; [exact CC|]. apply fmul_osem_r. apply fsub_osem; [exact OY|exact M'].
Qed.
(* the correlation changes its sign and the p-value stays; or both correlations are -1 with p-value 0 *)
Definition turned (r r' : float * float) : Prop :=
  (opposite prec emax (fst r) (fst r') /\ snd r' = snd r) \/ (r = (fm1, f0) /\ r' = (fm1, f0)).
Lemma fm1_abs : Beqb (Babs fm1) f1 = true.
Proof.
  destruct (f1_val prec emax Hp He) as [F1 V1]. destruct (fm1_val prec emax Hp He) as [Fm Vm].
  rewrite Beqb_correct; [|rewrite is_finite_Babs; exact Fm|exact F1]. rewrite B2R_Babs, V1, Vm.
  apply Req_bool_true. rewrite Rabs_left by lra. lra.
Qed.
Lemma pearson_turned : forall betainc (vx vy vy' c c' : float) (n : Z), esem vy vy' -> osem c c' ->
  turned (f_pearson betainc vx vy c n) (f_pearson betainc vx vy' c' n).
Proof.
  intros betainc vx vy vy' c c' n V C. destruct (is_nan (fdiv c (fsqrt (fmul vx vy)))) eqn:N.
  - destruct (esem_cases prec emax vy vy' V) as [<-|[s [t [-> ->]]]].
    + unfold FloatModel.f_pearson. destruct (Beqb vx f0 || Beqb vy f0)%bool; [left; split; [left; reflexivity|reflexivity]|]. right. cbv zeta.
      pose proof (fdiv_osem prec emax Hp He c c' (fsqrt (fmul vx vy)) C) as Q.
      destruct (fdiv c (fsqrt (fmul vx vy))); cbn in N; try discriminate.
      destruct (fdiv c' (fsqrt (fmul vx vy))); cbn in Q; try tauto; try (destruct Q; discriminate).
      assert (K : py_max fm1 (py_min B754_nan f1) = fm1) by (unfold FloatModel.py_max, FloatModel.py_min; rewrite !(Bltb_nan_r prec emax); reflexivity).
      rewrite K, fm1_abs. split; reflexivity.
    + assert (Z : forall u, Beqb (B754_zero u : float) f0 = true) by (intros []; reflexivity).
      left. unfold FloatModel.f_pearson. rewrite !Z, !orb_true_r. split; [left; reflexivity|reflexivity].
  - left. destruct (pearson_flip prec emax Hp He betainc vx vy vy' c c' n V C N) as [A B]. split; [apply osem_opposite, A|exact B].
Qed.
Lemma roll_turned : forall betainc ts d window center min_periods,
  Forall2 (fun a b => turned (fst a) (fst b)) (f_rolling prec emax Hp He betainc ts d window center min_periods)
    (f_rolling prec emax Hp He betainc ts (map (fun p => (fst p, Bopp (snd p))) d) window center min_periods).
Proof.
  intros betainc ts d window center min_periods. unfold f_rolling.
  assert (NT : turned (B754_nan, B754_nan) (B754_nan, B754_nan)) by (left; split; [left; reflexivity|reflexivity]).
  apply (loop_ok pr1 sr1).
  - split; [reflexivity|apply zero_osem].
  - exact add1.
  - exact rem1.
  - exact NT.
  - intros [s ms] [t mt] n (N & MX & M2X & MY & M2Y & CC). cbn [fst snd] in *. unfold row_of. cbn [fst snd]. rewrite M2X. apply pearson_turned; assumption.
  - induction d as [|p r IH]; cbn [map]; constructor; [|exact IH]. split; [reflexivity|apply osem_opp].
  - pose proof (zero_osem prec emax) as Z. repeat split; try reflexivity; try exact Z; try apply esem_refl; cbn; lra.
Qed.

(* ---- both series ---- *)
Definition pr2 (p q : float * float) : Prop := osem (fst p) (fst q) /\ osem (snd p) (snd q).
Definition sr2 (s t : froll) : Prop :=
  s_n prec emax (fst t) = s_n prec emax (fst s) /\ osem (s_mx prec emax (fst s)) (s_mx prec emax (fst t)) /\ osem (s_my prec emax (fst s)) (s_my prec emax (fst t))
  /\ esem (s_M2x prec emax (fst s)) (s_M2x prec emax (fst t)) /\ esem (s_M2y prec emax (fst s)) (s_M2y prec emax (fst t))
  /\ esem (s_C prec emax (fst s)) (s_C prec emax (fst t)) /\ snd t = snd s.
Lemma add2 : forall s t p q, sr2 s t -> pr2 p q -> sr2 (f_add s p) (f_add t q).
Proof.
  intros [s ms] [t mt] [x y] [x' y'] (N & MX & MY & M2X & M2Y & CC & ME) [OX OY]. cbn [fst snd] in *. subst mt.
  unfold sr2, FloatModel.f_add, fs_step. cbv zeta. cbn [s_n s_mx s_my s_M2x s_M2y s_C fst snd]. rewrite N.
  assert (DX : osem (fsub x (s_mx prec emax s)) (fsub x' (s_mx prec emax t))) by (apply fsub_osem; assumption).
  assert (DY : osem (fsub y (s_my prec emax s)) (fsub y' (s_my prec emax t))) by (apply fsub_osem; assumption).
  assert (MX' : osem (fadd (s_mx prec emax s) (fdiv (fsub x (s_mx prec emax s)) (fadd (s_n prec emax s) f1)))
                    (fadd (s_mx prec emax t) (fdiv (fsub x' (s_mx prec emax t)) (fadd (s_n prec emax s) f1))))
    by (apply fadd_osem; [exact MX|apply fdiv_osem, DX]).
  assert (MY' : osem (fadd (s_my prec emax s) (fdiv (fsub y (s_my prec emax s)) (fadd (s_n prec emax s) f1)))
                    (fadd (s_my prec emax t) (fdiv (fsub y' (s_my prec emax t)) (fadd (s_n prec emax s) f1))))
    by (apply fadd_osem; [exact MY|apply fdiv_osem, DY]).
  split; [reflexivity|]. split; [exact MX'|]. split; [exact MY'|]. split; [|split; [|split]].
  - apply fadd_esem; [exact M2X|]. apply fmul_osem2; [|exact DX]. apply fsub_osem; [exact OX|exact MX'].
  - apply fadd_esem; [exact M2Y|]. apply fmul_osem2; [|exact DY]. apply fsub_osem; [exact OY|exact MY'].
  - apply fadd_esem; [exact CC|]. apply fmul_osem2; [|exact DY]. apply fsub_osem; [exact OX|exact MX'].
  - rewrite (fsq_osem prec emax Hp He _ _ (fsub_osem prec emax Hp He x x' y y' OX OY)). reflexivity.
Qed.
Lemma rem2 : forall s t p q, sr2 s t -> pr2 p q -> sr2 (f_remove s p) (f_remove t q).
Proof.
  intros [s ms] [t mt] [x y] [x' y'] (N & MX & MY & M2X & M2Y & CC & ME) [OX OY]. cbn [fst snd] in *. subst mt.
  unfold sr2, FloatModel.f_remove. cbv zeta. cbn [s_n s_mx s_my s_M2x s_M2y s_C fst snd]. rewrite N.
  assert (DX : osem (fsub x (s_mx prec emax s)) (fsub x' (s_mx prec emax t))) by (apply fsub_osem; assumption).
  assert (DY : osem (fsub y (s_my prec emax s)) (fsub y' (s_my prec emax t))) by (apply fsub_osem; assumption).
  assert (MX' : osem (fsub (s_mx prec emax s) (fdiv (fsub x (s_mx prec emax s)) (fsub (s_n prec emax s) f1)))
                    (fsub (s_mx prec emax t) (fdiv (fsub x' (s_mx prec emax t)) (fsub (s_n prec emax s) f1))))
    by (apply fsub_osem; [exact MX|apply fdiv_osem, DX]).
  assert (MY' : osem (fsub (s_my prec emax s) (fdiv (fsub y (s_my prec emax s)) (fsub (s_n prec emax s) f1)))
                    (fsub (s_my prec emax t) (fdiv (fsub y' (s_my prec emax t)) (fsub (s_n prec emax s) f1))))
    by (apply fsub_osem; [exact MY|apply fdiv_osem, DY]).
  split; [reflexivity|]. split; [exact MX'|]. split; [exact MY'|]. split; [|split; [|split]].
  - apply fsub_esem; [exact M2X|]. apply fmul_osem2; [exact DX|]. apply fsub_osem; [exact OX|exact MX'].
  - apply fsub_esem; [exact M2Y|]. apply fmul_osem2; [exact DY|]. apply fsub_osem; [exact OY|exact MY'].
  - apply fsub_esem; [exact CC|]. apply fmul_osem2; [exact DX|]. apply fsub_osem; [exact OY|exact MY'].
  - rewrite (fsq_osem prec emax Hp He _ _ (fsub_osem prec emax Hp He x x' y y' OX OY)). reflexivity.
Qed.
(* equal; the sign of a zero does not count *)
Definition same (a b : float) : Prop := a = b \/ (is_finite a = true /\ is_finite b = true /\ B2R a = 0 /\ B2R b = 0).
Definition kept (a b : frow) : Prop := same (fst (fst a)) (fst (fst b)) /\ snd (fst b) = snd (fst a) /\ snd b = snd a.
Lemma clip_zero : forall s, py_max fm1 (py_min (B754_zero s) f1) = B754_zero s.
Proof.
  intros s. destruct (f1_val prec emax Hp He) as [F1 V1]. destruct (fm1_val prec emax Hp He) as [Fm Vm].
  unfold FloatModel.py_max, FloatModel.py_min.
  rewrite (Bltb_correct prec emax f1 (B754_zero s) F1 eq_refl), V1. cbn [B2R]. rewrite Rlt_bool_false by lra.
  rewrite (Bltb_correct prec emax fm1 (B754_zero s) Fm eq_refl), Vm. cbn [B2R]. rewrite Rlt_bool_true by lra. reflexivity.
Qed.
Lemma pearson_kept : forall betainc (vx vx' vy vy' c c' : float) (n : Z), esem vx vx' -> esem vy vy' -> esem c c' ->
  same (fst (f_pearson betainc vx vy c n)) (fst (f_pearson betainc vx' vy' c' n))
  /\ snd (f_pearson betainc vx' vy' c' n) = snd (f_pearson betainc vx vy c n).
Proof.
  intros betainc vx vx' vy vy' c c' n VX VY C.
  assert (Z : forall u, Beqb (B754_zero u : float) f0 = true) by (intros []; reflexivity).
  destruct (esem_cases prec emax vx vx' VX) as [<-|[s [t [-> ->]]]]; [|unfold FloatModel.f_pearson; rewrite !Z; split; [left; reflexivity|reflexivity]].
  destruct (esem_cases prec emax vy vy' VY) as [<-|[s [t [-> ->]]]]; [|unfold FloatModel.f_pearson; rewrite !Z, !orb_true_r; split; [left; reflexivity|reflexivity]].
  destruct (esem_cases prec emax c c' C) as [<-|[s [t [-> ->]]]]; [split; [left; reflexivity|reflexivity]|].
  assert (O : osem (B754_zero s) (B754_zero t)) by (cbn; repeat split; auto; lra).
  destruct (is_nan (fdiv (B754_zero s) (fsqrt (fmul vx vy)))) eqn:N.
  - destruct (pearson_turned betainc vx vy vy _ _ n VY O) as [[A B]|[A B]]; [|rewrite A, B; split; [left; reflexivity|reflexivity]].
    assert (Q : forall u, fdiv (B754_zero u) (fsqrt (fmul vx vy)) = B754_nan).
    { intros u. destruct (fsqrt (fmul vx vy)); cbn in N |- *; try reflexivity; discriminate. }
    unfold FloatModel.f_pearson. rewrite (Q s), (Q t). split; [left; reflexivity|reflexivity].
  - destruct (pearson_flip prec emax Hp He betainc vx vy vy _ _ n VY O N) as [A B]. split; [|exact B].
    assert (Q : forall u, exists v, fdiv (B754_zero u) (fsqrt (fmul vx vy)) = B754_zero v).
    { intros u. destruct (fsqrt (fmul vx vy)); cbn in N |- *; try discriminate; eauto. }
    destruct (Q s) as [a Ea]. destruct (Q t) as [b Eb].
    unfold FloatModel.f_pearson. destruct (Beqb vx f0 || Beqb vy f0)%bool; [left; reflexivity|]. cbv zeta. rewrite Ea, Eb, !clip_zero.
    right. destruct (Beqb (Babs (B754_zero a)) f1); destruct (Beqb (Babs (B754_zero b)) f1); cbn [fst]; repeat split; reflexivity.
Qed.
Lemma roll_kept : forall betainc ts d window center min_periods,
  Forall2 kept (f_rolling prec emax Hp He betainc ts d window center min_periods)
    (f_rolling prec emax Hp He betainc ts (map (fun p => (Bopp (fst p), Bopp (snd p))) d) window center min_periods).
Proof.
  intros betainc ts d window center min_periods. unfold f_rolling.
  assert (NT : kept ((B754_nan, B754_nan), B754_nan) ((B754_nan, B754_nan), B754_nan)) by (split; [left; reflexivity|split; reflexivity]).
  apply (loop_ok pr2 sr2).
  - split; apply zero_osem.
  - exact add2.
  - exact rem2.
  - exact NT.
  - intros [s ms] [t mt] n (N & MX & MY & M2X & M2Y & CC & ME). cbn [fst snd] in *. unfold row_of, kept. cbn [fst snd]. subst mt.
    destruct (pearson_kept betainc _ _ _ _ _ _ n M2X M2Y CC) as [A B]. split; [exact A|split; [exact B|reflexivity]].
  - induction d as [|p r IH]; cbn [map]; constructor; [|exact IH]. split; apply osem_opp.
  - pose proof (zero_osem prec emax) as Z. repeat split; try reflexivity; try exact Z; try apply esem_refl; cbn; lra.
Qed.
End FloatSign3.
