(* C136: a constant column is recognised as constant, although the arithmetic rounds. *)
From Coq Require Import ZArith Reals List Lia Lra Bool.
From Flocq Require Import Core IEEE754.BinarySingleNaN.
From Verif Require Import FloatModel FloatSpec FloatProofs FloatProofs2 FloatProofs3 FloatProofs4 FloatProps ConstFloatProofs.
Import ListNotations.
Open Scope R_scope.

Section More.
Variables prec emax : Z.
Context (Hp : Prec_gt_0 prec) (He : Prec_lt_emax prec emax).
Notation float := (binary_float prec emax).
Notation zv := (zero_valued prec emax).
Notation vd := (valued prec emax).
Notation mom := (f_moments prec emax Hp He).
Lemma len_cnt (n : nat) : (0 < n)%nat -> FloatProofs3.cnt prec emax 1 (of_n prec emax Hp He n).
Proof.
  intros N. unfold of_n. destruct (of_z_cases prec emax Hp He (Z.of_nat n)) as [(_ & F & V & _)|(_ & E)].
  - left. split; [exact F|]. rewrite V, <- (rnd_1 prec emax Hp He). apply round_le; [apply FLT_exp_valid; exact Hp|apply valid_rnd_N|]. apply IZR_le. lia.
  - right. rewrite E. f_equal. apply Z.ltb_ge. lia.
Qed.
Lemma nonempty_len (T : Type) (d : list T) : d <> [] -> (0 < length d)%nat.
Proof. destruct d; [congruence|cbn; lia]. Qed.
Lemma var_x (c : float) d : is_finite c = true -> d <> [] -> Forall (fun p => fst p = c) d -> vd c (fm_x _ _ (mom d)) /\ zv (fm_vx _ _ (mom d)).
Proof. intros C N F. destruct (final_x prec emax Hp He c d C N F) as (_ & A & B). split; [exact A|]. unfold f_moments. cbn [fm_vx]. apply div_zero; [exact B|]. apply len_cnt, nonempty_len, N. Qed.
Lemma var_y (c : float) d : is_finite c = true -> d <> [] -> Forall (fun p => snd p = c) d -> vd c (fm_y _ _ (mom d)) /\ zv (fm_vy _ _ (mom d)).
Proof. intros C N F. destruct (final_y prec emax Hp He c d C N F) as (_ & A & B). split; [exact A|]. unfold f_moments. cbn [fm_vy]. apply div_zero; [exact B|]. apply len_cnt, nonempty_len, N. Qed.
(* both columns constant: the covariance *)
Definition good_c (c1 c2 : float) (s : fstate prec emax) : Prop := good_x _ _ c1 s /\ good_y _ _ c2 s /\ zv (s_C _ _ s).
Lemma good_c_step c1 c2 s : is_finite c1 = true -> is_finite c2 = true -> good_c c1 c2 s -> good_c c1 c2 (fs_step prec emax Hp He s (c1, c2)).
Proof.
  intros C1 C2 (GX & GY & Zc). pose proof (fold_good_x prec emax Hp He c1 C1 [(c1, c2)] s ltac:(repeat constructor) GX) as GX'. pose proof (fold_good_y prec emax Hp He c2 C2 [(c1, c2)] s ltac:(repeat constructor) GY) as GY'.
  cbn [fold_left] in GX', GY'. split; [exact GX'|]. split; [exact GY'|]. destruct GX' as (_ & [M1 M2] & _). destruct GY as (_ & [Y1 Y2] & _). cbn [fs_step s_mx fst snd] in M1, M2. cbn [fs_step s_C fst snd].
  pose proof (sub_zero prec emax Hp He c1 _ C1 M1 (eq_sym M2)) as Z1. pose proof (sub_zero prec emax Hp He c2 _ C2 Y1 (eq_sym Y2)) as Z2. pose proof (mul_zero prec emax Hp He _ _ Z1 (proj1 Z2)) as Z3.
  destruct Zc as [Q1 Q2]. destruct (add_zero prec emax Hp He _ _ Q1 Z3) as [A1 A2]. split; [exact A1|congruence].
Qed.
Lemma good_c_first c1 c2 : is_finite c1 = true -> is_finite c2 = true -> good_c c1 c2 (fs_step prec emax Hp He (fs_init prec emax) (c1, c2)).
Proof.
  intros C1 C2. pose proof (final_x prec emax Hp He c1 [(c1, c2)] C1 ltac:(discriminate) ltac:(repeat constructor)) as GX'. pose proof (final_y prec emax Hp He c2 [(c1, c2)] C2 ltac:(discriminate) ltac:(repeat constructor)) as GY'.
  cbn [fold_left] in GX', GY'. split; [exact GX'|]. split; [exact GY'|]. destruct GX' as (_ & [M1 M2] & _). cbn [fs_step s_mx fst snd] in M1, M2. cbn [fs_step s_C fst snd].
  pose proof (sub_zero prec emax Hp He c1 _ C1 M1 (eq_sym M2)) as Z1. pose proof (sub_from_zero prec emax Hp He c2 _ C2 (f0_zero prec emax)) as [Z2 _]. pose proof (mul_zero prec emax Hp He _ _ Z1 Z2) as Z3.
  destruct (add_zero prec emax Hp He (f0 prec emax) _ eq_refl Z3) as [A1 A2]. split; [exact A1|]. exact A2.
Qed.
Lemma good_c_fold c1 c2 : is_finite c1 = true -> is_finite c2 = true -> forall d s, Forall (fun p => p = (c1, c2)) d -> good_c c1 c2 s -> good_c c1 c2 (fold_left (fs_step prec emax Hp He) d s).
Proof. intros C1 C2 d. induction d as [|p d IH]; intros s F G; [exact G|]. inversion F as [|a b H1 H2]; subst. cbn [fold_left]. apply IH; [exact H2|]. apply good_c_step; assumption. Qed.
Lemma cov_zero c1 c2 d : is_finite c1 = true -> is_finite c2 = true -> d <> [] -> Forall (fun p => p = (c1, c2)) d -> zv (fm_cov _ _ (mom d)).
Proof.
  intros C1 C2 N F. unfold f_moments. cbn [fm_cov]. apply div_zero; [|apply len_cnt, nonempty_len, N]. destruct d as [|p d]; [congruence|]. inversion F as [|a b H1 H2]; subst. cbn [fold_left].
  apply (good_c_fold c1 c2 C1 C2 d _ H2 (good_c_first c1 c2 C1 C2)).
Qed.
Lemma mul_zero_r (a b : float) : is_finite a = true -> zv b -> zv (fmul prec emax Hp He a b).
Proof.
  intros A [B Z]. destruct (fmul_cases prec emax Hp He a b A B) as [(_ & F & V)|(O & _)].
  - split; [exact F|]. rewrite V, Z, Rmult_0_r. apply rnd_0.
  - exfalso. rewrite Z, Rmult_0_r, rnd_0, Rabs_R0 in O. pose proof (big_pos emax). lra.
Qed.
Lemma two_fin : is_finite (of_z prec emax Hp He 2) = true.
Proof. destruct (of_z_cases prec emax Hp He 2) as [(_ & F & _)|(O & _)]; [exact F|]. exfalso. rewrite rnd_2 in O by assumption. rewrite Rabs_pos_eq in O by lra. pose proof (big_gt prec emax Hp He). lra. Qed.
Lemma max_zero (a : float) : zv a -> zv (py_max prec emax a (f0 prec emax)).
Proof. intros Z. unfold py_max. destruct (Bltb a _); [apply f0_zero|exact Z]. Qed.
Lemma parts_zero c1 c2 d : is_finite c1 = true -> is_finite c2 = true -> d <> [] -> Forall (fun p => p = (c1, c2)) d -> zv (f_mse_corr prec emax Hp He (mom d)) /\ zv (f_mse_var prec emax Hp He (mom d)).
Proof.
  intros C1 C2 N F. assert (Fx : Forall (fun p => fst p = c1) d) by (eapply Forall_impl; [|exact F]; intros p ->; reflexivity). assert (Fy : Forall (fun p => snd p = c2) d) by (eapply Forall_impl; [|exact F]; intros p ->; reflexivity).
  destruct (var_x c1 d C1 N Fx) as [_ VX]. destruct (var_y c2 d C2 N Fy) as [_ VY]. pose proof (cov_zero c1 c2 d C1 C2 N F) as CV. apply (sqrt_zero prec emax Hp He) in VX. apply (sqrt_zero prec emax Hp He) in VY. split.
  - unfold f_mse_corr. apply max_zero. pose proof (mul_zero_r _ _ two_fin VX) as P1. pose proof (mul_zero prec emax Hp He _ _ P1 (proj1 VY)) as P2. pose proof (mul_zero_r _ _ two_fin CV) as P3. apply sub_zero; [apply P2|apply P3|]. destruct P2 as [_ ->], P3 as [_ ->]. reflexivity.
  - unfold f_mse_var, fsq. assert (D : zv (fsub prec emax Hp He (fsqrt prec emax Hp He (fm_vx _ _ (mom d))) (fsqrt prec emax Hp He (fm_vy _ _ (mom d))))) by (apply sub_zero; [apply VX|apply VY|]; destruct VX as [_ ->], VY as [_ ->]; reflexivity). apply mul_zero; [exact D|apply D].
Qed.
Lemma same_sub (a b a' b' : float) : is_finite a = true -> is_finite b = true -> vd a a' -> vd b b' -> is_finite (fsub prec emax Hp He a b) = true -> vd (fsub prec emax Hp He a b) (fsub prec emax Hp He a' b').
Proof.
  intros A B [A1 A2] [B1 B2] F. destruct (fsub_cases prec emax Hp He a b A B) as [(L & _ & V)|(_ & E & _)]; [|rewrite E in F; discriminate F]. rewrite <- A2, <- B2 in L.
  destruct (fsub_cases prec emax Hp He a' b' A1 B1) as [(_ & F' & V')|(O & _)]; [|exfalso; lra]. split; [exact F'|]. rewrite V', V, A2, B2. reflexivity.
Qed.
Lemma same_sq (a a' : float) : is_finite a = true -> vd a a' -> is_finite (fsq prec emax Hp He a) = true -> vd (fsq prec emax Hp He a) (fsq prec emax Hp He a').
Proof.
  intros A [A1 A2] F. unfold fsq in *. destruct (fmul_cases prec emax Hp He a a A A) as [(L & _ & V)|(_ & E)]; [|rewrite E in F; discriminate F]. rewrite <- A2 in L.
  destruct (fmul_cases prec emax Hp He a' a' A1 A1) as [(_ & F' & V')|(O & _)]; [|exfalso; lra]. split; [exact F'|]. rewrite V', V, A2. reflexivity.
Qed.
End More.

(* The mean of a constant column is the constant and its variance is zero: no rounding error is left,
   however many pairs there are and whatever the other column holds (also NaN and infinities). *)
Theorem C136_moments :
  forall (prec emax : Z) (Hp : Prec_gt_0 prec) (He : Prec_lt_emax prec emax) (c : binary_float prec emax) (d : list (binary_float prec emax * binary_float prec emax)),
    is_finite c = true -> d <> [] ->
    let m := f_moments prec emax Hp He d in
    (Forall (fun p => fst p = c) d -> is_finite (fm_x _ _ m) = true /\ B2R (fm_x _ _ m) = B2R c /\ is_finite (fm_vx _ _ m) = true /\ B2R (fm_vx _ _ m) = 0)
    /\ (Forall (fun p => snd p = c) d -> is_finite (fm_y _ _ m) = true /\ B2R (fm_y _ _ m) = B2R c /\ is_finite (fm_vy _ _ m) = true /\ B2R (fm_vy _ _ m) = 0).
Proof.
  intros prec emax Hp He c d C N m. split; intros F; [destruct (var_x prec emax Hp He c d C N F) as [[A B] [D E]]|destruct (var_y prec emax Hp He c d C N F) as [[A B] [D E]]]; auto.
Qed.
Print Assumptions C136_moments.
(* So its correlation with anything is NaN, and so is the p-value: never a number made of rounding errors. *)
Theorem C136_correlation :
  forall (prec emax : Z) (Hp : Prec_gt_0 prec) (He : Prec_lt_emax prec emax) betainc (c : binary_float prec emax) (d : list (binary_float prec emax * binary_float prec emax)),
    is_finite c = true -> d <> [] -> Forall (fun p => fst p = c) d \/ Forall (fun p => snd p = c) d ->
    f_pearson_of prec emax Hp He betainc d = (B754_nan, B754_nan).
Proof.
  intros prec emax Hp He betainc c d C N F. unfold f_pearson_of, f_pearson. cbv zeta. destruct F as [F|F].
  - destruct (var_x prec emax Hp He c d C N F) as [_ V]. rewrite (zero_eqb prec emax _ V). reflexivity.
  - destruct (var_y prec emax Hp He c d C N F) as [_ V]. rewrite (zero_eqb prec emax _ V), orb_true_r. reflexivity.
Qed.
Print Assumptions C136_correlation.
(* Two constant columns: the parts of the MSE for correlation and variance are zero, and the part for the
   bias, which is then all of the MSE, is the square of the difference, rounded as a subtraction and a
   product are. *)
Theorem C136_mse :
  forall (prec emax : Z) (Hp : Prec_gt_0 prec) (He : Prec_lt_emax prec emax) (c1 c2 : binary_float prec emax) (d : list (binary_float prec emax * binary_float prec emax)),
    is_finite c1 = true -> is_finite c2 = true -> d <> [] -> Forall (fun p => p = (c1, c2)) d ->
    let diff := fsub prec emax Hp He c1 c2 in let square := fmul prec emax Hp He diff diff in
    is_finite diff = true -> is_finite square = true ->
    let '(mse, corr, bias, var) := f_mse_decomposition prec emax Hp He d in
    B2R corr = 0 /\ B2R var = 0 /\ is_finite bias = true /\ B2R bias = B2R square /\ is_finite mse = true /\ B2R mse = B2R square.
Proof.
  intros prec emax Hp He c1 c2 d C1 C2 N F diff square FD FS. unfold f_mse_decomposition. cbv zeta.
  destruct (parts_zero prec emax Hp He c1 c2 d C1 C2 N F) as [PC PV].
  assert (Fx : Forall (fun p => fst p = c1) d) by (eapply Forall_impl; [|exact F]; intros p ->; reflexivity). assert (Fy : Forall (fun p => snd p = c2) d) by (eapply Forall_impl; [|exact F]; intros p ->; reflexivity).
  destruct (var_x prec emax Hp He c1 d C1 N Fx) as [VX _]. destruct (var_y prec emax Hp He c2 d C2 N Fy) as [VY _].
  pose proof (same_sub prec emax Hp He c1 c2 _ _ C1 C2 VX VY FD) as SD. pose proof (same_sq prec emax Hp He diff _ FD SD FS) as [B1 B2].
  split; [apply PC|]. split; [apply PV|]. split; [exact B1|]. split; [exact B2|].
  destruct (add_zero prec emax Hp He _ _ (proj1 PC) PV) as [S1 S2].
  destruct (zero_add prec emax Hp He _ _ (conj S1 (eq_trans S2 (proj2 PC))) B1) as [T1 T2]. split; [exact T1|]. exact (eq_trans T2 B2).
Qed.
Print Assumptions C136_mse.

Definition tenth_against_waves : list (double * double) := tenths [(1, 3); (1, -2); (1, 7); (1, 7); (1, 0)]%Z.
Example C136_case :
  is_finite (dec 1 10) = true /\ tenth_against_waves <> [] /\ Forall (fun p => fst p = dec 1 10) tenth_against_waves
  /\ is_nan (fst (dbl f_pearson_of no_p tenth_against_waves)) = true
  /\ Beqb (fm_x _ _ (dbl f_moments tenth_against_waves)) (dec 1 10) = true
  /\ Bltb (f0 53 1024) (fm_vy _ _ (dbl f_moments tenth_against_waves)) = true.
Proof. split; [vm_compute; reflexivity|]. split; [discriminate|]. split; [repeat constructor|]. split; [vm_compute; reflexivity|]. split; vm_compute; reflexivity. Qed.

(* ubRMSD and bias do not take their means this way but from plain sums, and there rounding errors remain:
   three times 0.1 against three zeros have a positive ubRMSD and a bias above 0.1, although the
   difference never changes and the decomposition of the MSE says that all of it is bias. *)
Theorem C136_ubrmsd_refuted :
  exists c1 c2 : double, exists d : list (double * double),
    is_finite c1 = true /\ is_finite c2 = true /\ d <> [] /\ Forall (fun p => p = (c1, c2)) d
    /\ Bltb (f0 53 1024) (dbl f_ubrmsd d) = true
    /\ Beqb (dbl f_mse_var (dbl f_moments d)) (f0 53 1024) = true /\ Beqb (dbl f_mse_corr (dbl f_moments d)) (f0 53 1024) = true.
Proof.
  exists (dec 1 10), (dec 0 10), (tenths [(1, 0); (1, 0); (1, 0)]%Z). split; [vm_compute; reflexivity|]. split; [vm_compute; reflexivity|]. split; [discriminate|]. split; [repeat constructor|].
  split; [vm_compute; reflexivity|]. split; vm_compute; reflexivity.
Qed.
Print Assumptions C136_ubrmsd_refuted.
(* The constant must be finite: a column of infinities has a NaN variance and the correlation is not NaN
   but -1 (C82). *)
Theorem C136_infinite_refuted :
  exists c : double, exists d : list (double * double),
    d <> [] /\ Forall (fun p => fst p = c) d /\ is_nan (fst (dbl f_pearson_of no_p d)) = false.
Proof.
  exists (B754_infinity false), [(B754_infinity false, dec 1 10); (B754_infinity false, dec 3 10)]. split; [discriminate|]. split; [repeat constructor|]. vm_compute. reflexivity.
Qed.
Print Assumptions C136_infinite_refuted.
Example C136_mse_case :
  let d := tenths [(1, 7); (1, 7); (1, 7)]%Z in
  Forall (fun p => p = (dec 1 10, dec 7 10)) d /\ is_finite (dbl fsub (dec 1 10) (dec 7 10)) = true
  /\ is_finite (dbl fmul (dbl fsub (dec 1 10) (dec 7 10)) (dbl fsub (dec 1 10) (dec 7 10))) = true
  /\ Bltb (f0 53 1024) (fst (fst (fst (dbl f_mse_decomposition d)))) = true.
Proof. cbv zeta. split; [repeat constructor|]. split; [vm_compute; reflexivity|]. split; vm_compute; reflexivity. Qed.
