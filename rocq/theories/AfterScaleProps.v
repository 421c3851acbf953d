(* C130: metrics of the data after scaling to the reference. *)
From Coq Require Import Reals Lra Qreals QArith Qabs List Lia.
From Verif Require Import Base CdfModel CdfSpec ScalingModel CdfFitProofs ScalingProofs MetricsModel MetricsSpec RStatsProofs MetricsProofs MetricsProofs2 MetricsProps MeanStdModel AfterScaleProofs.
Import ListNotations.
Open Scope R_scope.
Open Scope list_scope.

Section Scaled.
Variable betainc : R -> R -> R -> R.

Lemma pearson_affine a b ref other : 0 < a -> pearson_of betainc (beside ref (map (fun v => a * v + b) other)) = pearson_of betainc (beside ref other).
Proof.
  intros A. rewrite beside_scale. destruct (C47_rescale betainc (beside ref other) a b) as [_ E]; [lra|]. cbn zeta in E. rewrite E.
  destruct (pearson_of betainc (beside ref other)) as [[r p]|]; [|reflexivity]. destruct (Rlt_dec 0 a); [reflexivity|contradiction].
Qed.

(* mean_std: correlation and its p-value stay; no bias and no difference of the variances is left: all of the mean square
   difference is due to the correlation, it is 2 var(ref) (1 - R), and rmsd and ubrmsd agree *)
Theorem C130_mean_std ref other out : List.length other = List.length ref -> ref <> [] -> ~ constant ref -> ~ constant other ->
  mean_std other ref = map Some out ->
  let d := beside ref out in let r := correlation (beside ref other) in
  pearson_of betainc d = pearson_of betainc (beside ref other) /\
  bias d = Some 0 /\ mse_bias d = Some 0 /\ mse_var d = Some 0 /\
  mse_corr d = Some (2 * var ref * (1 - r)) /\ msd d = Some (2 * var ref * (1 - r)) /\
  rmsd d 0 = ubrmsd d 0.
Proof.
  intros L N CR CO E. cbn zeta. assert (NO : other <> []) by (destruct other, ref; try discriminate; congruence).
  assert (SO : 0 < std other) by (apply std_pos; assumption). assert (SR : 0 < std ref) by (apply std_pos; assumption).
  set (a := std ref / std other). set (b := rmean ref - a * rmean other). assert (A : 0 < a) by (apply Rdiv_lt_0_compat; assumption).
  assert (EO : out = map (fun v => a * v + b) other).
  { unfold mean_std in E. destruct (Req_EM_T (std other) 0) as [Z|_]; [lra|].
    assert (X : map Some (map (fun v => a * v + b) other) = map Some out).
    { rewrite <- E, map_map. apply map_ext. intros v. f_equal. unfold b, a. field. lra. }
    assert (INJ : forall l m : list R, map Some l = map Some m -> l = m).
    { induction l as [|x l IH]; intros [|y m] Q; try discriminate; [reflexivity|]. cbn in Q. injection Q as Q1 Q2. subst. f_equal. apply IH, Q2. }
    symmetry. apply INJ, X. }
  split; [rewrite EO; apply pearson_affine, A|].
  assert (ND : beside ref other <> []) by (destruct other, ref; try discriminate; congruence).
  assert (NS : scale_y a b (beside ref other) <> []) by (apply map_ne, ND).
  assert (LX : xs (beside ref other) = ref) by (apply beside_xs, L). assert (LY : ys (beside ref other) = other) by (apply beside_ys, L).
  rewrite EO, beside_scale. set (d := scale_y a b (beside ref other)) in *.
  assert (X : xs d = ref) by (unfold d; rewrite xs_scale_y; exact LX).
  assert (Y : ys d = map (fun v => a * v + b) other) by (unfold d; rewrite ys_scale_y, LY; reflexivity).
  assert (MY : rmean (ys d) = rmean ref) by (rewrite Y, rmean_affine by exact NO; unfold b; ring).
  assert (SY : std (ys d) = std ref) by (rewrite Y, std_affine by exact NO; rewrite Rabs_pos_eq by lra; unfold a; field; lra).
  assert (C : cov d = var ref * correlation (beside ref other)).
  { unfold d. rewrite cov_scale_y by exact ND. unfold correlation. rewrite LX, LY, <- std_sqr. unfold a. field. lra. }
  destruct (C46_parts d NS) as (P1 & P2 & P3). rewrite X, MY in P2. rewrite X, SY in P1, P3. rewrite C, std_sqr in P1.
  rewrite bias_correct, rmsd_correct, ubrmsd_correct, msd_correct by exact NS. rewrite X, MY.
  assert (M : mean_square_diff d = 2 * var ref * (1 - correlation (beside ref other))).
  { rewrite msdiff_moments by exact NS. rewrite X, MY, C. rewrite <- (std_sqr (ys d)), SY, std_sqr. ring. }
  split; [f_equal; ring|]. split; [rewrite P2; f_equal; ring|]. split; [rewrite P3; f_equal; ring|].
  split; [rewrite P1; f_equal; ring|]. split; [rewrite M; reflexivity|].
  f_equal. f_equal. rewrite M. unfold ub2. rewrite X, C. rewrite <- (std_sqr (ys d)), SY, std_sqr. ring.
Qed.

(* min_max: correlation and p-value stay *)
Theorem C130_min_max (ref other : list Q) : List.length other = List.length ref -> non_constant ref -> non_constant other ->
  exists out, min_max other ref = Ok (map Some out) /\ List.length out = List.length other /\
    pearson_of betainc (besideq ref out) = pearson_of betainc (besideq ref other).
Proof.
  intros L CR CO. assert (NR : ref <> []) by (destruct CR as (u & _ & U & _); intros ->; destruct U).
  assert (NO : other <> []) by (destruct CO as (u & _ & U & _); intros ->; destruct U).
  destruct (q_minimum_spec other NO) as (smin & E1 & M1). destruct (q_maximum_spec other NO) as (smax & E2 & M2).
  destruct (q_minimum_spec ref NR) as (rmin & E3 & M3). destruct (q_maximum_spec ref NR) as (rmax & E4 & M4).
  pose proof (non_constant_range other smin smax M1 M2 CO) as SP. pose proof (non_constant_range ref rmin rmax M3 M4 CR) as RP.
  set (f := fun v : Q => ((v - smin) / (smax - smin) * (rmax - rmin) + rmin)%Q). exists (map f other).
  assert (SN : ~ (smax - smin == 0)%Q) by (intros Z; apply (Qlt_irrefl smin); setoid_replace smax with smin in SP by (setoid_replace smax with (smax - smin + smin)%Q by ring; rewrite Z; ring); exact SP).
  split; [|split; [apply map_length|]].
  - rewrite (minmax_unfold _ _ _ _ _ _ E1 E2 E3 E4). f_equal. rewrite map_map. apply map_ext. intros v. unfold affine, qdiv_cell.
    destruct (Qeq_bool (smax - smin) 0) eqn:Z; [apply Qeq_bool_eq in Z; contradiction|]. reflexivity.
  - unfold besideq. rewrite map_map. apply Qlt_Rlt in SP, RP.
    rewrite <- (pearson_affine ((Q2R rmax - Q2R rmin) / (Q2R smax - Q2R smin)) (Q2R rmin - Q2R smin * ((Q2R rmax - Q2R rmin) / (Q2R smax - Q2R smin))) (map Q2R ref) (map Q2R other))
      by (apply Rdiv_lt_0_compat; lra).
    f_equal. f_equal. rewrite map_map. apply map_ext. intros v. unfold f. rewrite Q2R_plus, Q2R_mult, Q2R_div by exact SN. rewrite !Q2R_minus. field. lra.
Qed.

Lemma linreg_real other ref s i : linreg_params other ref = Ok (s, i) ->
  exists out, linreg other ref = Ok (map Some out) /\ List.length out = List.length other /\ map Q2R out = map (fun v => Q2R (Qabs s) * v + Q2R i) (map Q2R other).
Proof.
  intros H. exists (linreg_stored_params other s i). unfold linreg. rewrite H. split; [reflexivity|]. split; [apply map_length|].
  unfold linreg_stored_params. rewrite !map_map. apply map_ext. intros v. rewrite Q2R_plus, Q2R_mult. reflexivity.
Qed.

(* linreg: correlation and p-value stay unless the slope is zero (even if it is negative, as its absolute value is used) *)
Theorem C130_linreg (ref other : list Q) s i : linreg_params other ref = Ok (s, i) -> ~ (s == 0)%Q ->
  exists out, linreg other ref = Ok (map Some out) /\ List.length out = List.length other /\
    pearson_of betainc (besideq ref out) = pearson_of betainc (besideq ref other).
Proof.
  intros H NZ. destruct (linreg_real other ref s i H) as (out & E & L & R). exists out. split; [exact E|]. split; [exact L|].
  unfold besideq. rewrite R. apply pearson_affine. replace 0 with (Q2R 0) by (unfold Q2R; cbn; lra). apply Qlt_Rlt.
  destruct (Qlt_le_dec 0 (Qabs s)) as [P|P]; [exact P|]. exfalso. apply NZ. pose proof (Qabs_nonneg s) as Q.
  assert (Z : (Qabs s == 0)%Q) by (apply Qle_antisym; assumption).
  destruct (Qlt_le_dec s 0) as [T|T]; [|rewrite (Qabs_pos s T) in Z; exact Z].
  rewrite (Qabs_neg s (Qlt_le_weak _ _ T)) in Z. setoid_replace s with (- - s)%Q by ring. rewrite Z. reflexivity.
Qed.
End Scaled.

(* linreg with a slope that is not negative: no bias is left, no other linear rescaling of the data comes closer to the
   reference, and what is left of the variance of the reference is the part not explained by the correlation *)
Theorem C130_linreg_best (ref other : list Q) s i : linreg_params other ref = Ok (s, i) -> (0 <= s)%Q ->
  exists out e, linreg other ref = Ok (map Some out) /\ List.length out = List.length other /\
    bias (besideq ref out) = Some 0 /\ msd (besideq ref out) = Some e /\
    (forall a b, exists e', msd (beside (map Q2R ref) (map (fun v => a * v + b) (map Q2R other))) = Some e' /\ e <= e') /\
    (~ constant (map Q2R ref) -> e = var (map Q2R ref) * (1 - correlation (besideq ref other) ^ 2)).
Proof.
  intros H P. destruct (linreg_real other ref s i H) as (out & E & L & R). destruct (line other ref s i H) as (NO & LO & V & C & I).
  assert (LQ : List.length (map Q2R other) = List.length (map Q2R ref)) by (rewrite !map_length; exact LO).
  set (d := besideq ref other) in *. assert (LX : xs d = map Q2R ref) by (apply beside_xs, LQ). assert (LY : ys d = map Q2R other) by (apply beside_ys, LQ).
  assert (ND : d <> []) by (unfold d, besideq, beside; destruct other, ref; try discriminate; congruence).
  assert (F : besideq ref out = scale_y (Q2R s) (Q2R i) d).
  { unfold besideq at 1. rewrite R, beside_scale. rewrite (Qeq_eqR _ _ (Qabs_pos s P)). reflexivity. }
  assert (M : mean_square_diff (scale_y (Q2R s) (Q2R i) d) = var (map Q2R ref) - Q2R s * Q2R s * var (map Q2R other)).
  { rewrite msd_scale_y by exact ND. rewrite LX, LY, <- C, I. ring. }
  exists out, (mean_square_diff (scale_y (Q2R s) (Q2R i) d)). split; [exact E|]. split; [exact L|]. rewrite F.
  assert (NS : forall a b, scale_y a b d <> []) by (intros; apply map_ne, ND).
  split; [|split; [|split]].
  - rewrite bias_correct by apply NS. rewrite xs_scale_y, ys_scale_y, LX, LY, rmean_affine by (apply map_ne, NO). rewrite I. f_equal. ring.
  - apply msd_correct, NS.
  - intros a b. exists (mean_square_diff (scale_y a b d)). rewrite beside_scale. fold (besideq ref other). fold d. split; [apply msd_correct, NS|].
    rewrite M, msd_scale_y by exact ND. rewrite LX, LY, <- C.
    assert (Q : 0 <= (a - Q2R s) * (a - Q2R s) * var (map Q2R other)) by (apply Rmult_le_pos; [apply RStatsProofs.sq_nonneg|lra]).
    pose proof (pow2_ge_0 (rmean (map Q2R ref) - (a * rmean (map Q2R other) + b))). nra.
  - intros CR. rewrite M. unfold correlation. rewrite LX, LY, <- C. rewrite <- (std_sqr (map Q2R ref)), <- !(std_sqr (map Q2R other)).
    assert (SO : std (map Q2R other) <> 0). { intros Z. rewrite <- std_sqr, Z in V. lra. }
    assert (SR : 0 < std (map Q2R ref)) by (apply std_pos; [apply map_ne; destruct other, ref; try discriminate; congruence|exact CR]).
    field. lra.
Qed.

(* with a negative slope scaling may enlarge the differences and introduce a bias *)
Theorem C130_linreg_negative_refuted : exists (ref other out : list Q) (e e' b : R),
  linreg other ref = Ok (map Some out) /\ msd (besideq ref other) = Some e /\ msd (besideq ref out) = Some e' /\ e < e' /\
  bias (besideq ref other) = Some 0 /\ bias (besideq ref out) = Some b /\ b <> 0.
Proof.
  set (ref := [3; 2; 1]%Q). set (other := [1; 2; 3]%Q). destruct (linreg_params other ref) as [[s i]|e] eqn:H; [|vm_compute in H; discriminate H].
  assert (S : (s == - (1))%Q) by (assert (X : Ok (s, i) = linreg_params other ref) by congruence; vm_compute in X; assert (Y : s = fst (s, i)) by reflexivity; inversion X; reflexivity).
  assert (I : (i == 4)%Q) by (assert (X : Ok (s, i) = linreg_params other ref) by congruence; vm_compute in X; inversion X; reflexivity).
  destruct (linreg_real other ref s i H) as (out & E & L & R). exists ref, other, out.
  assert (AS : Q2R (Qabs s) = 1). { rewrite (Qeq_eqR _ _ (Qabs_neg s ltac:(rewrite S; discriminate))), Q2R_opp, (Qeq_eqR _ _ S). unfold Q2R; cbn; lra. }
  rewrite AS, (Qeq_eqR _ _ I) in R. cbn [map other] in R.
  assert (N1 : besideq ref other <> []) by discriminate.
  assert (B : besideq ref out = [(3, 5); (2, 6); (1, 7)]).
  { unfold besideq, beside. rewrite R. cbn [ref map combine]. unfold Q2R; cbn. repeat f_equal; lra. }
  assert (B1 : besideq ref other = [(3, 1); (2, 2); (1, 3)]).
  { unfold besideq, beside. cbn [ref other map combine]. unfold Q2R; cbn. repeat f_equal; lra. }
  exists (8 / 3), (56 / 3), (-4). split; [exact E|]. rewrite B, B1. rewrite !msd_correct, !bias_correct by discriminate.
  unfold mean_square_diff, xs, ys, rmean, rlen. cbn. repeat split; try (f_equal; lra); lra.
Qed.

(* with slope zero the correlation, 0 before, is undefined afterwards: the scaled data are constant *)
Theorem C130_linreg_zero_refuted betainc : exists (ref other out : list Q) (p : R),
  linreg other ref = Ok (map Some out) /\ pearson_of betainc (besideq ref other) = Some (0, p) /\ pearson_of betainc (besideq ref out) = None.
Proof.
  set (ref := [0; 1; 0]%Q). set (other := [1; 2; 3]%Q). destruct (linreg_params other ref) as [[s i]|e] eqn:H; [|vm_compute in H; discriminate H].
  assert (S : (s == 0)%Q) by (assert (X : Ok (s, i) = linreg_params other ref) by congruence; vm_compute in X; inversion X; reflexivity).
  destruct (linreg_real other ref s i H) as (out & E & L & R). exists ref, other, out.
  assert (AS : Q2R (Qabs s) = 0). { rewrite (Qeq_eqR _ _ (Qabs_wd _ _ S)). unfold Q2R; cbn; lra. }
  rewrite AS in R. assert (LQ : List.length (map Q2R out) = List.length (map Q2R ref)) by (rewrite !map_length, L; reflexivity).
  assert (B1 : besideq ref other = [(0, 1); (1, 2); (0, 3)]).
  { unfold besideq, beside. cbn [ref other map combine]. unfold Q2R; cbn. repeat f_equal; lra. }
  destruct (C47_value betainc (besideq ref other)) as (p & P & _).
  - discriminate.
  - rewrite B1. cbn. intros K. specialize (K 0 1 ltac:(cbn; tauto) ltac:(cbn; tauto)). lra.
  - rewrite B1. cbn. intros K. specialize (K 1 2 ltac:(cbn; tauto) ltac:(cbn; tauto)). lra.
  - exists p. split; [exact E|]. split.
    + rewrite P. f_equal. f_equal. rewrite B1. unfold correlation, cov, xs, ys, rmean, rlen. cbn [map fst snd rsum List.length INR].
      match goal with |- ?n / _ = 0 => replace n with 0 by field end. unfold Rdiv. ring.
    + apply C47_undefined. right. right. unfold besideq. rewrite beside_ys by exact LQ. rewrite R. cbn [map other]. rewrite !Rmult_0_l.
      intros u v HU HV. cbn in HU, HV. destruct HU as [HU|[HU|[HU|[]]]]; destruct HV as [HV|[HV|[HV|[]]]]; congruence.
Qed.
Print Assumptions C130_mean_std.
Print Assumptions C130_min_max.
Print Assumptions C130_linreg.
Print Assumptions C130_linreg_best.
Print Assumptions C130_linreg_negative_refuted.
Print Assumptions C130_linreg_zero_refuted.

(* instances *)
Example C130_mean_std_example betainc : exists out, mean_std [2; 4; 9] [1; 3; 2] = map Some out /\
  pearson_of betainc (beside [1; 3; 2] out) = pearson_of betainc (beside [1; 3; 2] [2; 4; 9]) /\ bias (beside [1; 3; 2] out) = Some 0.
Proof.
  assert (C1 : ~ constant [1; 3; 2]) by (intros K; specialize (K 1 3 ltac:(cbn; tauto) ltac:(cbn; tauto)); lra).
  assert (C2 : ~ constant [2; 4; 9]) by (intros K; specialize (K 2 4 ltac:(cbn; tauto) ltac:(cbn; tauto)); lra).
  assert (E : exists out, mean_std [2; 4; 9] [1; 3; 2] = map Some out).
  { unfold mean_std. destruct (Req_EM_T _ _) as [Z|_]; [apply std_zero in Z; [contradiction|discriminate]|].
    exists (map (fun v => (v - rmean [2; 4; 9]) / std [2; 4; 9] * std [1; 3; 2] + rmean [1; 3; 2]) [2; 4; 9]). rewrite map_map. reflexivity. }
  destruct E as (out & E). exists out. split; [exact E|].
  destruct (C130_mean_std betainc [1; 3; 2] [2; 4; 9] out eq_refl ltac:(discriminate) C1 C2 E) as (A & B & _). split; assumption.
Qed.
Example C130_min_max_example betainc : exists out, min_max [2; 4; 9]%Q [1; 3; 2]%Q = Ok (map Some out) /\ pearson_of betainc (besideq [1; 3; 2]%Q out) = pearson_of betainc (besideq [1; 3; 2]%Q [2; 4; 9]%Q).
Proof.
  destruct (C130_min_max betainc [1; 3; 2]%Q [2; 4; 9]%Q) as (out & E & _ & P); [reflexivity| | |exists out; split; assumption].
  - exists 1%Q, 3%Q. repeat split; try (cbn; tauto). discriminate.
  - exists 2%Q, 4%Q. repeat split; try (cbn; tauto). discriminate.
Qed.
Example C130_linreg_example : exists s i, linreg_params [2; 4; 9]%Q [1; 3; 2]%Q = Ok (s, i) /\ (0 < s)%Q.
Proof. destruct (linreg_params [2; 4; 9]%Q [1; 3; 2]%Q) as [[s i]|] eqn:H; vm_compute in H; [|discriminate H]. exists s, i. split; [reflexivity|]. inversion H. reflexivity. Qed.
