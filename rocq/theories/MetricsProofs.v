(* Lemmas about the pairwise metrics. *)
From Coq Require Import Reals List Lra Lia Psatz Permutation.
From Verif Require Import RStats RStatsProofs MetricsModel MetricsSpec.

Lemma fold_sum {A} (f : A -> R) l a : fold_left (fun s p => s + f p) l a = a + rsum (map f l).
Proof. revert a. induction l as [|x l IH]; intros a; cbn; [ring|]. rewrite IH. ring. Qed.

Lemma fdiv_some a b : b <> 0 -> fdiv a b = Some (a / b).
Proof. intros H. unfold fdiv. destruct (Req_EM_T b 0); [contradiction|reflexivity]. Qed.
Lemma fdiv_none a b : fdiv a b = None <-> b = 0.
Proof. unfold fdiv. destruct (Req_EM_T b 0); split; intros; congruence. Qed.
Lemma np_sqrt_some x : 0 <= x -> np_sqrt x = Some (sqrt x).
Proof. intros H. unfold np_sqrt. destruct (Rlt_dec x 0); [lra|reflexivity]. Qed.
Lemma np_mean_some l : l <> [] -> np_mean l = Some (rmean l).
Proof. intros H. apply fdiv_some, rlen_ne, H. Qed.

Lemma rlen_xs d : rlen (xs d) = rlen d. Proof. apply rlen_map. Qed.
Lemma rlen_ys d : rlen (ys d) = rlen d. Proof. apply rlen_map. Qed.
Lemma xs_ne d : d <> [] -> xs d <> []. Proof. apply map_ne. Qed.
Lemma ys_ne d : d <> [] -> ys d <> []. Proof. apply map_ne. Qed.

(* ---- sums of products ---- *)
Definition sxy (d : pairs) := rsum (map (fun p => fst p * snd p) d).
Definition sxx (d : pairs) := rsum (map (fun p => fst p * fst p) d).
Definition syy (d : pairs) := rsum (map (fun p => snd p * snd p) d).

Lemma cov_sums d : d <> [] -> rlen d * cov d = sxy d - rlen d * rmean (xs d) * rmean (ys d).
Proof.
  intros H. pose proof (rlen_ne d H) as N. unfold cov. set (a := rmean (xs d)). set (b := rmean (ys d)).
  assert (EA : rsum (map fst d) = a * rlen d) by (unfold a; rewrite <- (rlen_xs d); apply rmean_sum, xs_ne, H).
  assert (EB : rsum (map snd d) = b * rlen d) by (unfold b; rewrite <- (rlen_ys d); apply rmean_sum, ys_ne, H).
  unfold rmean. rewrite rlen_map.
  rewrite (rsum_ext _ (fun p => (fst p * snd p - b * fst p) - (a * snd p - a * b))) by (intros; ring).
  rewrite rsum_minus, (rsum_minus (fun p => fst p * snd p)), (rsum_minus (fun p => a * snd p)), rsum_const, !rsum_scal, EA, EB.
  unfold sxy. field. exact N.
Qed.

Lemma xs_diag (d : pairs) : xs (map (fun p => (fst p, fst p)) d) = xs d.
Proof. unfold xs. rewrite map_map. reflexivity. Qed.
Lemma cov_diag_x d : cov (map (fun p => (fst p, fst p)) d) = var (xs d).
Proof. unfold cov, var. rewrite xs_diag. unfold ys, xs. rewrite !map_map. reflexivity. Qed.
Lemma cov_diag_y d : cov (map (fun p => (snd p, snd p)) d) = var (ys d).
Proof. unfold cov, var. unfold ys, xs. rewrite !map_map. reflexivity. Qed.

Lemma varx_sums d : d <> [] -> rlen d * var (xs d) = sxx d - rlen d * rmean (xs d) * rmean (xs d).
Proof.
  intros H. rewrite <- cov_diag_x. pose proof (cov_sums (map (fun p => (fst p, fst p)) d) (map_ne _ _ H)) as E.
  unfold sxy, ys, xs in E. rewrite rlen_map, !map_map in E. exact E.
Qed.
Lemma vary_sums d : d <> [] -> rlen d * var (ys d) = syy d - rlen d * rmean (ys d) * rmean (ys d).
Proof.
  intros H. rewrite <- cov_diag_y. pose proof (cov_sums (map (fun p => (snd p, snd p)) d) (map_ne _ _ H)) as E.
  unfold sxy, ys, xs in E. rewrite rlen_map, !map_map in E. exact E.
Qed.

(* ---- the one-pass moments ---- *)
Definition w_inv (s : wstate) (n : R) (Sx Sy Sxx Syy Sxy : R) : Prop :=
  w_n s = n /\ n * w_mx s = Sx /\ n * w_my s = Sy /\
  w_M2x s = Sxx - n * w_mx s * w_mx s /\ w_M2y s = Syy - n * w_my s * w_my s /\
  w_C s = Sxy - n * w_mx s * w_my s.

Lemma w_step_inv s n Sx Sy Sxx Syy Sxy p : 0 <= n -> w_inv s n Sx Sy Sxx Syy Sxy ->
  w_inv (w_step s p) (n + 1) (Sx + fst p) (Sy + snd p) (Sxx + fst p * fst p) (Syy + snd p * snd p) (Sxy + fst p * snd p).
Proof.
  intros N (E1 & E2 & E3 & E4 & E5 & E6). destruct s as [sn mx my a b c]; cbn in *. subst sn.
  unfold w_inv, w_step; cbn. assert (n + 1 <> 0) by lra.
  split; [reflexivity|]. split; [rewrite <- E2; field; lra|]. split; [rewrite <- E3; field; lra|].
  split; [rewrite E4; field; lra|]. split; [rewrite E5; field; lra|]. rewrite E6; field; lra.
Qed.

Lemma welford_inv d : w_inv (fold_left w_step d w_init) (rlen d) (rsum (xs d)) (rsum (ys d)) (sxx d) (syy d) (sxy d).
Proof.
  assert (G : forall s n Sx Sy Sxx Syy Sxy, 0 <= n -> w_inv s n Sx Sy Sxx Syy Sxy ->
    w_inv (fold_left w_step d s) (n + rlen d) (Sx + rsum (xs d)) (Sy + rsum (ys d)) (Sxx + sxx d) (Syy + syy d) (Sxy + sxy d)).
  - induction d as [|p d IH]; intros s n Sx Sy Sxx Syy Sxy N I.
    + unfold rlen, sxx, syy, sxy; cbn. rewrite !Rplus_0_r. exact I.
    + cbn [fold_left]. rewrite rlen_cons. apply w_step_inv with (p := p) in I; [|exact N].
      apply IH in I; [|lra]. unfold sxx, syy, sxy, xs, ys in *; cbn [map rsum].
      replace (n + (rlen d + 1)) with (n + 1 + rlen d) by ring. rewrite <- !Rplus_assoc. exact I.
  - pose proof (G w_init 0 0 0 0 0 0 (Rle_refl 0)) as X. rewrite !Rplus_0_l in X. apply X.
    unfold w_inv, w_init; cbn. repeat split; ring.
Qed.

Lemma welford_correct d : d <> [] ->
  moments_welford d = Some (Moments (rmean (xs d)) (rmean (ys d)) (var (xs d)) (var (ys d)) (cov d)).
Proof.
  intros H. pose proof (rlen_ne d H) as N. destruct (welford_inv d) as (E1 & E2 & E3 & E4 & E5 & E6).
  set (s := fold_left w_step d w_init) in *. unfold moments_welford. fold s.
  assert (MX : w_mx s = rmean (xs d)). { unfold rmean. rewrite rlen_xs, <- E2. field. exact N. }
  assert (MY : w_my s = rmean (ys d)). { unfold rmean. rewrite rlen_ys, <- E3. field. exact N. }
  rewrite !fdiv_some by exact N. cbn [obind]. rewrite MX, MY in *. rewrite E4, E5, E6.
  rewrite <- cov_sums, <- varx_sums, <- vary_sums by exact H.
  do 2 f_equal; field; exact N.
Qed.

Lemma welford_empty : moments_welford [] = None.
Proof. unfold moments_welford, fdiv, rlen; cbn. destruct (Req_EM_T 0 0); [reflexivity|congruence]. Qed.

(* ---- covariance algebra ---- *)
Lemma cov_cs d : cov d * cov d <= var (xs d) * var (ys d).
Proof.
  destruct d as [|p d]; [unfold cov, var, rmean, rlen; cbn; unfold Rdiv; rewrite !Rmult_0_l; lra|].
  set (e := p :: d). assert (H : e <> []) by discriminate. pose proof (rlen_pos e H) as N.
  unfold cov. set (a := rmean (xs e)). set (b := rmean (ys e)).
  pose proof (cauchy_schwarz (fun q => fst q - a) (fun q => snd q - b) e) as CS. unfold Rsqr in CS.
  unfold var. fold a b. unfold rmean. rewrite !rlen_map, rlen_xs, rlen_ys.
  replace (map (fun x => (x - a) * (x - a)) (xs e)) with (map (fun q => (fst q - a) * (fst q - a)) e) by (unfold xs; rewrite map_map; reflexivity).
  replace (map (fun x => (x - b) * (x - b)) (ys e)) with (map (fun q => (snd q - b) * (snd q - b)) e) by (unfold ys; rewrite map_map; reflexivity).
  set (u := rsum _) in *. set (v := rsum (map (fun q => (fst q - a) * (fst q - a)) e)) in *.
  set (w := rsum (map (fun q => (snd q - b) * (snd q - b)) e)) in *. set (n := rlen e) in *.
  replace (u / n * (u / n)) with (u * u * (/ n * / n)) by (field; lra).
  replace (v / n * (w / n)) with (v * w * (/ n * / n)) by (field; lra).
  apply Rmult_le_compat_r; [|exact CS]. pose proof (Rinv_0_lt_compat n N). nra.
Qed.

Lemma cov_abs d : Rabs (cov d) <= std (xs d) * std (ys d).
Proof.
  pose proof (cov_cs d) as CS. rewrite <- (std_sqr (xs d)), <- (std_sqr (ys d)) in CS.
  pose proof (std_nonneg (xs d)). pose proof (std_nonneg (ys d)).
  apply Rsqr_incr_0_var; [|nra]. rewrite <- Rsqr_abs. unfold Rsqr. lra.
Qed.

Lemma xs_swap d : xs (swap d) = ys d. Proof. unfold xs, ys, swap. rewrite map_map. reflexivity. Qed.
Lemma ys_swap d : ys (swap d) = xs d. Proof. unfold xs, ys, swap. rewrite map_map. reflexivity. Qed.
Lemma swap_ne d : d <> [] -> swap d <> []. Proof. apply map_ne. Qed.
Lemma rlen_swap d : rlen (swap d) = rlen d. Proof. apply rlen_map. Qed.
Lemma cov_swap d : cov (swap d) = cov d.
Proof.
  unfold cov. rewrite xs_swap, ys_swap. unfold swap. rewrite map_map. apply rmean_ext. intros q _. cbn. ring.
Qed.

Lemma xs_scale_x a b d : xs (scale_x a b d) = map (fun v => a * v + b) (xs d).
Proof. unfold xs, scale_x. rewrite !map_map. reflexivity. Qed.
Lemma ys_scale_x a b d : ys (scale_x a b d) = ys d.
Proof. unfold ys, scale_x. rewrite !map_map. reflexivity. Qed.
Lemma scale_x_ne a b d : d <> [] -> scale_x a b d <> []. Proof. apply map_ne. Qed.
Lemma cov_scale_x a b d : d <> [] -> cov (scale_x a b d) = a * cov d.
Proof.
  intros H. unfold cov. rewrite xs_scale_x, ys_scale_x, rmean_affine by (apply xs_ne, H).
  unfold scale_x. rewrite map_map. unfold rmean at 1. rewrite rlen_map.
  rewrite (rsum_ext _ (fun p => a * ((fst p - rmean (xs d)) * (snd p - rmean (ys d))))) by (intros; cbn; ring).
  rewrite rsum_scal. unfold rmean at 3. rewrite rlen_map. unfold Rdiv. ring.
Qed.
Lemma scale_y_swap a b d : scale_y a b d = swap (scale_x a b (swap d)).
Proof. unfold scale_y, swap, scale_x. rewrite !map_map. reflexivity. Qed.
Lemma swap_swap d : swap (swap d) = d.
Proof. unfold swap. rewrite map_map. rewrite <- (map_id d) at 2. apply map_ext. intros [u v]; reflexivity. Qed.

(* ---- bias, RSS, msd ---- *)
Lemma bias_correct d : d <> [] -> bias d = Some (rmean (xs d) - rmean (ys d)).
Proof.
  intros H. unfold bias. rewrite (fold_sum (fun p => fst p - snd p)), fdiv_some by (apply rlen_ne, H).
  f_equal. rewrite rsum_minus. unfold rmean. rewrite rlen_xs, rlen_ys. unfold xs, ys. field. apply rlen_ne, H.
Qed.

Lemma RSS_sum d : RSS d = rsum (map (fun p => (fst p - snd p) * (fst p - snd p)) d).
Proof. unfold RSS. rewrite (fold_sum (fun p => (fst p - snd p) ^ 2)), Rplus_0_l. apply rsum_ext. intros; ring. Qed.
Lemma RSS_nonneg d : 0 <= RSS d.
Proof. rewrite RSS_sum. apply rsum_nonneg. intros; apply sq_nonneg. Qed.
Lemma RSS_zero d : RSS d = 0 <-> same d.
Proof.
  rewrite RSS_sum. split.
  - intros E p Hp. pose proof (rsum_zero (fun p => (fst p - snd p) * (fst p - snd p)) d (fun q _ => sq_nonneg _) E p Hp) as Z. cbn in Z. nra.
  - intros S0. rewrite (rsum_ext _ (fun _ => 0)); [rewrite rsum_const; ring|]. intros p Hp. rewrite (S0 p Hp). ring.
Qed.

Lemma msd_correct d : d <> [] -> msd d = Some (mean_square_diff d).
Proof.
  intros H. unfold msd. rewrite fdiv_some by (apply rlen_ne, H). f_equal. rewrite RSS_sum.
  unfold mean_square_diff, rmean. rewrite rlen_map. reflexivity.
Qed.
Lemma msdiff_nonneg d : 0 <= mean_square_diff d.
Proof.
  unfold mean_square_diff, rmean. rewrite rlen_map. destruct d as [|p d]; [cbn; unfold Rdiv; rewrite Rmult_0_l; lra|].
  apply Rmult_le_pos; [apply rsum_nonneg; intros; apply sq_nonneg|]. left. apply Rinv_0_lt_compat, rlen_pos. discriminate.
Qed.
Lemma msdiff_RSS d : d <> [] -> mean_square_diff d * rlen d = RSS d.
Proof. intros H. rewrite RSS_sum. unfold mean_square_diff, rmean. rewrite rlen_map. field. apply rlen_ne, H. Qed.
Lemma msdiff_zero d : d <> [] -> (mean_square_diff d = 0 <-> same d).
Proof.
  intros H. rewrite <- RSS_zero, <- msdiff_RSS by exact H. pose proof (rlen_pos d H). split; intros E; [rewrite E; ring|].
  apply Rmult_integral in E. lra.
Qed.

(* mean square difference in terms of the moments *)
Lemma msdiff_moments d : d <> [] ->
  mean_square_diff d = var (xs d) + var (ys d) - 2 * cov d + (rmean (xs d) - rmean (ys d)) * (rmean (xs d) - rmean (ys d)).
Proof.
  intros H. pose proof (rlen_ne d H) as N. apply (Rmult_eq_reg_l (rlen d)); [|exact N].
  rewrite Rmult_comm, msdiff_RSS, RSS_sum by exact H.
  rewrite (rsum_ext _ (fun p => (fst p * fst p + snd p * snd p) - 2 * (fst p * snd p))) by (intros; ring).
  rewrite rsum_minus, rsum_plus, rsum_scal. fold (sxx d) (syy d) (sxy d).
  pose proof (cov_sums d H). pose proof (varx_sums d H). pose proof (vary_sums d H).
  set (mx := rmean (xs d)) in *. set (my := rmean (ys d)) in *. set (n := rlen d) in *. nra.
Qed.

(* ---- decomposition ---- *)
Definition the_moments (d : pairs) : moments := Moments (rmean (xs d)) (rmean (ys d)) (var (xs d)) (var (ys d)) (cov d).

Lemma mse_corr_inactive d : mse_corr_from_moments (the_moments d) = 2 * (std (xs d) * std (ys d) - cov d).
Proof.
  unfold mse_corr_from_moments, the_moments; cbn. fold (std (xs d)) (std (ys d)). pose proof (cov_abs d) as C.
  pose proof (Rle_abs (cov d)). rewrite Rmax_left; [ring|]. nra.
Qed.

Lemma mse_sum d : d <> [] ->
  mse_corr_from_moments (the_moments d) + mse_var_from_moments (the_moments d) + mse_bias_from_moments (the_moments d) = mean_square_diff d.
Proof.
  intros H. rewrite mse_corr_inactive, msdiff_moments by exact H.
  unfold mse_var_from_moments, mse_bias_from_moments, the_moments; cbn [m_x m_y m_vx m_vy m_cov].
  fold (std (xs d)) (std (ys d)). pose proof (std_sqr (xs d)). pose proof (std_sqr (ys d)). nra.
Qed.

Lemma mse_decomposition_eq d : d <> [] -> exists c b v, mse_decomposition d = Some (mean_square_diff d, c, b, v) /\
  mse_corr d = Some c /\ mse_bias d = Some b /\ mse_var d = Some v /\
  0 <= c /\ 0 <= b /\ 0 <= v /\ c + b + v = mean_square_diff d /\
  c = 2 * (std (xs d) * std (ys d) - cov d) /\ b = (rmean (xs d) - rmean (ys d)) ^ 2 /\ v = (std (xs d) - std (ys d)) ^ 2.
Proof.
  intros H. pose proof (mse_sum d H) as S1. unfold mse_decomposition, mse_corr, mse_var, mse_bias.
  rewrite welford_correct, bias_correct by exact H. fold (the_moments d). cbn [omap]. rewrite S1.
  exists (mse_corr_from_moments (the_moments d)), (mse_bias_from_moments (the_moments d)), (mse_var_from_moments (the_moments d)).
  split; [reflexivity|]. split; [reflexivity|]. split; [reflexivity|]. split; [reflexivity|].
  split; [apply Rmax_r|]. split; [apply pow2_ge_0|]. split; [apply pow2_ge_0|].
  split; [lra|]. split; [apply mse_corr_inactive|]. split; reflexivity.
Qed.

(* ---- ubrmsd ---- *)
Lemma centred d : d <> [] -> rsum (map (fun p => ((fst p - rmean (xs d)) - (snd p - rmean (ys d))) * ((fst p - rmean (xs d)) - (snd p - rmean (ys d)))) d)
  = rlen d * (var (xs d) + var (ys d) - 2 * cov d).
Proof.
  intros H. set (a := rmean (xs d)). set (b := rmean (ys d)).
  rewrite (rsum_ext _ (fun p => ((fst p - a) * (fst p - a) + (snd p - b) * (snd p - b)) - 2 * ((fst p - a) * (snd p - b)))) by (intros; ring).
  rewrite rsum_minus, rsum_plus, rsum_scal. pose proof (rlen_ne d H) as N.
  unfold var, cov. fold a b. unfold rmean. rewrite !rlen_map, rlen_xs, rlen_ys. unfold xs, ys. rewrite !map_map. field. exact N.
Qed.

Definition ub2 (d : pairs) : R := var (xs d) + var (ys d) - 2 * cov d.
Lemma ub2_nonneg d : d <> [] -> 0 <= ub2 d.
Proof.
  intros H. unfold ub2. pose proof (centred d H) as E. pose proof (rlen_pos d H) as N.
  assert (0 <= rlen d * (var (xs d) + var (ys d) - 2 * cov d)) by (rewrite <- E; apply rsum_nonneg; intros; apply sq_nonneg).
  nra.
Qed.
Lemma c_ubrmsd_correct d : d <> [] -> c_ubrmsd d = Some (sqrt (ub2 d)).
Proof.
  intros H. pose proof (rlen_ne d H) as N. unfold c_ubrmsd. rewrite (fold_sum fst), (fold_sum snd), !fdiv_some by exact N. cbn [obind].
  rewrite !Rplus_0_l. replace (rsum (map fst d) / rlen d) with (rmean (xs d)) by (unfold rmean; rewrite rlen_xs; reflexivity).
  replace (rsum (map snd d) / rlen d) with (rmean (ys d)) by (unfold rmean; rewrite rlen_ys; reflexivity).
  rewrite (fold_sum (fun p => ((fst p - rmean (xs d)) - (snd p - rmean (ys d))) ^ 2)), fdiv_some by exact N. cbn [omap].
  do 2 f_equal. rewrite Rplus_0_l.
  rewrite (rsum_ext _ (fun p => ((fst p - rmean (xs d)) - (snd p - rmean (ys d))) * ((fst p - rmean (xs d)) - (snd p - rmean (ys d))))) by (intros; ring).
  rewrite centred by exact H. unfold ub2. field. exact N.
Qed.

Lemma rmsd_correct d : d <> [] -> rmsd d 0 = Some (sqrt (mean_square_diff d)).
Proof.
  intros H. unfold rmsd. destruct (Req_EM_T 0 0); [|congruence]. rewrite msd_correct by exact H. cbn [obind].
  apply np_sqrt_some, msdiff_nonneg.
Qed.
Lemma ubrmsd_correct d : d <> [] -> ubrmsd d 0 = Some (sqrt (ub2 d)).
Proof. intros H. unfold ubrmsd. destruct (Req_EM_T 0 0); [|congruence]. apply c_ubrmsd_correct, H. Qed.

Lemma ddof_scale d dd : d <> [] -> dd <> 0 -> dd < rlen d ->
  rmsd d dd = Some (sqrt (mean_square_diff d * (rlen d / (rlen d - dd)))) /\
  ubrmsd d dd = Some (sqrt (ub2 d * (rlen d / (rlen d - dd)))).
Proof.
  intros H Z L. assert (N : rlen d - dd <> 0) by lra. pose proof (rlen_pos d H) as P. split.
  - unfold rmsd. destruct (Req_EM_T dd 0); [contradiction|]. rewrite fdiv_some by exact N. cbn [obind].
    rewrite np_sqrt_some; [do 2 f_equal; rewrite <- (msdiff_RSS d H); field; exact N|].
    apply Rmult_le_pos; [apply RSS_nonneg|]. left. apply Rinv_0_lt_compat. lra.
  - unfold ubrmsd. destruct (Req_EM_T dd 0); [contradiction|]. rewrite (np_mean_some (xs d)), (np_mean_some (ys d)) by (apply map_ne, H).
    cbn [obind]. rewrite fdiv_some by exact N. cbn [obind]. rewrite RSS_sum, map_map; cbn [fst snd].
    rewrite centred by exact H. pose proof (ub2_nonneg d H). fold (ub2 d).
    rewrite np_sqrt_some; [do 2 f_equal; field; exact N|].
    apply Rmult_le_pos; [nra|]. left. apply Rinv_0_lt_compat. lra.
Qed.

(* ---- aad ---- *)
Lemma aad_correct d : d <> [] -> aad d = Some (rmean (map (fun p => Rabs (fst p - snd p)) d)).
Proof. intros H. apply np_mean_some, map_ne, H. Qed.

Lemma aad_le d : d <> [] -> rmean (map (fun p => Rabs (fst p - snd p)) d) <= sqrt (mean_square_diff d).
Proof.
  intros H. pose proof (rlen_pos d H) as N.
  pose proof (cauchy_schwarz (fun p => Rabs (fst p - snd p)) (fun _ => 1) d) as CS. unfold Rsqr in CS.
  rewrite rsum_const in CS. rewrite (rsum_ext _ (fun p => Rabs (fst p - snd p))) in CS by (intros; ring).
  rewrite (rsum_ext (fun x => Rabs (fst x - snd x) * Rabs (fst x - snd x)) (fun p => (fst p - snd p) * (fst p - snd p))) in CS
    by (intros; rewrite <- Rabs_mult; apply Rabs_pos_eq, sq_nonneg).
  set (a := rsum (map (fun p => Rabs (fst p - snd p)) d)) in *.
  assert (A : 0 <= a) by (apply rsum_nonneg; intros; apply Rabs_pos).
  rewrite <- RSS_sum, <- msdiff_RSS in CS by exact H. set (m := mean_square_diff d) in *.
  assert (M : 0 <= m) by apply msdiff_nonneg.
  unfold rmean. rewrite rlen_map. fold a.
  apply Rsqr_incr_0_var; [|apply sqrt_pos]. rewrite Rsqr_sqrt by exact M. unfold Rsqr.
  replace (a / rlen d * (a / rlen d)) with (a * a * (/ rlen d * / rlen d)) by (field; lra).
  replace m with (m * rlen d * (1 * 1 * rlen d) * (/ rlen d * / rlen d)) by (field; lra).
  apply Rmult_le_compat_r; [pose proof (Rinv_0_lt_compat _ N); nra|]. lra.
Qed.
