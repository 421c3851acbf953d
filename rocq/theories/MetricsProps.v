(* C45-C49, C57, C62: the pairwise metrics. *)
From Coq Require Import Reals List Lra Lia Psatz.
From Verif Require Import RStats RStatsProofs MetricsModel MetricsSpec MetricsProofs MetricsProofs2 MetricsNdProofs.

(* a concrete case used throughout: three pairs, no constant series *)
Definition ex3 : pairs := [(1, 2); (2, 5); (6, 2)].
Example ex3_ne : ex3 <> []. Proof. discriminate. Qed.
Example ex3_x : ~ constant (xs ex3).
Proof. intros C. specialize (C 1 2). cbn in C. assert (1 = 2) by (apply C; auto). lra. Qed.
Example ex3_y : ~ constant (ys ex3).
Proof. intros C. specialize (C 2 5). cbn in C. assert (2 = 5) by (apply C; auto). lra. Qed.

(* ---- C45 ---- *)
(* The one-pass moments of every non-empty pair of series are mean, population variance and population
   covariance. *)
Theorem C45_one_pass_moments d : d <> [] ->
  moments_welford d = Some (Moments (rmean (xs d)) (rmean (ys d)) (var (xs d)) (var (ys d)) (cov d)).
Proof. exact (welford_correct d). Qed.
Example C45_example : moments_welford ex3 = Some (Moments 3 3 (14/3) 2 (-1)).
Proof.
  rewrite C45_one_pass_moments by discriminate. unfold var, cov, rmean, rlen; cbn. do 2 f_equal; field.
Qed.
(* there is no result for empty series *)
Theorem C45_empty : moments_welford [] = None.
Proof. exact welford_empty. Qed.
(* the order of the observations does not matter *)
Theorem C45_order_independent d e : Permutation.Permutation d e -> moments_welford d = moments_welford e.
Proof.
  intros P. destruct d as [|p d].
  - apply Permutation.Permutation_nil in P. subst e. reflexivity.
  - assert (H : p :: d <> []) by discriminate. assert (H' : e <> []) by (intros ->; symmetry in P; apply Permutation.Permutation_nil in P; discriminate).
    rewrite !welford_correct by assumption. set (f := p :: d) in *.
    assert (ML : forall g : R * R -> R, rmean (map g f) = rmean (map g e)).
    { intros g. unfold rmean, rlen. rewrite !map_length. rewrite (Permutation.Permutation_length P).
      rewrite (rsum_perm (map g f) (map g e)); [reflexivity|]. apply Permutation.Permutation_map, P. }
    assert (MX : rmean (xs f) = rmean (xs e)) by apply ML. assert (MY : rmean (ys f) = rmean (ys e)) by apply ML.
    unfold cov, var. rewrite MX, MY, ML. set (mx := rmean (xs e)). set (my := rmean (ys e)). unfold xs, ys. rewrite !map_map, !ML. reflexivity.
Qed.
Print Assumptions C45_one_pass_moments.
Print Assumptions C45_order_independent.

(* ---- C46 ---- *)
(* The decomposition is the list (total, correlation part, bias part, variance part): the parts are those
   the single functions return, they are non-negative, and they add up to the mean square difference. *)
Theorem C46_decomposition d : d <> [] -> exists c b v,
  mse_decomposition d = Some (mean_square_diff d, c, b, v) /\
  mse_corr d = Some c /\ mse_bias d = Some b /\ mse_var d = Some v /\
  0 <= c /\ 0 <= b /\ 0 <= v /\ c + b + v = mean_square_diff d.
Proof.
  intros H. destruct (mse_decomposition_eq d H) as (c & b & v & E). exists c, b, v. tauto.
Qed.
(* what each part measures; in particular the guard max(.., 0) is never active *)
Theorem C46_parts d : d <> [] ->
  mse_corr d = Some (2 * (std (xs d) * std (ys d) - cov d)) /\
  mse_bias d = Some ((rmean (xs d) - rmean (ys d)) ^ 2) /\
  mse_var d = Some ((std (xs d) - std (ys d)) ^ 2).
Proof.
  intros H. destruct (mse_decomposition_eq d H) as (c & b & v & E).
  destruct E as (_ & Ec & Eb & Ev & _ & _ & _ & _ & -> & -> & ->). tauto.
Qed.
Theorem C46_msd d : d <> [] -> msd d = Some (mean_square_diff d).
Proof. exact (msd_correct d). Qed.
Example C46_example : msd ex3 = Some (26 / 3).
Proof. rewrite C46_msd by discriminate. f_equal. unfold mean_square_diff, rmean, rlen; cbn. field. Qed.
(* the deprecated function mse(x, y) returns the same four numbers when neither series is constant *)
Theorem C46_deprecated_mse d : d <> [] -> ~ constant (xs d) -> ~ constant (ys d) -> old_mse d 0 = mse_decomposition d.
Proof. exact (old_mse_correct d). Qed.
Example C46_deprecated_example : old_mse ex3 0 = mse_decomposition ex3.
Proof. exact (C46_deprecated_mse ex3 ex3_ne ex3_x ex3_y). Qed.
Print Assumptions C46_decomposition.
Print Assumptions C46_deprecated_mse.

(* ---- C47 ---- *)
Section Pearson.
Variable betainc : R -> R -> R -> R.

(* bounded; equal to the textbook value, so the clamp to [-1,1] is never active *)
Theorem C47_value d : d <> [] -> ~ constant (xs d) -> ~ constant (ys d) ->
  exists p, pearson_of betainc d = Some (correlation d, p) /\ -1 <= correlation d <= 1.
Proof.
  intros H CX CY. eexists. split; [apply pearson_some; assumption|]. apply correlation_bound; assumption.
Qed.
(* undefined exactly for empty or constant series *)
Theorem C47_undefined d : pearson_of betainc d = None <-> d = [] \/ constant (xs d) \/ constant (ys d).
Proof. exact (pearson_none betainc d). Qed.
Theorem C47_symmetric d : pearson_of betainc (swap d) = pearson_of betainc d.
Proof. exact (pearson_swap betainc d). Qed.
(* rescaling either series by a > 0 changes nothing, by a < 0 only the sign of r; p is unchanged *)
Theorem C47_rescale d a b : a <> 0 ->
  let expected := match pearson_of betainc d with
                  | Some (r, p) => Some (if Rlt_dec 0 a then r else - r, p)
                  | None => None
                  end in
  pearson_of betainc (scale_x a b d) = expected /\ pearson_of betainc (scale_y a b d) = expected.
Proof.
  intros A. cbn zeta. rewrite pearson_scale_x, pearson_scale_y by exact A.
  destruct (pearson_of betainc d) as [[r p]|]; split; reflexivity.
Qed.
(* the p-value: 0 for |r| = 1, otherwise there are at least three observations and p is the regularised
   incomplete beta function at ((n-2)/2, 1/2, 1 - r^2), with 1 - r^2 in (0, 1] *)
Theorem C47_p_value d r p : pearson_of betainc d = Some (r, p) ->
  (Rabs r = 1 /\ p = 0) \/
  (Rabs r < 1 /\ 3 <= rlen d /\ p = betainc (1 / 2 * (rlen d - 2)) (1 / 2) (1 - r * r) /\ 0 < 1 - r * r <= 1).
Proof.
  intros E. assert (~ (d = [] \/ constant (xs d) \/ constant (ys d))) as N by (rewrite <- pearson_none with (betainc := betainc); rewrite E; discriminate).
  assert (H : d <> []) by tauto. assert (CX : ~ constant (xs d)) by tauto. assert (CY : ~ constant (ys d)) by tauto.
  rewrite pearson_some in E by assumption. assert (ER : r = correlation d) by congruence. assert (EP : p = p_value betainc (correlation d) (rlen d)) by congruence.
  rewrite <- ER in EP. clear E. pose proof (correlation_bound d H CX CY) as B. rewrite <- ER in B. unfold p_value in EP.
  destruct (Req_EM_T (Rabs r) 1) as [A|A]; [left; split; assumption|right].
  assert (L : 2 < rlen d) by (apply three_points; try assumption; rewrite <- ER; exact A).
  assert (RB : -1 < r < 1). { unfold Rabs in A. destruct (Rcase_abs r); lra. }
  split; [unfold Rabs; destruct (Rcase_abs r); lra|]. split.
  - unfold rlen in *. assert (2 < List.length d)%nat by (apply INR_lt; cbn; lra). replace 3 with (INR 3) by (cbn; lra). apply le_INR. lia.
  - split; [rewrite EP; f_equal; apply p_arg_eq; assumption|]. nra.
Qed.
End Pearson.
Example C47_example betainc : exists p, pearson_of betainc ex3 = Some (correlation ex3, p) /\ -1 <= correlation ex3 <= 1.
Proof. exact (C47_value betainc ex3 ex3_ne ex3_x ex3_y). Qed.
Example C47_rescale_example betainc : pearson_of betainc (scale_x (-2) 7 ex3) =
  match pearson_of betainc ex3 with Some (r, p) => Some (- r, p) | None => None end.
Proof.
  destruct (C47_rescale betainc ex3 (-2) 7) as [E _]; [lra|]. rewrite E. destruct (pearson_of betainc ex3) as [[r p]|]; [|reflexivity].
  destruct (Rlt_dec 0 (-2)); [lra|reflexivity].
Qed.
Print Assumptions C47_value.
Print Assumptions C47_rescale.
Print Assumptions C47_p_value.

(* ---- C48 ---- *)
(* rmsd^2 = ubrmsd^2 + bias^2 *)
Theorem C48_pythagoras d : d <> [] -> exists e u b,
  rmsd d 0 = Some e /\ ubrmsd d 0 = Some u /\ bias d = Some b /\ e * e = u * u + b * b.
Proof.
  intros H. eexists _, _, _. split; [apply rmsd_correct, H|]. split; [apply ubrmsd_correct, H|]. split; [apply bias_correct, H|].
  rewrite !sqrt_sqrt; [|apply ub2_nonneg, H|apply msdiff_nonneg]. rewrite msdiff_moments by exact H. unfold ub2. ring.
Qed.
(* bias is the difference of the means and changes sign when the series are exchanged *)
Theorem C48_bias d : d <> [] -> bias d = Some (rmean (xs d) - rmean (ys d)) /\
  bias (swap d) = Some (- (rmean (xs d) - rmean (ys d))).
Proof.
  intros H. split; [apply bias_correct, H|]. rewrite bias_correct by (apply swap_ne, H). rewrite xs_swap, ys_swap. f_equal. ring.
Qed.
Lemma msdiff_swap d : mean_square_diff (swap d) = mean_square_diff d.
Proof. unfold mean_square_diff, swap. rewrite map_map. apply rmean_ext. intros p _. cbn. ring. Qed.
(* rmsd is symmetric, non-negative, and 0 exactly for equal series *)
Theorem C48_rmsd d : d <> [] -> exists e, rmsd d 0 = Some e /\ rmsd (swap d) 0 = Some e /\ 0 <= e /\ (e = 0 <-> same d) /\ e * e = mean_square_diff d.
Proof.
  intros H. exists (sqrt (mean_square_diff d)). split; [apply rmsd_correct, H|].
  split; [rewrite rmsd_correct by (apply swap_ne, H); rewrite msdiff_swap; reflexivity|]. split; [apply sqrt_pos|]. split; [|apply sqrt_sqrt, msdiff_nonneg].
  rewrite <- msdiff_zero by exact H. split; intros E; [apply sqrt_eq_0; [apply msdiff_nonneg|exact E]|rewrite E; apply sqrt_0].
Qed.
(* ubrmsd ignores constants added to either series and the order of the series; it never exceeds rmsd *)
Theorem C48_ubrmsd d b c : d <> [] -> exists u e, ubrmsd d 0 = Some u /\ rmsd d 0 = Some e /\ 0 <= u <= e /\
  ubrmsd (swap d) 0 = Some u /\ ubrmsd (scale_x 1 b (scale_y 1 c d)) 0 = Some u.
Proof.
  intros H. exists (sqrt (ub2 d)), (sqrt (mean_square_diff d)). split; [apply ubrmsd_correct, H|]. split; [apply rmsd_correct, H|].
  split; [split; [apply sqrt_pos|]; apply sqrt_le_1_alt; rewrite msdiff_moments by exact H; unfold ub2; pose proof (sq_nonneg (rmean (xs d) - rmean (ys d))); lra|].
  split.
  - rewrite ubrmsd_correct by (apply swap_ne, H). unfold ub2. rewrite xs_swap, ys_swap, cov_swap. do 2 f_equal. ring.
  - assert (H2 : scale_y 1 c d <> []) by (apply map_ne, H). rewrite ubrmsd_correct by (apply scale_x_ne, H2). do 2 f_equal.
    unfold ub2. rewrite xs_scale_x, ys_scale_x, cov_scale_x by exact H2. rewrite var_affine by (apply xs_ne, H2).
    rewrite scale_y_swap, xs_swap, ys_swap, cov_swap. rewrite xs_scale_x, ys_scale_x, xs_swap, ys_swap, cov_scale_x, cov_swap by (apply swap_ne, H).
    rewrite var_affine by (apply ys_ne, H). ring.
Qed.
(* mean absolute difference *)
Theorem C48_aad d : d <> [] -> exists a e, aad d = Some a /\ rmsd d 0 = Some e /\ 0 <= a <= e.
Proof.
  intros H. eexists _, _. split; [apply aad_correct, H|]. split; [apply rmsd_correct, H|]. split; [|apply aad_le, H].
  unfold rmean. rewrite rlen_map. apply Rmult_le_pos; [apply rsum_nonneg; intros; apply Rabs_pos|]. left. apply Rinv_0_lt_compat, rlen_pos, H.
Qed.
(* the deprecated ddof argument rescales by n/(n - ddof) *)
Theorem C48_ddof d dd : d <> [] -> dd <> 0 -> dd < rlen d -> exists e u e0 u0,
  rmsd d dd = Some e /\ ubrmsd d dd = Some u /\ rmsd d 0 = Some e0 /\ ubrmsd d 0 = Some u0 /\
  e * e * (rlen d - dd) = e0 * e0 * rlen d /\ u * u * (rlen d - dd) = u0 * u0 * rlen d.
Proof.
  intros H Z L. destruct (ddof_scale d dd H Z L) as [E U]. eexists _, _, _, _. split; [exact E|]. split; [exact U|].
  split; [apply rmsd_correct, H|]. split; [apply ubrmsd_correct, H|].
  pose proof (rlen_pos d H) as N. assert (Q : 0 <= rlen d / (rlen d - dd)).
  { apply Rmult_le_pos; [lra|]. left. apply Rinv_0_lt_compat. lra. }
  pose proof (msdiff_nonneg d). pose proof (ub2_nonneg d H).
  rewrite !sqrt_sqrt; try assumption; try (apply Rmult_le_pos; assumption). split; field; lra.
Qed.
(* rmsd divided by the value range lies in [0, 1] *)
Theorem C48_nrmsd d v : nrmsd d 0 = Some v -> 0 <= v <= 1.
Proof. exact (nrmsd_range d v). Qed.
(* at least half of the absolute differences are <= mad, and at least half are >= mad *)
Theorem C48_mad d m : mad d = Some m -> let diffs := map (fun p => Rabs (fst p - snd p)) d in
  (List.length d <= 2 * List.length (filter (fun v => if Rle_dec v m then true else false) diffs))%nat /\
  (List.length d <= 2 * List.length (filter (fun v => if Rle_dec m v then true else false) diffs))%nat.
Proof. intros E. pose proof (median_halves _ _ E) as X. rewrite map_length in X. exact X. Qed.
Theorem C48_mad_defined d : mad d = None <-> d = [].
Proof.
  unfold mad, np_median. destruct d as [|p d]; [split; reflexivity|]. cbn [map]. split; [|discriminate]. destruct (Nat.even _); discriminate.
Qed.
Example C48_example : bias ex3 = Some 0 /\ rmsd ex3 0 = Some (sqrt (26 / 3)) /\ aad ex3 = Some (8 / 3).
Proof.
  rewrite bias_correct, rmsd_correct, aad_correct by discriminate. unfold mean_square_diff, rmean, rlen; cbn.
  split; [f_equal; field|]. split; [do 2 f_equal; field|]. f_equal.
  replace (1 - 2) with (- (1)) by ring. replace (2 - 5) with (- (3)) by ring. replace (6 - 2) with 4 by ring.
  rewrite !Rabs_Ropp, !Rabs_pos_eq by lra. field.
Qed.
Example C48_ddof_example : 1 <> 0 /\ 1 < rlen ex3.
Proof. unfold rlen; cbn. split; lra. Qed.
Example C48_nrmsd_example : nrmsd ex3 0 = Some (sqrt (26 / 3) / 5).
Proof.
  unfold nrmsd, ex3. cbn [xs ys map app fst snd]. rewrite rmsd_correct by discriminate. cbn [obind].
  replace (mean_square_diff [(1, 2); (2, 5); (6, 2)]) with (26 / 3) by (unfold mean_square_diff, rmean, rlen; cbn; field).
  cbn [r_max r_min].
  rewrite (Rmax_right 1 2), (Rmax_right 2 6), (Rmax_left 6 2), (Rmax_left 6 5), (Rmax_left 6 2) by lra.
  rewrite (Rmin_left 1 2), (Rmin_left 1 6), (Rmin_left 1 2), (Rmin_left 1 5), (Rmin_left 1 2) by lra.
  replace (6 - 1) with 5 by ring. apply fdiv_some. lra.
Qed.
Print Assumptions C48_pythagoras.
Print Assumptions C48_ubrmsd.
Print Assumptions C48_nrmsd.
Print Assumptions C48_mad.

(* ---- C49 ---- *)
(* pairs are (observation, prediction) *)
Theorem C49_nash_sutcliffe d v : nash_sutcliffe d = Some v -> v <= 1 /\ (v = 1 <-> same d).
Proof. exact (nse_range d v). Qed.
Theorem C49_nash_sutcliffe_value d : d <> [] -> ~ constant (xs d) ->
  nash_sutcliffe d = Some (1 - mean_square_diff d / var (xs d)).
Proof. exact (nse_correct d). Qed.
Theorem C49_nash_sutcliffe_undefined d : nash_sutcliffe d = None <-> d = [] \/ constant (xs d).
Proof. exact (nse_none d). Qed.
Theorem C49_index_of_agreement d v : index_of_agreement d = Some v -> 0 <= v <= 1 /\ (v = 1 <-> same d).
Proof. exact (ioa_range d v). Qed.
(* undefined exactly when all observations and predictions are one and the same number *)
Theorem C49_index_of_agreement_undefined d :
  index_of_agreement d = None <-> exists c, forall p, In p d -> fst p = c /\ snd p = c.
Proof. exact (ioa_none d). Qed.
Example C49_example : nash_sutcliffe ex3 = Some (1 - (26/3) / (14/3)).
Proof.
  rewrite (C49_nash_sutcliffe_value ex3 ex3_ne ex3_x). do 3 f_equal; unfold mean_square_diff, var, rmean, rlen; cbn; field.
Qed.
Example C49_ioa_example : exists v, index_of_agreement ex3 = Some v.
Proof.
  destruct (index_of_agreement ex3) as [v|] eqn:E; [exists v; reflexivity|]. apply C49_index_of_agreement_undefined in E as (c & C).
  destruct (C (1, 2)) as [A B]; [left; reflexivity|]. cbn in *. lra.
Qed.
Print Assumptions C49_nash_sutcliffe.
Print Assumptions C49_index_of_agreement.

(* ---- C57 ---- *)
(* any way of cutting the series into chunks gives the correlation and parameters of one call *)
Theorem C57_chunks cs : cs <> [] -> pearsonr_chunks cs = pearsonr_recursive prec0 (List.concat cs).
Proof. exact (chunks_correct cs). Qed.
(* which is the textbook correlation, undefined exactly when a series is constant *)
Theorem C57_value cs : let d := List.concat cs in d <> [] ->
  (~ constant (xs d) /\ ~ constant (ys d) -> fst (pearsonr_chunks cs) = Some (correlation d)) /\
  (constant (xs d) \/ constant (ys d) -> fst (pearsonr_chunks cs) = None).
Proof.
  cbn zeta. intros H. assert (HC : cs <> []) by (intros ->; apply H; reflexivity). rewrite C57_chunks by exact HC.
  rewrite recursive_correct by exact H. set (d := List.concat cs) in *. destruct (Req_EM_T _ 0) as [E|E]; split; try (intros; reflexivity).
  - intros [A B]. exfalso. pose proof (std_pos _ (xs_ne d H) A). pose proof (std_pos _ (ys_ne d H) B). nra.
  - intros C. exfalso. apply E. destruct C as [C|C]; apply std_zero in C; try (apply map_ne, H); rewrite C; ring.
Qed.
Example C57_example : fst (pearsonr_chunks [[(1, 2)]; []; [(2, 5); (6, 2)]]) = Some (correlation ex3).
Proof. apply (C57_value [[(1, 2)]; []; [(2, 5); (6, 2)]]); [discriminate|]. split; [exact ex3_x|exact ex3_y]. Qed.
Print Assumptions C57_chunks.
Print Assumptions C57_value.

(* ---- C62 ---- *)
(* Means and covariances between different columns are right; missing: the diagonal. *)
Theorem C62_means_and_covariances_partial d rows : rows <> [] -> exists mean C, moments_welford_nd d rows = Some (mean, C) /\
  (forall j, (j < d)%nat -> mean j = rmean (column j rows)) /\
  (forall j k, (j < d)%nat -> (k < d)%nat -> j <> k -> C j k = cov (columns j k rows)).
Proof. intros H. destruct (nd_correct d rows H) as (m & C & E). exists m, C. tauto. Qed.
(* The diagonal understates the variance of every column that is not constant. *)
Theorem C62_diagonal_too_small d rows j : rows <> [] -> (j < d)%nat -> ~ constant (column j rows) ->
  exists mean C, moments_welford_nd d rows = Some (mean, C) /\ C j j < var (column j rows).
Proof.
  intros H J NC. destruct (nd_correct d rows H) as (m & C & E & _ & _ & D). exists m, C. split; [exact E|].
  destruct (D j J) as [L I]. destruct L as [L|L]; [exact L|]. exfalso. apply NC, I, L.
Qed.
Definition ex_rows : list (nat -> R) := [fun j => if Nat.eqb j 0 then 0 else 1; fun j => if Nat.eqb j 0 then 2 else 7].
Theorem C62_diagonal_refuted : exists d rows mean C j, rows <> [] /\ (j < d)%nat /\
  moments_welford_nd d rows = Some (mean, C) /\ C j j <> var (column j rows).
Proof.
  exists 2%nat, ex_rows. destruct (C62_diagonal_too_small 2 ex_rows 0) as (m & C & E & L); [discriminate|lia| |].
  - intros K. specialize (K 0 2). cbn in K. assert (0 = 2) by (apply K; auto). lra.
  - exists m, C, 0%nat. split; [discriminate|]. split; [lia|]. split; [exact E|]. lra.
Qed.
Example C62_diagonal_value : exists mean C, moments_welford_nd 2 ex_rows = Some (mean, C) /\
  C 0%nat 0%nat = 1 / 2 /\ var (column 0 ex_rows) = 1 /\ C 0%nat 1%nat = 3.
Proof.
  eexists _, _. split; [reflexivity|]. split; [|split]; [unfold nd_finish, nd_finish_row, nd_step, nd_outer, nd_inner, upd, upd2; cbn; field| |unfold nd_finish, nd_finish_row, nd_step, nd_outer, nd_inner, upd, upd2; cbn; field].
  unfold var, rmean, rlen, column; cbn. field.
Qed.
Print Assumptions C62_means_and_covariances_partial.
Print Assumptions C62_diagonal_refuted.
