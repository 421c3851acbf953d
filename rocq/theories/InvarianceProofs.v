(* Lemmas: the pairwise metrics do not depend on the order of the observations, nor on the unit. *)
From Coq Require Import Reals List Lra Permutation Sorted.
From Verif Require Import RStats RStatsProofs MetricsModel MetricsSpec MetricsProofs MetricsProofs2 TcolModel.
Open Scope R_scope.

Lemma rlen_perm {A} (l m : list A) : Permutation l m -> rlen l = rlen m.
Proof. intros P. unfold rlen. rewrite (Permutation_length P). reflexivity. Qed.
Lemma rmean_perm l m : Permutation l m -> rmean l = rmean m.
Proof. intros P. unfold rmean. rewrite (rsum_perm l m P), (rlen_perm l m P). reflexivity. Qed.
Lemma np_mean_perm l m : Permutation l m -> np_mean l = np_mean m.
Proof. intros P. unfold np_mean. rewrite (rsum_perm l m P), (rlen_perm l m P). reflexivity. Qed.
Lemma sum_perm {A} (f : A -> R) l m : Permutation l m -> rsum (map f l) = rsum (map f m).
Proof. intros P. apply rsum_perm, Permutation_map, P. Qed.
Lemma perm_ne {A} (l m : list A) : Permutation l m -> l <> [] -> m <> [].
Proof. intros P N ->. apply Permutation_sym, Permutation_nil in P. contradiction. Qed.
Lemma var_perm l m : Permutation l m -> var l = var m.
Proof. intros P. unfold var. rewrite (rmean_perm l m P). apply rmean_perm, Permutation_map, P. Qed.
Lemma xs_perm d e : Permutation d e -> Permutation (xs d) (xs e).
Proof. apply Permutation_map. Qed.
Lemma ys_perm d e : Permutation d e -> Permutation (ys d) (ys e).
Proof. apply Permutation_map. Qed.
Lemma cov_perm d e : Permutation d e -> cov d = cov e.
Proof. intros P. unfold cov. rewrite (rmean_perm _ _ (xs_perm d e P)), (rmean_perm _ _ (ys_perm d e P)). apply rmean_perm, Permutation_map, P. Qed.
Lemma welford_perm d e : Permutation d e -> moments_welford d = moments_welford e.
Proof.
  intros P. destruct d as [|p d]; [apply Permutation_nil in P; subst; reflexivity|].
  assert (N : p :: d <> []) by discriminate. rewrite !welford_correct; [|exact (perm_ne _ _ P N)|exact N].
  rewrite (rmean_perm _ _ (xs_perm _ _ P)), (rmean_perm _ _ (ys_perm _ _ P)), (var_perm _ _ (xs_perm _ _ P)), (var_perm _ _ (ys_perm _ _ P)), (cov_perm _ _ P). reflexivity.
Qed.
Lemma RSS_perm d e : Permutation d e -> RSS d = RSS e.
Proof. intros P. rewrite !RSS_sum. apply sum_perm, P. Qed.
Lemma bias_perm d e : Permutation d e -> bias d = bias e.
Proof. intros P. unfold bias. rewrite !fold_sum, (sum_perm _ _ _ P), (rlen_perm _ _ P). reflexivity. Qed.
Lemma sorted_perm_eq l m : StronglySorted Rle l -> StronglySorted Rle m -> Permutation l m -> l = m.
Proof.
  revert m. induction l as [|x l IH]; intros m S T P; [apply Permutation_nil in P; congruence|].
  destruct m as [|y m]; [apply Permutation_sym, Permutation_nil in P; discriminate|].
  inversion S as [|? ? S1 F1]; subst. inversion T as [|? ? T1 F2]; subst.
  assert (E : x = y).
  { rewrite Forall_forall in F1, F2.
    assert (A : In x (y :: m)) by (apply (Permutation_in _ P); left; reflexivity).
    assert (B : In y (x :: l)) by (apply (Permutation_in _ (Permutation_sym P)); left; reflexivity).
    destruct A as [A|A]; [congruence|]. destruct B as [B|B]; [congruence|]. apply Rle_antisym; [apply F1, B|apply F2, A]. }
  subst y. f_equal. apply IH; [exact S1|exact T1|exact (Permutation_cons_inv P)].
Qed.
Lemma r_sort_perm_eq l m : Permutation l m -> r_sort l = r_sort m.
Proof.
  intros P. apply sorted_perm_eq; [apply r_sort_sorted|apply r_sort_sorted|].
  apply Permutation_trans with l; [apply Permutation_sym, r_sort_perm|]. apply Permutation_trans with m; [exact P|apply r_sort_perm].
Qed.
Lemma np_median_perm l m : Permutation l m -> np_median l = np_median m.
Proof.
  intros P. destruct l as [|x l]; [apply Permutation_nil in P; subst; reflexivity|].
  destruct m as [|y m]; [apply Permutation_sym, Permutation_nil in P; discriminate|].
  unfold np_median. rewrite (r_sort_perm_eq _ _ P), (Permutation_length P). reflexivity.
Qed.
Lemma r_max_in x l : In (r_max x l) (x :: l).
Proof.
  revert x. induction l as [|y l IH]; intros x; cbn [r_max]; [left; reflexivity|]. destruct (IH (Rmax x y)) as [E|I]; [|right; right; exact I].
  rewrite <- E. unfold Rmax. destruct (Rle_dec x y); [right; left; reflexivity|left; reflexivity].
Qed.
Lemma r_min_in x l : In (r_min x l) (x :: l).
Proof.
  revert x. induction l as [|y l IH]; intros x; cbn [r_min]; [left; reflexivity|]. destruct (IH (Rmin x y)) as [E|I]; [|right; right; exact I].
  rewrite <- E. unfold Rmin. destruct (Rle_dec x y); [left; reflexivity|right; left; reflexivity].
Qed.
Lemma r_max_top x l v : In v (x :: l) -> v <= r_max x l.
Proof. intros [<-|I]; [exact (proj1 (r_max_ge x l))|apply (proj2 (r_max_ge x l)), I]. Qed.
Lemma r_min_bot x l v : In v (x :: l) -> r_min x l <= v.
Proof. intros [<-|I]; [exact (proj1 (r_min_le x l))|apply (proj2 (r_min_le x l)), I]. Qed.
Lemma r_max_perm x l y m : Permutation (x :: l) (y :: m) -> r_max x l = r_max y m.
Proof.
  intros P. apply Rle_antisym.
  - apply r_max_top, (Permutation_in _ P), r_max_in.
  - apply r_max_top, (Permutation_in _ (Permutation_sym P)), r_max_in.
Qed.
Lemma r_min_perm x l y m : Permutation (x :: l) (y :: m) -> r_min x l = r_min y m.
Proof.
  intros P. apply Rle_antisym.
  - apply r_min_bot, (Permutation_in _ (Permutation_sym P)), r_min_in.
  - apply r_min_bot, (Permutation_in _ P), r_min_in.
Qed.
Lemma msd_perm d e : Permutation d e -> msd d = msd e.
Proof. intros P. unfold msd. rewrite (RSS_perm _ _ P), (rlen_perm _ _ P). reflexivity. Qed.
Lemma rmsd_perm d e k : Permutation d e -> rmsd d k = rmsd e k.
Proof. intros P. unfold rmsd. rewrite (msd_perm _ _ P), (RSS_perm _ _ P), (rlen_perm _ _ P). reflexivity. Qed.
Lemma nrmsd_perm d e k : Permutation d e -> nrmsd d k = nrmsd e k.
Proof.
  intros P. assert (Q : Permutation (xs d ++ ys d) (xs e ++ ys e)) by (apply Permutation_app; [apply xs_perm, P|apply ys_perm, P]).
  unfold nrmsd. destruct (xs d ++ ys d) as [|v r]; [apply Permutation_nil in Q; rewrite Q; reflexivity|].
  destruct (xs e ++ ys e) as [|v' r']; [apply Permutation_sym, Permutation_nil in Q; discriminate|].
  rewrite (rmsd_perm _ _ k P), (r_max_perm _ _ _ _ Q), (r_min_perm _ _ _ _ Q). reflexivity.
Qed.
Lemma c_ubrmsd_perm d e : Permutation d e -> c_ubrmsd d = c_ubrmsd e.
Proof.
  intros P. destruct d as [|p d]; [apply Permutation_nil in P; subst; reflexivity|]. assert (N : p :: d <> []) by discriminate.
  rewrite !c_ubrmsd_correct; [|exact (perm_ne _ _ P N)|exact N]. unfold ub2.
  rewrite (var_perm _ _ (xs_perm _ _ P)), (var_perm _ _ (ys_perm _ _ P)), (cov_perm _ _ P). reflexivity.
Qed.
Lemma ubrmsd_perm d e k : Permutation d e -> ubrmsd d k = ubrmsd e k.
Proof.
  intros P. unfold ubrmsd. rewrite (c_ubrmsd_perm _ _ P), (np_mean_perm _ _ (xs_perm _ _ P)), (np_mean_perm _ _ (ys_perm _ _ P)).
  destruct (Req_EM_T k 0); [reflexivity|]. destruct (np_mean (xs e)) as [mx|]; [|reflexivity]. cbn [obind]. destruct (np_mean (ys e)) as [my|]; [|reflexivity]. cbn [obind].
  rewrite (RSS_perm _ _ (Permutation_map (fun p => (fst p - mx, snd p - my)) P)), (rlen_perm _ _ P). reflexivity.
Qed.
Lemma ioa_perm d e : Permutation d e -> index_of_agreement d = index_of_agreement e.
Proof.
  intros P. unfold index_of_agreement. rewrite (np_mean_perm _ _ (xs_perm _ _ P)). destruct (np_mean (xs e)) as [mo|]; [|reflexivity]. cbn [obind].
  rewrite (RSS_perm _ _ P), (sum_perm (fun q => (Rabs (snd q - mo) + Rabs (fst q - mo)) ^ 2) _ _ P). reflexivity.
Qed.
Lemma nse_perm d e : Permutation d e -> nash_sutcliffe d = nash_sutcliffe e.
Proof.
  intros P. unfold nash_sutcliffe. rewrite (np_mean_perm _ _ (xs_perm _ _ P)). destruct (np_mean (xs e)) as [mo|]; [|reflexivity]. cbn [obind].
  rewrite (sum_perm (fun q => (fst q - snd q) ^ 2) _ _ P), (sum_perm (fun q => (fst q - mo) ^ 2) _ _ P). reflexivity.
Qed.
Lemma recursive_perm s d e : Permutation d e -> pearsonr_recursive s d = pearsonr_recursive s e.
Proof.
  intros P. unfold pearsonr_recursive. rewrite (rlen_perm _ _ P), (sum_perm (fun p => fst p * snd p) _ _ P), (rsum_perm _ _ (xs_perm _ _ P)), (rsum_perm _ _ (ys_perm _ _ P)),
    (sum_perm (fun x => x ^ 2) _ _ (xs_perm _ _ P)), (sum_perm (fun x => x ^ 2) _ _ (ys_perm _ _ P)). reflexivity.
Qed.
Lemma cov1_perm r s j k : Permutation r s -> cov1 r j k = cov1 s j k.
Proof.
  intros P. unfold cov1. rewrite (rmean_perm _ _ (Permutation_map (fun v => v j) P)), (rmean_perm _ _ (Permutation_map (fun v => v k) P)), (rlen_perm _ _ P).
  rewrite (sum_perm (fun v => (v j - rmean (map (fun w => w j) s)) * (v k - rmean (map (fun w => w k) s))) _ _ P). reflexivity.
Qed.
Lemma tcol_from_cov_ext C D ref : (forall i j, C i j = D i j) -> tcol_metrics_from_cov C ref = tcol_metrics_from_cov D ref.
Proof.
  intros E. unfold tcol_metrics_from_cov. destruct (Nat.ltb ref 3); [|reflexivity].
  assert (S1 : forall i, tc_snr C i = tc_snr D i) by (intros i; unfold tc_snr; rewrite !E; reflexivity).
  assert (S2 : forall i, tc_beta C ref i = tc_beta D ref i) by (intros i; unfold tc_beta; rewrite !E; reflexivity).
  assert (S3 : forall i, tc_err_std C ref i = tc_err_std D ref i) by (intros i; unfold tc_err_std, tc_err_var; rewrite S2, !E; reflexivity).
  rewrite (map_ext _ _ S1), (map_ext _ _ S2), (map_ext _ _ S3). reflexivity.
Qed.
Lemma tcol_perm r s ref : Permutation r s -> tcol_metrics r ref = tcol_metrics s ref.
Proof.
  intros P. unfold tcol_metrics, np_cov. assert (L := Permutation_length P).
  destruct r as [|a [|b r]], s as [|a' [|b' s]]; try discriminate; try reflexivity. apply tcol_from_cov_ext. intros i j. apply cov1_perm, P.
Qed.

(* ------------------------------------------------------------------ units *)
Definition in_unit (a b : R) (d : pairs) : pairs := map (fun p => (a * fst p + b, a * snd p + b)) d.
Lemma xs_unit a b d : xs (in_unit a b d) = map (fun v => a * v + b) (xs d).
Proof. unfold xs, in_unit. rewrite !map_map. reflexivity. Qed.
Lemma ys_unit a b d : ys (in_unit a b d) = map (fun v => a * v + b) (ys d).
Proof. unfold ys, in_unit. rewrite !map_map. reflexivity. Qed.
Lemma rlen_unit a b d : rlen (in_unit a b d) = rlen d.
Proof. apply rlen_map. Qed.
Lemma unit_ne a b d : d <> [] -> in_unit a b d <> [].
Proof. apply map_ne. Qed.
Lemma unit_scale a b d : in_unit a b d = scale_x a b (scale_y a b d).
Proof. unfold in_unit, scale_x, scale_y. rewrite map_map. reflexivity. Qed.
Lemma cov_unit a b d : d <> [] -> cov (in_unit a b d) = a * a * cov d.
Proof.
  intros N. rewrite unit_scale, cov_scale_x by (apply map_ne, N). rewrite scale_y_swap, cov_swap, cov_scale_x, cov_swap by (apply swap_ne, N). ring.
Qed.
Lemma RSS_unit a b d : RSS (in_unit a b d) = a * a * RSS d.
Proof.
  rewrite !RSS_sum. unfold in_unit. rewrite map_map, <- rsum_scal. f_equal. apply map_ext. intros p. cbn. ring.
Qed.
Lemma fdiv_unit k a c : fdiv (k * a) c = omap (Rmult k) (fdiv a c).
Proof. unfold fdiv. destruct (Req_EM_T c 0); [reflexivity|]. cbn. f_equal. field. exact n. Qed.
Lemma bias_unit a b d : bias (in_unit a b d) = omap (Rmult a) (bias d).
Proof.
  unfold bias. rewrite !fold_sum, !Rplus_0_l, rlen_unit, <- fdiv_unit. f_equal. unfold in_unit. rewrite map_map, <- rsum_scal. f_equal. apply map_ext. intros p. cbn. ring.
Qed.
Lemma welford_unit a b d : d <> [] -> moments_welford (in_unit a b d) =
  Some (Moments (a * rmean (xs d) + b) (a * rmean (ys d) + b) (a * a * var (xs d)) (a * a * var (ys d)) (a * a * cov d)).
Proof.
  intros N. rewrite welford_correct by (apply unit_ne, N). rewrite xs_unit, ys_unit, !rmean_affine, !var_affine, cov_unit by (try apply xs_ne; try apply ys_ne; exact N). reflexivity.
Qed.
Lemma sqrt_unit a v : 0 < a -> 0 <= v -> sqrt (a * a * v) = a * sqrt v.
Proof. intros A V. rewrite sqrt_mult, sqrt_square; [reflexivity|lra|apply sq_nonneg|exact V]. Qed.
Lemma mse_corr_unit a b d : 0 < a -> mse_corr (in_unit a b d) = omap (Rmult (a * a)) (mse_corr d).
Proof.
  intros A. destruct d as [|p d]; [unfold mse_corr, in_unit; cbn [map]; rewrite welford_empty; reflexivity|]. assert (N : p :: d <> []) by discriminate. revert N. generalize (p :: d) as e. intros e N.
  unfold mse_corr. rewrite welford_unit, welford_correct by exact N. cbn [omap]. f_equal. unfold mse_corr_from_moments; cbn [m_vx m_vy m_cov].
  rewrite !sqrt_unit by (try apply var_nonneg; exact A).
  replace (2 * (a * sqrt (var (xs e))) * (a * sqrt (var (ys e))) - 2 * (a * a * cov e)) with (a * a * (2 * sqrt (var (xs e)) * sqrt (var (ys e)) - 2 * cov e)) by ring.
  rewrite <- (RmaxRmult _ _ (a * a)) by (apply sq_nonneg). f_equal. ring.
Qed.
Lemma mse_var_unit a b d : 0 < a -> mse_var (in_unit a b d) = omap (Rmult (a * a)) (mse_var d).
Proof.
  intros A. destruct d as [|p d]; [unfold mse_var, in_unit; cbn [map]; rewrite welford_empty; reflexivity|]. assert (N : p :: d <> []) by discriminate. revert N. generalize (p :: d) as e. intros e N.
  unfold mse_var. rewrite welford_unit, welford_correct by exact N. cbn [omap]. f_equal. unfold mse_var_from_moments; cbn [m_vx m_vy m_cov].
  rewrite !sqrt_unit by (try apply var_nonneg; exact A). ring.
Qed.
Lemma mse_bias_unit a b d : mse_bias (in_unit a b d) = omap (Rmult (a * a)) (mse_bias d).
Proof. unfold mse_bias. rewrite bias_unit. destruct (bias d); cbn; [f_equal; ring|reflexivity]. Qed.
Lemma msd_unit a b d : msd (in_unit a b d) = omap (Rmult (a * a)) (msd d).
Proof. unfold msd. rewrite RSS_unit, rlen_unit, fdiv_unit. reflexivity. Qed.
Lemma np_sqrt_unit a o : 0 < a -> obind (omap (Rmult (a * a)) o) np_sqrt = omap (Rmult a) (obind o np_sqrt).
Proof.
  intros A. destruct o as [v|]; [|reflexivity]. cbn [omap obind]. unfold np_sqrt. assert (AA : 0 < a * a) by (apply Rmult_lt_0_compat; exact A).
  destruct (Rlt_dec v 0) as [H|H], (Rlt_dec (a * a * v) 0) as [H'|H']; cbn [omap].
  - reflexivity.
  - exfalso. apply H'. assert (a * a * 0 > a * a * v) by (apply Rmult_lt_compat_l; lra). lra.
  - exfalso. apply H. destruct (Rlt_dec v 0) as [L|L]; [exact L|]. exfalso. assert (0 <= a * a * v) by (apply Rmult_le_pos; lra). lra.
  - rewrite sqrt_unit; [reflexivity|exact A|lra].
Qed.
Lemma rmsd_unit a b d k : 0 < a -> rmsd (in_unit a b d) k = omap (Rmult a) (rmsd d k).
Proof.
  intros A. unfold rmsd. destruct (Req_EM_T k 0).
  - rewrite msd_unit. apply np_sqrt_unit, A.
  - rewrite RSS_unit, rlen_unit, fdiv_unit. apply np_sqrt_unit, A.
Qed.
Lemma r_max_unit a b x l : 0 < a -> r_max (a * x + b) (map (fun v => a * v + b) l) = a * r_max x l + b.
Proof.
  intros A. revert x. induction l as [|y l IH]; intros x; cbn [r_max map]; [reflexivity|].
  replace (Rmax (a * x + b) (a * y + b)) with (a * Rmax x y + b); [apply IH|].
  unfold Rmax. destruct (Rle_dec x y) as [H|H], (Rle_dec (a * x + b) (a * y + b)) as [H'|H']; try reflexivity; exfalso.
  - apply H'. apply Rplus_le_compat_r, Rmult_le_compat_l; lra.
  - apply H. apply Rmult_le_reg_l with a; lra.
Qed.
Lemma r_min_unit a b x l : 0 < a -> r_min (a * x + b) (map (fun v => a * v + b) l) = a * r_min x l + b.
Proof.
  intros A. revert x. induction l as [|y l IH]; intros x; cbn [r_min map]; [reflexivity|].
  replace (Rmin (a * x + b) (a * y + b)) with (a * Rmin x y + b); [apply IH|].
  unfold Rmin. destruct (Rle_dec x y) as [H|H], (Rle_dec (a * x + b) (a * y + b)) as [H'|H']; try reflexivity; exfalso.
  - apply H'. apply Rplus_le_compat_r, Rmult_le_compat_l; lra.
  - apply H. apply Rmult_le_reg_l with a; lra.
Qed.
Lemma fdiv_both k a c : k <> 0 -> fdiv (k * a) (k * c) = fdiv a c.
Proof.
  intros K. unfold fdiv. destruct (Req_EM_T c 0) as [E|E], (Req_EM_T (k * c) 0) as [E'|E']; try reflexivity.
  - subst. exfalso. apply E'. ring.
  - exfalso. apply Rmult_integral in E' as [E'|E']; contradiction.
  - f_equal. field. auto.
Qed.
Lemma nrmsd_unit a b d k : 0 < a -> nrmsd (in_unit a b d) k = nrmsd d k.
Proof.
  intros A. unfold nrmsd. rewrite xs_unit, ys_unit, <- map_app. destruct (xs d ++ ys d) as [|v r]; [reflexivity|]. cbn [map].
  rewrite rmsd_unit, r_max_unit, r_min_unit by exact A. destruct (rmsd d k) as [e|]; [|reflexivity]. cbn [omap obind].
  replace (a * r_max v r + b - (a * r_min v r + b)) with (a * (r_max v r - r_min v r)) by ring. apply fdiv_both. lra.
Qed.
Lemma ub2_unit a b d : d <> [] -> ub2 (in_unit a b d) = a * a * ub2 d.
Proof. intros N. unfold ub2. rewrite cov_unit, xs_unit, ys_unit, !var_affine by (try apply xs_ne; try apply ys_ne; exact N). ring. Qed.
Lemma np_mean_unit a b l : l <> [] -> np_mean (map (fun v => a * v + b) l) = omap (fun m => a * m + b) (np_mean l).
Proof. intros N. rewrite !np_mean_some by (try apply map_ne; exact N). cbn. rewrite rmean_affine by exact N. reflexivity. Qed.
Lemma ubrmsd_unit a b d k : 0 < a -> ubrmsd (in_unit a b d) k = omap (Rmult a) (ubrmsd d k).
Proof.
  intros A. unfold ubrmsd. destruct (Req_EM_T k 0).
  - destruct d as [|p d]; [unfold c_ubrmsd, in_unit; cbn; unfold fdiv, rlen; cbn; destruct (Req_EM_T 0 0); [reflexivity|contradiction]|].
    assert (N : p :: d <> []) by discriminate. revert N. generalize (p :: d) as f. intros f N. rewrite !c_ubrmsd_correct by (try apply unit_ne; exact N). cbn [omap]. f_equal.
    rewrite ub2_unit by exact N. apply sqrt_unit; [exact A|apply ub2_nonneg, N].
  - destruct d as [|p d]; [unfold np_mean, in_unit, xs; cbn; unfold fdiv, rlen; cbn; destruct (Req_EM_T 0 0); [reflexivity|contradiction]|].
    assert (N : p :: d <> []) by discriminate. revert N. generalize (p :: d) as f. intros f N.
    rewrite xs_unit, ys_unit, !np_mean_unit by (try apply xs_ne; try apply ys_ne; exact N).
    destruct (np_mean (xs f)) as [mx|]; [|reflexivity]. destruct (np_mean (ys f)) as [my|]; [|reflexivity]. cbn [omap obind].
    rewrite rlen_unit, <- np_sqrt_unit, <- fdiv_unit by exact A. do 2 f_equal. rewrite <- (RSS_unit a 0). f_equal. unfold in_unit. rewrite !map_map. apply map_ext. intros q. cbn. f_equal; ring.
Qed.
Lemma np_median_unit a l : 0 < a -> np_median (map (Rmult a) l) = omap (Rmult a) (np_median l).
Proof.
  intros A. assert (S : r_sort (map (Rmult a) l) = map (Rmult a) (r_sort l)).
  { induction l as [|x l IH]; [reflexivity|]. cbn [map r_sort]. rewrite IH. generalize (r_sort l) as m. induction m as [|y m IHm]; [reflexivity|]. cbn [map r_insert].
    destruct (Rle_dec x y) as [H|H], (Rle_dec (a * x) (a * y)) as [H'|H']; try reflexivity.
    - exfalso. apply H', Rmult_le_compat_l; lra.
    - exfalso. apply H. apply Rmult_le_reg_l with a; lra.
    - rewrite IHm. reflexivity. }
  destruct l as [|x l]; [reflexivity|]. set (m := x :: l) in *. assert (NM : forall i, nth i (r_sort (map (Rmult a) m)) 0 = a * nth i (r_sort m) 0).
  { intros i. rewrite S. rewrite <- (map_nth (Rmult a)). rewrite Rmult_0_r. reflexivity. }
  unfold np_median. change (map (Rmult a) m) with (a * x :: map (Rmult a) l) at 1. cbv iota. change (match m with [] => None | _ => ?e end) with e.
  cbv zeta. rewrite !NM, map_length. change (match m with [] => None | _ :: _ => ?e end) with e. destruct (Nat.even (List.length m)); cbn [omap]; f_equal. field.
Qed.
Lemma aad_unit a b d : 0 < a -> aad (in_unit a b d) = omap (Rmult a) (aad d).
Proof.
  intros A. unfold aad, np_mean. rewrite !rlen_map, rlen_unit, <- fdiv_unit. f_equal. unfold in_unit. rewrite map_map, <- rsum_scal. f_equal. apply map_ext. intros p. cbn.
  replace (a * fst p + b - (a * snd p + b)) with (a * (fst p - snd p)) by ring. rewrite Rabs_mult, (Rabs_right a) by lra. reflexivity.
Qed.
Lemma mad_unit a b d : 0 < a -> mad (in_unit a b d) = omap (Rmult a) (mad d).
Proof.
  intros A. unfold mad. rewrite <- np_median_unit by exact A. f_equal. unfold in_unit. rewrite !map_map. apply map_ext. intros p. cbn.
  replace (a * fst p + b - (a * snd p + b)) with (a * (fst p - snd p)) by ring. rewrite Rabs_mult, (Rabs_right a) by lra. reflexivity.
Qed.
Lemma ioa_unit a b d : 0 < a -> index_of_agreement (in_unit a b d) = index_of_agreement d.
Proof.
  intros A. destruct d as [|p d]; [reflexivity|]. assert (N : p :: d <> []) by discriminate. revert N. generalize (p :: d) as f. intros f N.
  unfold index_of_agreement. rewrite xs_unit, np_mean_unit by (apply xs_ne, N). destruct (np_mean (xs f)) as [mo|]; [|reflexivity]. cbn [omap obind]. f_equal.
  rewrite RSS_unit. unfold in_unit. rewrite map_map.
  replace (rsum (map (fun x => (Rabs (snd (a * fst x + b, a * snd x + b) - (a * mo + b)) + Rabs (fst (a * fst x + b, a * snd x + b) - (a * mo + b))) ^ 2) f))
    with (a * a * rsum (map (fun q => (Rabs (snd q - mo) + Rabs (fst q - mo)) ^ 2) f)).
  - apply fdiv_both. apply Rgt_not_eq, Rmult_lt_0_compat; exact A.
  - rewrite <- rsum_scal. f_equal. apply map_ext. intros q. cbn [fst snd].
    replace (a * snd q + b - (a * mo + b)) with (a * (snd q - mo)) by ring. replace (a * fst q + b - (a * mo + b)) with (a * (fst q - mo)) by ring.
    rewrite !Rabs_mult, (Rabs_right a) by lra. ring.
Qed.
Lemma nse_unit a b d : a <> 0 -> nash_sutcliffe (in_unit a b d) = nash_sutcliffe d.
Proof.
  intros A. destruct d as [|p d]; [reflexivity|]. assert (N : p :: d <> []) by discriminate. revert N. generalize (p :: d) as f. intros f N.
  unfold nash_sutcliffe. rewrite xs_unit, np_mean_unit by (apply xs_ne, N). destruct (np_mean (xs f)) as [mo|]; [|reflexivity]. cbn [omap obind]. f_equal.
  unfold in_unit. rewrite !map_map. cbn [fst snd].
  replace (rsum (map (fun x => (a * fst x + b - (a * snd x + b)) ^ 2) f)) with (a * a * rsum (map (fun q => (fst q - snd q) ^ 2) f)) by (rewrite <- rsum_scal; f_equal; apply map_ext; intros; ring).
  replace (rsum (map (fun x => (a * fst x + b - (a * mo + b)) ^ 2) f)) with (a * a * rsum (map (fun q => (fst q - mo) ^ 2) f)) by (rewrite <- rsum_scal; f_equal; apply map_ext; intros; ring).
  apply fdiv_both. intros E. apply Rmult_integral in E as [E|E]; contradiction.
Qed.
Lemma pearson_unit bt a b c e d : 0 < a -> 0 < c -> pearson_of bt (scale_x a b (scale_y c e d)) = pearson_of bt d.
Proof.
  intros A C. destruct d as [|p d]; [reflexivity|]. assert (N : p :: d <> []) by discriminate. revert N. generalize (p :: d) as f. intros f N.
  unfold pearson_of. rewrite !welford_correct by (try apply map_ne; try apply map_ne; exact N). cbn [obind m_vx m_vy m_cov].
  assert (NY : scale_y c e f <> []) by (apply map_ne, N).
  rewrite cov_scale_x, xs_scale_x, ys_scale_x by exact NY. rewrite (scale_y_swap c e f), xs_swap, ys_swap, cov_swap.
  rewrite cov_scale_x, xs_scale_x, ys_scale_x, cov_swap, xs_swap, ys_swap by (apply swap_ne, N).
  rewrite !var_affine by (try apply xs_ne; try apply ys_ne; exact N).
  assert (RL : rlen (scale_x a b (swap (scale_x c e (swap f)))) = rlen f) by (unfold scale_x, swap; rewrite !rlen_map; reflexivity). rewrite RL.
  assert (AA : 0 < a * a) by (apply Rmult_lt_0_compat; exact A). assert (CC : 0 < c * c) by (apply Rmult_lt_0_compat; exact C).
  assert (VX := var_nonneg (xs f)). assert (VY := var_nonneg (ys f)).
  unfold pearsonr_from_moments.
  destruct (Req_EM_T (var (xs f)) 0) as [Z1|Z1]; [rewrite Z1, Rmult_0_r; destruct (Req_EM_T 0 0); [reflexivity|contradiction]|].
  destruct (Req_EM_T (a * a * var (xs f)) 0) as [Z2|Z2]; [exfalso; apply Rmult_integral in Z2 as [Z2|Z2]; lra|].
  destruct (Req_EM_T (var (ys f)) 0) as [Z3|Z3]; [rewrite Z3, Rmult_0_r; destruct (Req_EM_T 0 0); [reflexivity|contradiction]|].
  destruct (Req_EM_T (c * c * var (ys f)) 0) as [Z4|Z4]; [exfalso; apply Rmult_integral in Z4 as [Z4|Z4]; lra|].
  assert (VV : 0 < var (xs f) * var (ys f)) by (apply Rmult_lt_0_compat; lra).
  replace (a * (c * cov f) / sqrt (a * a * var (xs f) * (c * c * var (ys f)))) with (cov f / sqrt (var (xs f) * var (ys f))); [reflexivity|].
  replace (a * a * var (xs f) * (c * c * var (ys f))) with ((a * c) * (a * c) * (var (xs f) * var (ys f))) by ring.
  rewrite sqrt_unit; [|apply Rmult_lt_0_compat; assumption|lra].
  assert (0 < sqrt (var (xs f) * var (ys f))) by (apply sqrt_lt_R0, VV). field. lra.
Qed.
