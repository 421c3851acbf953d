(* C113: confidence intervals at different levels, in other units and for exchanged series. *)
From Coq Require Import Reals List Lra Lia Psatz.
From Verif Require Import Base BaseProofs RStats RStatsProofs MetricsModel MetricsSpec MetricsProofs MetricsProofs2
  TcolModel ConfintModel ConfintSpec ConfintProofs ConfintProofs2 ConfintProps ConfNestSpec ConfNestProofs ConfNestProofs2.
Open Scope R_scope.

(* ---- a lower alpha gives a wider interval ---- *)
Theorem C113_correlations_nested ppf n r alpha alpha' : symmetric_quantiles ppf -> -1 < r < 1 -> (3 < n)%nat -> 0 < alpha' -> alpha' <= alpha -> alpha < 1 ->
  within (pearson_r_ci ppf n r alpha) (pearson_r_ci ppf n r alpha') /\
  within (spearman_r_ci ppf n r alpha) (spearman_r_ci ppf n r alpha') /\
  within (kendall_tau_ci ppf n r alpha) (kendall_tau_ci ppf n r alpha').
Proof.
  intros SQ H N A B C. pose proof (upper_quantile ppf alpha SQ ltac:(lra)) as P. pose proof (upper_quantile_mono ppf alpha' alpha SQ A B C) as M.
  split; [|split]; apply fisher_nested; try assumption; [lra| |lra]. pose proof (sqrt_pos (1 + r ^ 2 / 2)). split; [apply Rmult_le_pos; assumption|apply Rmult_le_compat_r; assumption].
Qed.
Theorem C113_bias_nested t_ppf d b alpha alpha' : (1 < List.length d)%nat -> symmetric_quantiles (fun p => t_ppf p (List.length d - 1)%nat) -> 0 < alpha' -> alpha' <= alpha -> alpha < 1 ->
  exists lo up lo' up', bias_ci t_ppf d b alpha = Some (lo, up) /\ bias_ci t_ppf d b alpha' = Some (lo', up') /\ lo' <= lo /\ up <= up'.
Proof.
  intros L SQ A B C. rewrite !bias_ci_value by exact L. eexists _, _, _, _. split; [reflexivity|]. split; [reflexivity|].
  pose proof (upper_quantile_mono _ alpha' alpha SQ A B C) as M. cbv beta in M.
  assert (W : half_width t_ppf d alpha <= half_width t_ppf d alpha').
  { unfold half_width. apply Rmult_le_compat_l; [|exact M]. apply Rmult_le_pos; [apply sqrt_pos|]. left. apply Rinv_0_lt_compat, sqrt_lt_R0, rlen_pos. intros ->. cbn in L. lia. }
  lra.
Qed.
Theorem C113_ubrmsd_nested chi2 n ub alpha alpha' : 0 <= ub -> (forall p q, 0 < p -> p <= q -> q < 1 -> 0 < chi2 p (n - 1)%nat <= chi2 q (n - 1)%nat) -> 0 < alpha' -> alpha' <= alpha -> alpha < 1 ->
  within (ubrmsd_ci chi2 n ub alpha) (ubrmsd_ci chi2 n ub alpha').
Proof.
  intros U M A B C. pose proof (M (alpha' / 2) (alpha / 2) ltac:(lra) ltac:(lra) ltac:(lra)) as M1. pose proof (M (1 - alpha / 2) (1 - alpha' / 2) ltac:(lra) ltac:(lra) ltac:(lra)) as M2.
  rewrite !ubrmsd_ci_value by lra. pose proof (pos_INR n) as P.
  assert (G : forall c c', 0 < c -> c <= c' -> ub * sqrt (INR n / c') <= ub * sqrt (INR n / c)).
  { intros c c' H1 H2. apply Rmult_le_compat_l; [exact U|]. apply sqrt_le_1_alt. apply Rmult_le_compat_l; [exact P|]. apply Rinv_le_contravar; assumption. }
  split; cbn [fst snd bound_le]; apply G; lra.
Qed.
Theorem C113_bootstrap_nested ppf cdf store metric x y method alpha alpha' minimum draws : method = "percentile"%string \/ method = "basic"%string -> x <> [] -> (minimum <= List.length x)%nat ->
  0 <= alpha' -> alpha' <= alpha -> alpha <= 1 ->
  exists lo up lo' up', with_bootstrapped_ci ppf cdf store metric x y alpha method minimum draws = Ok (metric x y, lo, up) /\
    with_bootstrapped_ci ppf cdf store metric x y alpha' method minimum draws = Ok (metric x y, lo', up') /\ within (lo, up) (lo', up').
Proof. exact (boot_nested ppf cdf store metric x y method alpha alpha' minimum draws). Qed.
(* BCa: the acceleration never exceeds 1/6, so nothing goes wrong while bias correction and quantile stay
   below 6 together *)
Theorem C113_BCa_nested ppf cdf bs m alpha alpha' jk p z0 a zl zu wl wu : (forall u v, u <= v -> cdf u <= cdf v) -> (forall u, 0 <= cdf u <= 1) -> vals bs <> [] ->
  share_not_above bs m = Some p -> ppf p = Some z0 -> acceleration jk = Some a ->
  ppf alpha = Some zl -> ppf (1 - alpha) = Some zu -> ppf alpha' = Some wl -> ppf (1 - alpha') = Some wu -> wl <= zl -> zl <= zu -> zu <= wu -> Rabs (z0 + wl) < 6 -> Rabs (z0 + wu) < 6 ->
  exists i i', BCa_bs_ci ppf cdf bs m alpha jk = Ok i /\ BCa_bs_ci ppf cdf bs m alpha' jk = Ok i' /\ within i i' /\ bound_le (fst i) (snd i).
Proof. exact (bca_nested ppf cdf bs m alpha alpha' jk p z0 a zl zu wl wu). Qed.

(* ---- the sign of the correlation, exchanged series, other units ---- *)
Theorem C113_correlations_sign ppf n r alpha :
  pearson_r_ci ppf n (- r) alpha = (omap Ropp (snd (pearson_r_ci ppf n r alpha)), omap Ropp (fst (pearson_r_ci ppf n r alpha))) /\
  spearman_r_ci ppf n (- r) alpha = (omap Ropp (snd (spearman_r_ci ppf n r alpha)), omap Ropp (fst (spearman_r_ci ppf n r alpha))) /\
  kendall_tau_ci ppf n (- r) alpha = (omap Ropp (snd (kendall_tau_ci ppf n r alpha)), omap Ropp (fst (kendall_tau_ci ppf n r alpha))).
Proof.
  split; [apply fisher_opp|]. split; [|apply fisher_opp]. unfold spearman_r_ci. replace ((- r) ^ 2) with (r ^ 2) by ring. apply fisher_opp.
Qed.
Theorem C113_bias_exchanged t_ppf d b alpha : (1 < List.length d)%nat ->
  bias_ci t_ppf (map (fun p => (snd p, fst p)) d) (- b) alpha = omap (fun i => (- snd i, - fst i)) (bias_ci t_ppf d b alpha).
Proof.
  intros L. rewrite !bias_ci_value by (rewrite ?map_length; exact L). cbn [omap fst snd].
  assert (W : half_width t_ppf (map (fun p => (snd p, fst p)) d) alpha = half_width t_ppf d alpha).
  { unfold half_width. rewrite !rlen_map, !map_length, !map_map. cbn [fst snd]. f_equal. f_equal. f_equal. f_equal.
    rewrite (map_ext (fun x : R * R => snd x - fst x) (fun x => -1 * (fst x - snd x) + 0)) by (intros; ring). rewrite <- (map_map (fun x : R * R => fst x - snd x) (fun v => -1 * v + 0)). rewrite var_affine by (destruct d; [cbn in L; lia|discriminate]). ring. }
  rewrite W. f_equal. f_equal; ring.
Qed.
Theorem C113_bias_units t_ppf d b alpha k c c' : (1 < List.length d)%nat -> k <> 0 ->
  bias_ci t_ppf (map (fun p => (k * fst p + c, k * snd p + c')) d) (k * b + (c - c')) alpha =
  omap (fun i => let g v := k * v + (c - c') in if Rlt_dec 0 k then (g (fst i), g (snd i)) else (g (snd i), g (fst i))) (bias_ci t_ppf d b alpha).
Proof.
  intros L K. rewrite !bias_ci_value by (rewrite ?map_length; exact L). cbn [omap fst snd].
  assert (NE : map (fun p : R * R => fst p - snd p) d <> []) by (destruct d; [cbn in L; lia|discriminate]).
  assert (RP : 1 < rlen d) by (apply (lt_INR 1); exact L).
  assert (W : half_width t_ppf (map (fun p => (k * fst p + c, k * snd p + c')) d) alpha = Rabs k * half_width t_ppf d alpha).
  { unfold half_width. rewrite !rlen_map, !map_length, !map_map. cbn [fst snd].
    rewrite (map_ext (fun x : R * R => k * fst x + c - (k * snd x + c')) (fun x => k * (fst x - snd x) + (c - c'))) by (intros; ring).
    rewrite <- (map_map (fun x : R * R => fst x - snd x) (fun v => k * v + (c - c'))). rewrite var_affine by exact NE. set (v := var _). assert (V : 0 <= v) by apply var_nonneg.
    replace (rlen d / (rlen d - 1) * (k * k * v)) with (Rsqr k * (rlen d / (rlen d - 1) * v)) by (unfold Rsqr; ring).
    rewrite (sqrt_mult (Rsqr k)) by (first [apply Rle_0_sqr | apply Rmult_le_pos; [apply Rmult_le_pos; [lra|left; apply Rinv_0_lt_compat; lra]|exact V]]). rewrite sqrt_Rsqr_abs. unfold Rdiv. ring. }
  rewrite W. destruct (Rlt_dec 0 k); [rewrite Rabs_right by lra|rewrite Rabs_left by lra]; f_equal; f_equal; ring.
Qed.
Theorem C113_bootstrap_units ppf cdf k c metric metric' x y x' y' alpha method minimum draws :
  k <> 0 -> List.length x = List.length y -> same_metric k c metric metric' x y x' y' -> Forall (draw_of (List.length x)) draws -> (method = "BCa"%string -> 0 < k) ->
  with_bootstrapped_ci ppf cdf (fun v => v) metric' x' y' alpha method minimum draws =
  mapR (moved k c) (with_bootstrapped_ci ppf cdf (fun v => v) metric x y alpha method minimum draws).
Proof. exact (boot_moved ppf cdf k c metric metric' x y x' y' alpha method minimum draws). Qed.

(* ---- Kendall's tau: the interval is less than two thirds as wide as in the cited reference ---- *)
Theorem C113_kendall_refuted ppf n tau alpha : (4 < n)%nat -> -1 < tau < 1 -> 0 < ppf (1 - alpha / 2) ->
  let w := bonett_wright_kendall (ppf (1 - alpha / 2)) n in
  exists lo up, kendall_tau_ci ppf n tau alpha = (Some lo, Some up) /\
    tanh (arctanh tau - 2 / 3 * w) < lo /\ up < tanh (arctanh tau + 2 / 3 * w).
Proof.
  intros N H Q w. unfold kendall_tau_ci. rewrite fisher_fin by (try exact H; lia). eexists _, _. split; [reflexivity|]. unfold fisher. cbn [fst snd].
  set (q := ppf (1 - alpha / 2)) in *. assert (N4 : 1 <= INR n - 4) by (apply le_INR in N; cbn in N; lra).
  assert (D : q * (431 / 1000) / sqrt (INR n - 3) < 2 / 3 * w).
  { unfold w, bonett_wright_kendall. set (s := sqrt (INR n - 3)). assert (SP : 0 < s) by (apply sqrt_lt_R0; lra).
    assert (G : 431 / 1000 / s < 2 / 3 * sqrt (437 / 1000 / (INR n - 4))).
    { assert (E1 : 2 / 3 * sqrt (437 / 1000 / (INR n - 4)) = sqrt (4 / 9 * (437 / 1000 / (INR n - 4)))).
      { rewrite sqrt_mult by (first [lra | left; apply Rmult_lt_0_compat; [lra|apply Rinv_0_lt_compat; lra]]). f_equal. replace (4 / 9) with (Rsqr (2 / 3)) by (unfold Rsqr; field). symmetry. apply sqrt_Rsqr. lra. }
      assert (E2 : 431 / 1000 / s = sqrt (431 / 1000 * (431 / 1000) / (INR n - 3))).
      { unfold s. rewrite sqrt_div by (try lra; apply Rle_0_sqr || nra). f_equal. symmetry. apply sqrt_Rsqr. lra. }
      rewrite E1, E2. apply sqrt_lt_1_alt. split; [apply Rmult_le_pos; [lra|left; apply Rinv_0_lt_compat; lra]|].
      apply Rlt_le_trans with (4 / 9 * (437 / 1000 / (INR n - 3))).
      - unfold Rdiv. rewrite <- !Rmult_assoc. apply Rmult_lt_compat_r; [apply Rinv_0_lt_compat; lra|lra].
      - apply Rmult_le_compat_l; [lra|]. apply Rmult_le_compat_l; [lra|]. apply Rinv_le_contravar; lra. }
    replace (q * (431 / 1000) / s) with (q * (431 / 1000 / s)) by (unfold Rdiv; ring). replace (2 / 3 * (q * sqrt (437 / 1000 / (INR n - 4)))) with (q * (2 / 3 * sqrt (437 / 1000 / (INR n - 4)))) by ring.
    apply Rmult_lt_compat_l; assumption. }
  split; apply tanh_incr; lra.
Qed.

Print Assumptions C113_correlations_nested.
Print Assumptions C113_BCa_nested.
Print Assumptions C113_bootstrap_units.
Print Assumptions C113_kendall_refuted.

(* ---- examples ---- *)
(* quantiles of a symmetric distribution *)
Example C113_ex_quantiles : symmetric_quantiles (fun p => 2 * p - 1) /\ 0 < 2 * (1 - (5 / 100) / 2) - 1.
Proof. split; [split; [intros; lra|lra]|lra]. Qed.
Example C113_ex_chi2 : forall p q, 0 < p -> p <= q -> q < 1 -> 0 < p * 3 <= q * 3.
Proof. intros. lra. Qed.
(* the mean difference of resampled series, in other units and with the series exchanged *)
Definition mean_difference (x y : list R) : option R := omap (fun s => s / rlen x) (match x with [] => None | _ => Some (rsum (map2 Rminus x y)) end).
Lemma sum_units k c x y : List.length x = List.length y -> rsum (map2 Rminus (map (fun v => k * v + c) x) (map (fun v => k * v) y)) = k * rsum (map2 Rminus x y) + c * rlen x.
Proof.
  revert y. induction x as [|a x IH]; intros [|b y] L; try discriminate; [unfold rlen; cbn; ring|]. cbn [map map2 rsum]. rewrite IH by (cbn in L; lia). rewrite rlen_cons. ring.
Qed.
Example C113_ex_units k c x y : k <> 0 -> List.length x = List.length y ->
  same_metric k c mean_difference mean_difference x y (map (fun v => k * v + c) x) (map (fun v => k * v) y).
Proof.
  intros K L. split; [apply map_length|]. split; [apply map_length|]. intros idx F.
  assert (E1 : map (fun i => nth i (map (fun v => k * v + c) x) 0) idx = map (fun v => k * v + c) (map (fun i => nth i x 0) idx)).
  { rewrite map_map. apply map_ext_in. intros i I. rewrite Forall_forall in F. rewrite (nth_indep _ 0 (k * 0 + c)) by (rewrite map_length; apply F, I). apply (map_nth (fun v => k * v + c)). }
  assert (E2 : map (fun i => nth i (map (fun v => k * v) y) 0) idx = map (fun v => k * v) (map (fun i => nth i y 0) idx)).
  { rewrite map_map. apply map_ext_in. intros i I. rewrite Forall_forall in F. rewrite (nth_indep _ 0 (k * 0)) by (rewrite map_length, <- L; apply F, I). apply (map_nth (fun v => k * v)). }
  rewrite E1, E2. set (a := map (fun i => nth i x 0) idx). set (b := map (fun i => nth i y 0) idx). assert (LAB : List.length a = List.length b) by (unfold a, b; rewrite !map_length; reflexivity).
  unfold mean_difference. destruct a as [|a0 a1] eqn:EA; [reflexivity|]. rewrite <- EA in *. assert (NE : a <> []) by (rewrite EA; discriminate). assert (M : map (fun v => k * v + c) a = (k * a0 + c) :: map (fun v => k * v + c) a1) by (rewrite EA; reflexivity).
  rewrite M. cbv beta iota. rewrite <- M, rlen_map. unfold omap. f_equal. rewrite sum_units by exact LAB. rewrite EA. cbv beta iota. rewrite <- EA. assert (rlen a <> 0) by (apply rlen_ne, NE). field. assumption.
Qed.
(* BCa with two bootstrapped values, one of them below the estimate *)
Example C113_ex_BCa : exists ppf cdf bs m jk p z0 a zl zu wl wu, (forall u v, u <= v -> cdf u <= cdf v) /\ (forall u, 0 <= cdf u <= 1) /\ vals bs <> [] /\
  share_not_above bs m = Some p /\ ppf p = Some z0 /\ acceleration jk = Some a /\
  ppf (1 / 10) = Some zl /\ ppf (1 - 1 / 10) = Some zu /\ ppf (1 / 20) = Some wl /\ ppf (1 - 1 / 20) = Some wu /\ wl <= zl /\ zl <= zu /\ zu <= wu /\ Rabs (z0 + wl) < 6 /\ Rabs (z0 + wu) < 6.
Proof.
  exists (fun p => Some (2 * p - 1)), (fun z => if Rle_dec z (-1) then 0 else if Rle_dec 1 z then 1 else (z + 1) / 2), [Some 1; Some 4], (Some 2), [Some 1; Some 3], (1 / 2), 0.
  assert (A : exists a, acceleration [Some 1; Some 3] = Some a).
  { unfold acceleration. cbn [all_some omap obind]. unfold np_mean. rewrite fdiv_some by (unfold rlen; cbn; lra). cbn [obind]. set (jm := rsum [1; 3] / rlen [1; 3]). assert (J : jm = 2) by (unfold jm, rlen; cbn; field). rewrite J. cbn [map rsum].
    replace ((2 - 1) ^ 2 + ((2 - 3) ^ 2 + 0)) with 2 by ring. rewrite fdiv_some; [eexists; reflexivity|]. pose proof (sqrt_lt_R0 2 ltac:(lra)). lra. }
  destruct A as (a & A). exists a. eexists _, _, _, _.
  split; [intros u v H; repeat destruct (Rle_dec _ _); lra|]. split; [intros u; repeat destruct (Rle_dec _ _); lra|]. split; [discriminate|].
  split. { unfold share_not_above, np_mean. cbn [map not_above]. destruct (Rle_dec 1 2); [|lra]. destruct (Rle_dec 4 2); [lra|]. rewrite fdiv_some by (unfold rlen; cbn; lra). f_equal. unfold rlen. cbn. field. }
  split; [f_equal; lra|]. split; [exact A|]. split; [reflexivity|]. split; [reflexivity|]. split; [reflexivity|]. split; [reflexivity|]. repeat (split; [first [lra|apply Rabs_def1; lra]|]). apply Rabs_def1; lra.
Qed.
