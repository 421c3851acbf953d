(* C55, C56, C65: confidence intervals. *)
From Coq Require Import Reals List Lra Lia Psatz.
From Verif Require Import Base BaseProofs RStats RStatsProofs MetricsModel MetricsSpec MetricsProofs MetricsProofs2
  TcolModel ConfintModel ConfintSpec ConfintProofs ConfintProofs2.
Open Scope R_scope.

(* ---- C55 ---- *)
(* Too little data is refused, whatever the method and the draws. *)
Theorem C55_too_few_refused ppf cdf store metric x y alpha method minimum draws : (List.length x < minimum)%nat ->
  with_bootstrapped_ci ppf cdf store metric x y alpha method minimum draws = Err EValue.
Proof. exact (boot_few ppf cdf store metric x y alpha method minimum draws). Qed.

(* Percentile intervals: every bootstrap sample consists of as many observed pairs as there are
   observations; the bounds are the alpha/2 and 1 - alpha/2 quantiles of the metric over these samples
   (NaN values left out), they are ordered, and they lie within the range of the bootstrapped values. *)
Theorem C55_percentile ppf cdf store metric x y alpha minimum draws :
  x <> [] -> List.length x = List.length y -> (minimum <= List.length x)%nat -> 0 <= alpha <= 1 ->
  Forall (draw_of (List.length x)) draws ->
  exists samples, List.length samples = List.length draws /\ Forall (resample_of x y) samples /\
    let v := vals (map (fun s => metric (fst s) (snd s)) samples) in
    (v = [] -> with_bootstrapped_ci ppf cdf store metric x y alpha "percentile" minimum draws = Ok (metric x y, None, None)) /\
    (v <> [] -> exists lo up, with_bootstrapped_ci ppf cdf store metric x y alpha "percentile" minimum draws =
        Ok (metric x y, Some lo, Some up) /\
      linear_quantile v (alpha / 2) lo /\ linear_quantile v (1 - alpha / 2) up /\ lo <= up /\
      exists a b, In a v /\ In b v /\ a <= lo /\ up <= b).
Proof. exact (boot_percentile ppf cdf store metric x y alpha minimum draws). Qed.

(* Basic intervals: the percentile interval mirrored at the estimate, hence ordered. *)
Theorem C55_basic ppf cdf store metric x y alpha minimum draws :
  x <> [] -> List.length x = List.length y -> (minimum <= List.length x)%nat -> 0 <= alpha <= 1 ->
  Forall (draw_of (List.length x)) draws ->
  exists samples, List.length samples = List.length draws /\ Forall (resample_of x y) samples /\
    forall m, metric x y = Some m ->
    let v := vals (map (fun s => metric (fst s) (snd s)) samples) in
    v <> [] -> exists lo up, with_bootstrapped_ci ppf cdf store metric x y alpha "basic" minimum draws =
        Ok (Some m, Some lo, Some up) /\
      linear_quantile v (1 - alpha / 2) (2 * m - lo) /\ linear_quantile v (alpha / 2) (2 * m - up) /\ lo <= up.
Proof. exact (boot_basic ppf cdf store metric x y alpha minimum draws). Qed.

(* The linear quantile is determined by the values and the level. *)
Theorem C55_quantile_unique l q u v : linear_quantile l q u -> linear_quantile l q v -> u = v.
Proof. exact (linear_quantile_unique l q u v). Qed.

Theorem C55_unknown_method ppf cdf store metric x y alpha method minimum draws :
  x <> [] -> (minimum <= List.length x)%nat ->
  method <> "percentile"%string -> method <> "basic"%string -> method <> "BCa"%string ->
  with_bootstrapped_ci ppf cdf store metric x y alpha method minimum draws = Err EOther.
Proof. exact (boot_unknown ppf cdf store metric x y alpha method minimum draws). Qed.

(* Triple collocation: every interval is the percentile interval of its own dataset over jointly drawn
   samples; the scaling parameter of the reference has the interval [1, 1]. *)
Theorem C55_triple_collocation_percentile ppf cdf rows ref alpha garbage minimum draws :
  rows <> [] -> (ref < 3)%nat -> (minimum <= List.length rows)%nat -> 0 <= alpha <= 1 ->
  exists r, tcol_with_bootstrapped_ci ppf cdf rows ref alpha "percentile" garbage minimum draws = Ok r /\
    List.length r = 3%nat /\
    forall k i, (k < 3)%nat -> (i < 3)%nat ->
      let v := vals (map (fun idx => nth i (component k (tc_of (take_rows rows idx) ref)) None) draws) in
      fst (nth k r ([], [])) = component k (tc_of rows ref) /\
      nth i (snd (nth k r ([], []))) (None, None) =
        (if andb (Nat.eqb k 2) (Nat.eqb i ref) then (Some 1, Some 1)
         else match v with [] => (None, None) | _ => (Some (quantile v (alpha / 2)), Some (quantile v (1 - alpha / 2))) end).
Proof. exact (tcol_percentile ppf cdf rows ref alpha garbage minimum draws). Qed.

(* a concrete run: two observations, both samples that draw one of them twice, the mean difference *)
Definition diff_metric (x y : list R) : option R := bias (combine x y).
Definition ex_draws : list (list nat) := [[0; 0]; [1; 1]]%nat.
Lemma quantile_two q : 0 <= q < 1 -> quantile [0; 1] q = q.
Proof.
  intros Q. apply (linear_quantile_unique [0; 1] q); [apply quantile_linear; [discriminate|lra]|].
  assert (SS : StronglySorted Rle [0; 1]) by (repeat constructor; lra).
  exists 0%nat, 0, 1. split; [|split; [left|]].
  - exists [0; 1]. split; [reflexivity|]. split; [exact SS|reflexivity].
  - exists [0; 1]. split; [reflexivity|]. split; [exact SS|reflexivity].
  - unfold rlen. cbn. split; lra.
Qed.
Lemma ex_boot : map (fun s => diff_metric (fst s) (snd s)) (samples [0; 1] [0; 0] ex_draws) = [Some 0; Some 1] /\
  diff_metric [0; 1] [0; 0] = Some (1 / 2).
Proof.
  unfold samples, ex_draws, diff_metric, take, bias, rlen. cbn. split.
  - rewrite !fdiv_some by lra. f_equal; [f_equal; field|f_equal; f_equal; field].
  - rewrite fdiv_some by lra. f_equal. field.
Qed.
Example C55_example ppf cdf store : Forall (draw_of 2) ex_draws /\
  with_bootstrapped_ci ppf cdf store diff_metric [0; 1] [0; 0] (1 / 4) "percentile" 2 ex_draws =
  Ok (Some (1 / 2), Some (1 / 8), Some (7 / 8)).
Proof.
  split; [repeat constructor|].
  rewrite boot_run by (try discriminate; cbn; lia). destruct ex_boot as [E1 E2]. cbv zeta. rewrite E1, E2.
  cbn [String.eqb Ascii.eqb Bool.eqb]. rewrite percentile_ok by (try discriminate; lra). cbn [vals mapR fst snd].
  replace (1 / 4 / 2) with (1 / 8) by field. replace (1 - 1 / 8) with (7 / 8) by field.
  rewrite !quantile_two by lra. reflexivity.
Qed.

(* ---- C65 ---- *)
(* the normal distribution as far as it matters here *)
Definition normal_like (ppf : R -> option R) (cdf : R -> R) : Prop :=
  (forall p, 0 < p < 1 -> exists z, ppf p = Some z /\ cdf z = p) /\ ppf (1 / 2) = Some 0 /\
  (forall u v, u < v -> cdf u < cdf v) /\ (forall z, 0 < cdf z < 1).
Example normal_like_exists : exists ppf cdf, normal_like ppf cdf.
Proof.
  exists (fun p => Some (arctanh (2 * p - 1))), (fun z => (tanh z + 1) / 2). split; [|split; [|split]].
  - intros p P. eexists. split; [reflexivity|]. rewrite tanh_arctanh by lra. field.
  - f_equal. unfold arctanh. replace (1 + (2 * (1 / 2) - 1)) with 1 by field. replace (1 - (2 * (1 / 2) - 1)) with 1 by field.
    replace (1 / 1) with 1 by field. rewrite ln_1. field.
  - intros u v L. pose proof (tanh_incr u v L). lra.
  - intros z. pose proof (tanh_bound z). lra.
Qed.

(* Without bias correction and acceleration, BCa returns the percentile interval of twice the alpha. *)
Theorem C65_partial ppf cdf bs m alpha jk : normal_like ppf cdf -> 0 < alpha < 1 -> vals bs <> [] ->
  share_not_above bs m = Some (1 / 2) -> acceleration jk = Some 0 ->
  BCa_bs_ci ppf cdf bs m alpha jk = percentile_bs_ci bs m (2 * alpha).
Proof. intros (I & M & _) A V S0 AC. exact (bca_double ppf cdf I M bs m alpha jk A V S0 AC). Qed.

Lemma ex_share : share_not_above [Some 0; Some 1] (Some (1 / 2)) = Some (1 / 2).
Proof.
  unfold share_not_above, np_mean, rlen. cbn. destruct (Rle_dec 0 (1 / 2)); [|lra]. destruct (Rle_dec 1 (1 / 2)); [lra|].
  rewrite fdiv_some by lra. f_equal. field.
Qed.
Lemma ex_accel a b : a <> b -> acceleration [Some a; Some b] = Some 0.
Proof.
  intros D. unfold acceleration, np_mean, rlen. cbn [all_some omap obind List.length map rsum INR].
  rewrite fdiv_some by lra. cbn [obind].
  set (s2 := (_ ^ 2 + _)). assert (S2 : 0 < s2).
  { unfold s2. replace ((a + (b + 0)) / (1 + 1) - a) with ((b - a) / 2) by field.
    replace ((a + (b + 0)) / (1 + 1) - b) with (- ((b - a) / 2)) by field.
    assert (0 < (b - a) * (b - a)) by (destruct (Rtotal_order a b) as [L|[E|G]]; [nra|congruence|nra]). nra. }
  rewrite fdiv_some.
  - f_equal. replace ((a + (b + 0)) / (1 + 1) - a) with ((b - a) / 2) by field.
    replace ((a + (b + 0)) / (1 + 1) - b) with (- ((b - a) / 2)) by field. unfold Rdiv. ring.
  - pose proof (sqrt_lt_R0 s2 S2). nra.
Qed.
Lemma ex_jack : jackknife (fun o => o) diff_metric [0; 1] [0; 0] = [Some 1; Some 0].
Proof.
  unfold jackknife, diff_metric, bias, rlen, leave_out. cbn. rewrite !fdiv_some by lra.
  f_equal; [f_equal; field|f_equal; f_equal; field].
Qed.

(* So it is not the percentile interval at the same alpha: with floating point data, the estimate at the
   median of the bootstrapped values and a vanishing acceleration, the two methods disagree. *)
Theorem C65_refuted : exists metric x y alpha draws m jk, 0 < alpha < 1 /\ Forall (draw_of (List.length x)) draws /\
  metric x y = Some m /\ jackknife (fun o => o) metric x y = jk /\ acceleration jk = Some 0 /\
  share_not_above (map (fun s => metric (fst s) (snd s)) (samples x y draws)) (Some m) = Some (1 / 2) /\
  forall ppf cdf, normal_like ppf cdf ->
    with_bootstrapped_ci ppf cdf (fun o => o) metric x y alpha "BCa" (List.length x) draws <>
    with_bootstrapped_ci ppf cdf (fun o => o) metric x y alpha "percentile" (List.length x) draws.
Proof.
  destruct ex_boot as [E1 E2].
  exists diff_metric, [0; 1], [0; 0], (1 / 4), ex_draws, (1 / 2), [Some 1; Some 0].
  split; [lra|]. split; [repeat constructor|]. split; [exact E2|]. split; [exact ex_jack|].
  split; [apply ex_accel; lra|]. rewrite E1. split; [exact ex_share|].
  intros ppf cdf (I & M & _). cbn [List.length].
  rewrite (proj2 (C55_example ppf cdf (fun o => o))).
  rewrite boot_run by (try discriminate; cbn; lia). cbv zeta. rewrite E1, E2, ex_jack.
  cbn [String.eqb Ascii.eqb Bool.eqb].
  rewrite (bca_plain ppf cdf I M) by first [lra|discriminate|apply ex_share|apply ex_accel; lra].
  cbn [vals mapR fst snd]. rewrite !quantile_two by lra. intros H. assert (1 / 4 = 1 / 8) by congruence. lra.
Qed.

(* If no bootstrapped value lies above the estimate (for example when they are all equal), or all do,
   there is no BCa interval: the call raises. *)
Theorem C65_one_sided ppf cdf bs m alpha jk : ppf 0 = None -> ppf 1 = None -> bs <> [] ->
  (forall b, In b bs -> exists v, b = Some v /\ v <= m) \/ (forall b, In b bs -> exists v, b = Some v /\ m < v) ->
  BCa_bs_ci ppf cdf bs (Some m) alpha jk = Err EValue.
Proof. exact (bca_one_sided ppf cdf bs m alpha jk). Qed.
Example C65_one_sided_example : forall b, In b [Some 2; Some 2; Some 2] -> exists v, b = Some v /\ v <= 2.
Proof. intros b [<-|[<-|[<-|[]]]]; (exists 2; split; [reflexivity|lra]). Qed.

(* The BCa interval of one dataset of a triple collocation depends on the jackknife values of the other
   two: the same bootstrapped values, estimate and own jackknife values give different intervals. *)
Theorem C65_own_dataset_refuted : exists bs orig jk jk' alpha,
  map (fun t => nth 0%nat t None) jk = map (fun t => nth 0%nat t None) jk' /\ 0 < alpha < 1 /\
  forall ppf cdf garbage, normal_like ppf cdf ->
    tcol_interval ppf cdf "BCa" garbage bs orig jk alpha 0 <> tcol_interval ppf cdf "BCa" garbage bs orig jk' alpha 0.
Proof.
  exists [[Some 0; None; None]; [Some 1; None; None]], [Some (1 / 2); None; None],
    [[Some 0; Some 0; Some 0]; [Some 1; Some 1; Some 1]], [[Some 0; Some 0; Some 0]; [Some 1; Some 10; Some 0]], (1 / 4).
  split; [reflexivity|]. split; [lra|]. intros ppf cdf garbage (I & M & MONO & RNG).
  unfold tcol_interval. cbn [String.eqb Ascii.eqb Bool.eqb map nth List.concat app].
  assert (A0 : acceleration [Some 0; Some 0; Some 0; Some 1; Some 1; Some 1] = Some 0).
  { unfold acceleration, np_mean, rlen. cbn [all_some omap obind List.length map rsum INR].
    rewrite fdiv_some by lra. cbn [obind]. rewrite fdiv_some.
    - f_equal. match goal with |- ?n / ?d = 0 => replace n with 0 by field; unfold Rdiv; ring end.
    - apply Rgt_not_eq. apply Rmult_lt_0_compat; [lra|]. apply Rmult_lt_0_compat; [|apply sqrt_lt_R0]; lra. }
  assert (A1 : exists a, a <> 0 /\ acceleration [Some 0; Some 0; Some 0; Some 1; Some 10; Some 0] = Some a).
  { unfold acceleration, np_mean, rlen. cbn [all_some omap obind List.length map rsum INR].
    rewrite fdiv_some by lra. cbn [obind].
    match goal with |- context [6 * (?s * sqrt ?s)] => assert (P : 0 < 6 * (s * sqrt s))
      by (apply Rmult_lt_0_compat; [lra|]; apply Rmult_lt_0_compat; [|apply sqrt_lt_R0]; lra) end.
    rewrite fdiv_some by lra. eexists. split; [|reflexivity].
    apply Rmult_integral_contrapositive. split; [lra|apply Rinv_neq_0_compat; lra]. }
  destruct A1 as (a & NZ & A1).
  rewrite (bca_plain ppf cdf I M) by first [lra|discriminate|apply ex_share|exact A0].
  cbn [vals]. rewrite !quantile_two by lra.
  unfold BCa_bs_ci. rewrite ex_share, A1. cbn [obind omap]. rewrite M. cbn [obind omap].
  destruct (I (1 / 4) ltac:(lra)) as (z & EZ & CZ). destruct (I (1 - 1 / 4) ltac:(lra)) as (z' & EZ' & CZ').
  rewrite EZ, EZ'. cbn [omap].
  assert (C0 : cdf 0 = 1 / 2). { destruct (I (1 / 2) ltac:(lra)) as (w & EW & CW). rewrite M in EW. congruence. }
  assert (ZN : z < 0). { destruct (Rlt_le_dec z 0) as [L|[L|E]]; [exact L| |]; [pose proof (MONO 0 z L); lra|subst z; lra]. }
  assert (RA : forall t, 0 <= adjusted cdf 0 a t <= 1).
  { intros t. unfold adjusted. destruct (Req_EM_T _ 0); [destruct (Rlt_dec _ _); lra|].
    match goal with |- context [cdf ?u] => pose proof (RNG u); lra end. }
  assert (LV : adjusted cdf 0 a z <> 1 / 4 /\ adjusted cdf 0 a z < 1).
  { unfold adjusted. destruct (Req_EM_T _ 0) as [E|D]; [destruct (Rlt_dec 0 (0 + z)); split; lra|].
    match goal with |- cdf ?u <> _ /\ _ => pose proof (RNG u) as RU; set (w := u) in *; assert (EW : w * (1 - a * z) = z)
      by (unfold w; replace (0 + z) with z in * by ring; field; replace (0 + z) with z in D by ring; exact D) end.
    split; [|lra]. intros EQ.
    assert (w = z). { destruct (Rtotal_order w z) as [L|[E|G]]; [pose proof (MONO _ _ L); lra|exact E|pose proof (MONO _ _ G); lra]. }
    rewrite H in EW. assert (a * z * z = 0) by nra. apply Rmult_integral in H0. destruct H0 as [H0|H0]; [|lra].
    apply Rmult_integral in H0. destruct H0; lra. }
  rewrite !nanquantile_ok by (try discriminate; apply RA). cbn [vals bind2 bindR]. rewrite (quantile_two (adjusted cdf 0 a z))
    by (split; [apply RA|apply LV]). intros H. destruct LV as [LV _]. apply LV. congruence.
Qed.

(* ---- C56 ---- *)
(* Correlation intervals: with more than three observations, a correlation strictly between -1 and 1 and
   a non-negative normal quantile z they are finite, contain the estimate and stay strictly inside
   (-1, 1); with more observations they shrink; their distance from the estimate is at most
   c z / sqrt (n - 3) and so falls below every positive bound. *)
Definition correlation_ci_good (ci : nat -> R -> R -> option R * option R) (alpha r : R) : Prop :=
  (forall n, (3 < n)%nat -> exists lo up, ci n r alpha = (Some lo, Some up) /\
     lo <= r <= up /\ -1 < lo /\ up < 1) /\
  (forall n1 n2 lo1 up1 lo2 up2, (3 < n1)%nat -> (n1 <= n2)%nat -> ci n1 r alpha = (Some lo1, Some up1) ->
     ci n2 r alpha = (Some lo2, Some up2) -> lo1 <= lo2 /\ up2 <= up1) /\
  (forall eps, 0 < eps -> exists n0, forall n lo up, (n0 <= n)%nat -> ci n r alpha = (Some lo, Some up) ->
     r - eps <= lo /\ up <= r + eps).

Lemma fisher_good (q : R -> R -> R) alpha r : -1 < r < 1 -> 0 <= q r alpha ->
  correlation_ci_good (fun n r alpha => fisher_ci r (q r alpha) n) alpha r.
Proof.
  intros H Q. split; [|split].
  - intros n N. exists (fst (fisher r (q r alpha) n)), (snd (fisher r (q r alpha) n)).
    split; [apply fisher_fin; assumption|]. exact (fisher_encloses r _ n H Q N).
  - intros n1 n2 lo1 up1 lo2 up2 N L E1 E2. rewrite fisher_fin in E1, E2 by (try assumption; lia).
    pose proof (fisher_shrinks r _ n1 n2 Q N L) as [A B]. split; congruence.
  - intros eps EP. destruct (delta_vanishes (q r alpha) eps Q EP) as (n0 & N0 & D). exists n0.
    intros n lo up L E. assert (N : (3 < n)%nat) by lia. rewrite fisher_fin in E by assumption.
    pose proof (fisher_width r _ n H Q N) as [A B]. specialize (D n L).
    assert (lo = fst (fisher r (q r alpha) n)) by congruence. assert (up = snd (fisher r (q r alpha) n)) by congruence.
    subst. lra.
Qed.

Theorem C56_pearson norm_ppf alpha r : -1 < r < 1 -> 0 <= norm_ppf (1 - alpha / 2) ->
  correlation_ci_good (pearson_r_ci norm_ppf) alpha r.
Proof. exact (fisher_good (fun r alpha => norm_ppf (1 - alpha / 2)) alpha r). Qed.
Theorem C56_spearman norm_ppf alpha r : -1 < r < 1 -> 0 <= norm_ppf (1 - alpha / 2) ->
  correlation_ci_good (spearman_r_ci norm_ppf) alpha r.
Proof.
  intros H Q. refine (fisher_good (fun r alpha => norm_ppf (1 - alpha / 2) * sqrt (1 + r ^ 2 / 2)) alpha r H _).
  apply Rmult_le_pos; [exact Q|apply sqrt_pos].
Qed.
Theorem C56_kendall norm_ppf alpha tau : -1 < tau < 1 -> 0 <= norm_ppf (1 - alpha / 2) ->
  correlation_ci_good (kendall_tau_ci norm_ppf) alpha tau.
Proof.
  intros H Q. refine (fisher_good (fun r alpha => norm_ppf (1 - alpha / 2) * (431 / 1000)) alpha tau H _).
  apply Rmult_le_pos; [exact Q|lra].
Qed.
(* Perfect correlation, and few observations. *)
Theorem C56_perfect_correlation norm_ppf n alpha : (3 < n)%nat ->
  pearson_r_ci norm_ppf n 1 alpha = (Some 1, Some 1) /\ pearson_r_ci norm_ppf n (-1) alpha = (Some (-1), Some (-1)).
Proof. intros N. exact (conj (fisher_one _ n N) (fisher_minus_one _ n N)). Qed.
Theorem C56_few_observations norm_ppf r alpha : -1 < r < 1 -> 0 < norm_ppf (1 - alpha / 2) ->
  pearson_r_ci norm_ppf 3 r alpha = (Some (-1), Some 1) /\
  forall n, (n < 3)%nat -> pearson_r_ci norm_ppf n r alpha = (None, None).
Proof. intros H Q. exact (conj (fisher_three r _ H Q) (fun n => fisher_few r _ n)). Qed.
(* The deprecated function at c percent is the interval at alpha = 1 - c / 100. *)
Theorem C56_deprecated_pearson_conf norm_ppf r n c : -1 < r < 1 -> (3 < n)%nat ->
  pearson_conf norm_ppf r n c = pearson_r_ci norm_ppf n r (1 - c / 100).
Proof.
  intros H N. unfold pearson_conf, pearson_r_ci, fisher_ci. rewrite !over_sqrt_fin, e_arctanh_fin by assumption.
  set (q := norm_ppf _). replace (q / sqrt (INR n - 3)) with (1 / sqrt (INR n - 3) * q) by (unfold Rdiv; ring).
  reflexivity.
Qed.

(* Bias: with at least two observations the interval contains the estimate; at the same dispersion and
   with more observations it shrinks (the t quantile does not grow with the degrees of freedom); and for
   bounded dispersion and quantiles its half width falls below every positive bound. *)
Theorem C56_bias_contains t_ppf d b alpha : (1 < List.length d)%nat -> 0 <= t_ppf (1 - alpha / 2) (List.length d - 1)%nat ->
  exists lo up, bias_ci t_ppf d b alpha = Some (lo, up) /\ lo <= b <= up.
Proof.
  intros L T. rewrite bias_ci_value by exact L. eexists _, _. split; [reflexivity|].
  pose proof (half_width_nonneg t_ppf d alpha L T). lra.
Qed.
Theorem C56_bias_shrinks t_ppf d1 d2 b alpha lo1 up1 lo2 up2 :
  (1 < List.length d1)%nat -> (List.length d1 <= List.length d2)%nat ->
  var (map (fun p => fst p - snd p) d2) = var (map (fun p => fst p - snd p) d1) ->
  0 <= t_ppf (1 - alpha / 2) (List.length d2 - 1)%nat <= t_ppf (1 - alpha / 2) (List.length d1 - 1)%nat ->
  bias_ci t_ppf d1 b alpha = Some (lo1, up1) -> bias_ci t_ppf d2 b alpha = Some (lo2, up2) ->
  lo1 <= lo2 /\ up2 <= up1.
Proof.
  intros L1 L2 V T E1 E2. rewrite bias_ci_value in E1, E2 by lia.
  pose proof (half_width_shrinks t_ppf d1 d2 alpha L1 L2 V T) as W.
  assert (lo1 = b - half_width t_ppf d1 alpha) by congruence. assert (up1 = b + half_width t_ppf d1 alpha) by congruence.
  assert (lo2 = b - half_width t_ppf d2 alpha) by congruence. assert (up2 = b + half_width t_ppf d2 alpha) by congruence.
  subst. lra.
Qed.
Theorem C56_bias_converges t_ppf alpha V T eps : 0 <= V -> 0 <= T -> 0 < eps ->
  exists n0, forall d b lo up, (n0 <= List.length d)%nat -> var (map (fun p => fst p - snd p) d) <= V ->
    0 <= t_ppf (1 - alpha / 2) (List.length d - 1)%nat <= T -> bias_ci t_ppf d b alpha = Some (lo, up) ->
    b - eps <= lo /\ up <= b + eps.
Proof.
  intros VP TP EP. destruct (delta_vanishes (T * sqrt V) eps ltac:(apply Rmult_le_pos; [exact TP|apply sqrt_pos]) EP) as (n0 & N0 & D).
  exists n0. intros d b lo up L VB TB E. assert (L2 : (1 < List.length d)%nat) by lia.
  rewrite bias_ci_value in E by exact L2.
  assert (N1 : 1 < rlen d) by (apply (lt_INR 1); exact L2).
  assert (HW : half_width t_ppf d alpha <= eps).
  { specialize (D (List.length d + 2)%nat ltac:(lia)). unfold half_width.
    rewrite <- sqrt_div_alt by lra. set (v := var _) in *. assert (0 <= v) by apply var_nonneg.
    replace (rlen d / (rlen d - 1) * v / rlen d) with (v / (rlen d - 1)) by (field; lra).
    assert (EN : INR (List.length d + 2) - 3 = rlen d - 1) by (unfold rlen; rewrite plus_INR; cbn; ring).
    rewrite EN in D. rewrite sqrt_div_alt by lra. eapply Rle_trans; [|exact D].
    assert (SP : 0 < sqrt (rlen d - 1)) by (apply sqrt_lt_R0; lra).
    replace (T * sqrt V / sqrt (rlen d - 1)) with (sqrt V / sqrt (rlen d - 1) * T) by (unfold Rdiv; ring).
    assert (IP : 0 <= / sqrt (rlen d - 1)) by (left; apply Rinv_0_lt_compat, SP).
    apply Rmult_le_compat; [apply Rmult_le_pos; [apply sqrt_pos|exact IP]|apply TB| |apply TB].
    apply Rmult_le_compat_r; [exact IP|]. apply sqrt_le_1; lra. }
  assert (lo = b - half_width t_ppf d alpha) by congruence. assert (up = b + half_width t_ppf d alpha) by congruence. subst. lra.
Qed.
(* The interval from the one-pass moments is the one from the data. *)
Theorem C56_bias_from_moments t_ppf d alpha m b : (1 < List.length d)%nat -> moments_welford d = Some m ->
  bias d = Some b -> bias_ci_from_moments t_ppf alpha m (List.length d) = bias_ci t_ppf d b alpha.
Proof. exact (bias_ci_moments t_ppf d alpha m b). Qed.

(* ubRMSD: with positive and ordered chi-square quantiles the interval is ordered, and it contains the
   estimate exactly when the number of observations lies between the two quantiles. *)
Theorem C56_ubrmsd chi2 n ub alpha : 0 < ub -> 0 < chi2 (alpha / 2) (n - 1)%nat <= chi2 (1 - alpha / 2) (n - 1)%nat ->
  exists lo up, ubrmsd_ci chi2 n ub alpha = (Some lo, Some up) /\ lo <= up /\
    (lo <= ub <= up <-> chi2 (alpha / 2) (n - 1)%nat <= INR n <= chi2 (1 - alpha / 2) (n - 1)%nat).
Proof.
  intros U [A B]. rewrite ubrmsd_ci_value by lra. set (c1 := chi2 (alpha / 2) (n - 1)%nat) in *.
  set (c2 := chi2 (1 - alpha / 2) (n - 1)%nat) in *. pose proof (pos_INR n) as P.
  eexists _, _. split; [reflexivity|].
  assert (Q : forall c, 0 < c -> 0 <= INR n / c) by (intros c C; apply Rmult_le_pos; [exact P|left; apply Rinv_0_lt_compat, C]).
  split.
  - apply Rmult_le_compat_l; [lra|]. apply sqrt_le_1; [apply Q; lra|apply Q; lra|].
    apply Rmult_le_compat_l; [exact P|]. apply Rinv_le_contravar; lra.
  - assert (G1 : forall c, 0 < c -> (ub * sqrt (INR n / c) <= ub <-> INR n <= c)).
    { intros c C. assert (S1 : sqrt (INR n / c) <= 1 <-> INR n <= c).
      { split; intros H.
        - apply sqrt_le_0 in H || idtac. assert (SQ : sqrt (INR n / c) * sqrt (INR n / c) <= 1) by (pose proof (sqrt_pos (INR n / c)); nra).
          rewrite sqrt_sqrt in SQ by (apply Q, C). apply (Rmult_le_compat_r c) in SQ; [|lra]. unfold Rdiv in SQ.
          rewrite Rmult_assoc, Rinv_l in SQ by lra. lra.
        - rewrite <- sqrt_1. apply sqrt_le_1; [apply Q, C|lra|]. apply (Rmult_le_reg_r c); [exact C|].
          unfold Rdiv. rewrite Rmult_assoc, Rinv_l by lra. lra. }
      rewrite <- S1. split; intros H; [apply (Rmult_le_reg_l ub); lra|nra]. }
    assert (G2 : forall c, 0 < c -> (ub <= ub * sqrt (INR n / c) <-> c <= INR n)).
    { intros c C. assert (S1 : 1 <= sqrt (INR n / c) <-> c <= INR n).
      { split; intros H.
        - assert (SQ : 1 <= sqrt (INR n / c) * sqrt (INR n / c)) by nra.
          rewrite sqrt_sqrt in SQ by (apply Q, C). apply (Rmult_le_compat_r c) in SQ; [|lra]. unfold Rdiv in SQ.
          rewrite Rmult_assoc, Rinv_l in SQ by lra. lra.
        - rewrite <- sqrt_1. apply sqrt_le_1; [lra|apply Q, C|]. apply (Rmult_le_reg_r c); [exact C|].
          unfold Rdiv. rewrite Rmult_assoc, Rinv_l by lra. lra. }
      rewrite <- S1. split; intros H; [apply (Rmult_le_reg_l ub); lra|nra]. }
    rewrite (G1 c2 ltac:(lra)), (G2 c1 A). tauto.
Qed.

(* concrete cases *)
Example C56_example : exists lo up, pearson_r_ci (fun _ => 2) 7 0 (1 / 20) = (Some lo, Some up) /\ lo = tanh (-1) /\ up = tanh 1.
Proof.
  unfold pearson_r_ci. rewrite fisher_fin by (try lra; lia). eexists _, _. split; [reflexivity|].
  unfold fisher. cbn [fst snd]. assert (A : arctanh 0 = 0).
  { unfold arctanh. replace ((1 + 0) / (1 - 0)) with 1 by field. rewrite ln_1. field. }
  rewrite A. replace (INR 7 - 3) with (2 * 2) by (cbn; ring). rewrite sqrt_square by lra. split; f_equal; field.
Qed.
Example C56_bias_example : bias_ci (fun _ _ => 3) [(1, 0); (3, 0)] 2 (1 / 20) = Some (-1, 5).
Proof.
  rewrite bias_ci_value by (cbn; lia).
  assert (H : half_width (fun _ _ => 3) [(1, 0); (3, 0)] (1 / 20) = 3).
  { unfold half_width. rewrite <- sqrt_div_alt by (unfold rlen; cbn; lra).
    replace (_ / rlen [(1, 0); (3, 0)]) with 1 by (unfold var, rmean, rlen; cbn; field). rewrite sqrt_1. ring. }
  rewrite H. f_equal. f_equal; ring.
Qed.

Print Assumptions C55_percentile.
Print Assumptions C65_own_dataset_refuted.
Print Assumptions C56_bias_converges.
