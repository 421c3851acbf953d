(* Triple collocation intervals and analytical intervals. *)
From Coq Require Import Reals List Lra Lia Psatz.
From Verif Require Import Base BaseProofs RStats RStatsProofs MetricsModel MetricsSpec MetricsProofs MetricsProofs2
  TcolModel ConfintModel ConfintSpec ConfintProofs.
Open Scope R_scope.

(* ---- tanh ---- *)
Lemma cosh_pos x : 0 < cosh x.
Proof. unfold cosh. pose proof (exp_pos x). pose proof (exp_pos (- x)). lra. Qed.
Lemma tanh_alt x : tanh x = 1 - 2 / (exp (2 * x) + 1).
Proof.
  unfold tanh, sinh, cosh. pose proof (exp_pos x) as P. replace (2 * x) with (x + x) by ring.
  rewrite exp_plus, exp_Ropp. field. split; nra.
Qed.
Lemma tanh_bound x : -1 < tanh x < 1.
Proof.
  rewrite tanh_alt. pose proof (exp_pos (2 * x)) as P. set (e := exp (2 * x)) in *.
  assert (H : 0 < 2 / (e + 1) < 2).
  { split; [apply Rdiv_lt_0_compat; lra|]. apply (Rmult_lt_reg_r (e + 1)); [lra|]. unfold Rdiv. rewrite Rmult_assoc, Rinv_l by lra. lra. }
  lra.
Qed.
Lemma tanh_incr x y : x < y -> tanh x < tanh y.
Proof.
  intros H. rewrite !tanh_alt. assert (E : exp (2 * x) < exp (2 * y)) by (apply exp_increasing; lra).
  pose proof (exp_pos (2 * x)) as P. set (a := exp (2 * x)) in *. set (b := exp (2 * y)) in *.
  assert (2 / (b + 1) < 2 / (a + 1)).
  { unfold Rdiv. apply Rmult_lt_compat_l; [lra|]. apply Rinv_lt_contravar; [|lra]. apply Rmult_lt_0_compat; lra. }
  lra.
Qed.
Lemma tanh_le x y : x <= y -> tanh x <= tanh y.
Proof. intros [H|H]; [left; apply tanh_incr, H|right; congruence]. Qed.
Lemma tanh_arctanh r : -1 < r < 1 -> tanh (arctanh r) = r.
Proof.
  intros H. rewrite tanh_alt. unfold arctanh. replace (2 * (ln ((1 + r) / (1 - r)) / 2)) with (ln ((1 + r) / (1 - r))) by field.
  rewrite exp_ln by (apply Rdiv_lt_0_compat; lra). field. lra.
Qed.
(* tanh contracts: exp u >= 1 + u *)
Lemma tanh_contract x d : 0 <= d -> tanh (x + d) - tanh x <= d.
Proof.
  intros D. rewrite !tanh_alt. replace (2 * (x + d)) with (2 * x + 2 * d) by ring. rewrite exp_plus.
  pose proof (exp_pos (2 * x)) as P. set (e := exp (2 * x)) in *. set (f := exp (2 * d)) in *.
  assert (F1 : 1 <= f). { unfold f. rewrite <- exp_0. destruct D as [D| <-]; [left; apply exp_increasing; lra|right; f_equal; ring]. }
  (* 2 e (f - 1) <= d (e f + 1)(e + 1): by AM-GM (e f + 1)(e + 1) >= e (1 + sqrt f)^2, and (f-1) <= ... *)
  set (g := exp d). assert (FG : f = g * g) by (unfold f, g; rewrite <- exp_plus; f_equal; ring).
  assert (G1 : 1 <= g). { unfold g. rewrite <- exp_0. destruct D as [D| <-]; [left; apply exp_increasing; lra|right; reflexivity]. }
  (* the function d (g + 1) - 2 (g - 1) is nonnegative: tanh (d/2) <= d/2 *)
  assert (K : 2 * (g - 1) <= d * (g + 1)).
  { unfold g. clear - D. 
    set (h := fun t => t * (exp t + 1) - 2 * (exp t - 1)).
    set (h' := fun t => 1 + exp t * (t - 1)).
    assert (DH : forall t, derivable_pt_lim h t (h' t)).
    { intros t. unfold h, h'.
      replace (1 + exp t * (t - 1)) with ((1 * (exp t + 1) + t * (exp t + 0)) - 2 * (exp t - 0)) by ring.
      apply derivable_pt_lim_minus.
      - apply (derivable_pt_lim_mult id (fun t => exp t + 1)); [apply derivable_pt_lim_id|].
        apply (derivable_pt_lim_plus exp (fun _ => 1)); [apply derivable_pt_lim_exp|apply derivable_pt_lim_const].
      - apply (derivable_pt_lim_scal (fun t => exp t - 1)).
        apply (derivable_pt_lim_minus exp (fun _ => 1)); [apply derivable_pt_lim_exp|apply derivable_pt_lim_const]. }
    assert (POS : forall t, 0 <= h' t).
    { intros t. unfold h'. pose proof (exp_ineq1_le (- t)) as I. rewrite exp_Ropp in I. pose proof (exp_pos t) as Q.
      assert (exp t * (1 + - t) <= 1). { apply (Rmult_le_compat_l (exp t)) in I; [|lra]. rewrite Rinv_r in I by lra. lra. }
      lra. }
    assert (H0 : h 0 = 0) by (unfold h; rewrite exp_0; ring).
    assert (h 0 <= h d).
    { destruct D as [D|<-]; [|lra]. destruct (MVT_cor2 h h' 0 d D (fun c _ => DH c)) as (c & E & _).
      pose proof (POS c). nra. }
    rewrite H0 in H. unfold h in H. lra. }
  assert (AG : e * (g + 1) * (g + 1) <= (e * f + 1) * (e + 1)).
  { rewrite FG. assert (0 <= (e * g - 1) * (e * g - 1)) by apply sq_nonneg. nra. }
  replace (1 - 2 / (e * f + 1) - (1 - 2 / (e + 1))) with ((2 * e * (f - 1)) / ((e * f + 1) * (e + 1)))
    by (field; split; nra).
  assert (DP : 0 < (e * f + 1) * (e + 1)) by nra.
  apply (Rmult_le_reg_r ((e * f + 1) * (e + 1))); [exact DP|]. unfold Rdiv. rewrite Rmult_assoc, Rinv_l by lra.
  rewrite Rmult_1_r. apply Rle_trans with (d * (e * (g + 1) * (g + 1))); [|apply Rmult_le_compat_l; [exact D|exact AG]].
  rewrite FG. replace (2 * e * (g * g - 1)) with (e * (g + 1) * (2 * (g - 1))) by ring.
  replace (d * (e * (g + 1) * (g + 1))) with (e * (g + 1) * (d * (g + 1))) by ring.
  apply Rmult_le_compat_l; [nra|exact K].
Qed.

(* ---- Fisher intervals ---- *)
Lemma n_gt3 n : (3 < n)%nat -> 1 <= INR n - 3.
Proof. intros H. replace 3 with (INR 3) by (cbn; lra). rewrite <- minus_INR by lia. apply (le_INR 1). lia. Qed.
Lemma over_sqrt_fin q n : (3 < n)%nat -> over_sqrt q n = Fin (q / sqrt (INR n - 3)).
Proof.
  intros H. pose proof (n_gt3 n H) as P. unfold over_sqrt. rewrite np_sqrt_some by lra. unfold e_div.
  assert (0 < sqrt (INR n - 3)) by (apply sqrt_lt_R0; lra). destruct (Req_EM_T _ 0); [lra|reflexivity].
Qed.
Lemma e_arctanh_fin r : -1 < r < 1 -> e_arctanh r = Fin (arctanh r).
Proof.
  intros H. unfold e_arctanh. destruct (Req_EM_T r 1); [lra|]. destruct (Req_EM_T r (-1)); [lra|].
  destruct (Rlt_dec (Rabs r) 1) as [|N]; [reflexivity|]. exfalso. apply N. apply Rabs_def1; lra.
Qed.
Definition fisher (r q : R) (n : nat) : R * R :=
  (tanh (arctanh r - q / sqrt (INR n - 3)), tanh (arctanh r + q / sqrt (INR n - 3))).
Lemma fisher_fin r q n : -1 < r < 1 -> (3 < n)%nat ->
  fisher_ci r q n = (Some (fst (fisher r q n)), Some (snd (fisher r q n))).
Proof.
  intros H N. unfold fisher_ci. rewrite e_arctanh_fin, over_sqrt_fin by assumption. reflexivity.
Qed.
Lemma delta_nonneg q n : 0 <= q -> (3 < n)%nat -> 0 <= q / sqrt (INR n - 3).
Proof.
  intros Q N. pose proof (n_gt3 n N). assert (0 < sqrt (INR n - 3)) by (apply sqrt_lt_R0; lra).
  apply Rmult_le_pos; [exact Q|]. left. apply Rinv_0_lt_compat. assumption.
Qed.
Lemma delta_antitone q n1 n2 : 0 <= q -> (3 < n1)%nat -> (n1 <= n2)%nat ->
  q / sqrt (INR n2 - 3) <= q / sqrt (INR n1 - 3).
Proof.
  intros Q N L. pose proof (n_gt3 n1 N). assert (INR n1 <= INR n2) by (apply le_INR; exact L).
  assert (0 < sqrt (INR n1 - 3)) by (apply sqrt_lt_R0; lra).
  apply Rmult_le_compat_l; [exact Q|]. apply Rinv_le_contravar; [assumption|]. apply sqrt_le_1; lra.
Qed.
Lemma fisher_encloses r q n : -1 < r < 1 -> 0 <= q -> (3 < n)%nat ->
  encloses (fisher r q n) r /\ -1 < fst (fisher r q n) /\ snd (fisher r q n) < 1.
Proof.
  intros H Q N. pose proof (delta_nonneg q n Q N) as D. unfold encloses, fisher. cbn [fst snd].
  split; [|split; apply tanh_bound]. rewrite <- (tanh_arctanh r H) at 2 3. split; apply tanh_le; lra.
Qed.
Lemma fisher_shrinks r q n1 n2 : 0 <= q -> (3 < n1)%nat -> (n1 <= n2)%nat -> inside (fisher r q n2) (fisher r q n1).
Proof.
  intros Q N L. pose proof (delta_antitone q n1 n2 Q N L) as D. unfold inside, fisher. cbn [fst snd].
  split; apply tanh_le; lra.
Qed.
Lemma fisher_width r q n : -1 < r < 1 -> 0 <= q -> (3 < n)%nat ->
  r - q / sqrt (INR n - 3) <= fst (fisher r q n) /\ snd (fisher r q n) <= r + q / sqrt (INR n - 3).
Proof.
  intros H Q N. pose proof (delta_nonneg q n Q N) as D. unfold fisher. cbn [fst snd].
  set (d := q / sqrt (INR n - 3)) in *. pose proof (tanh_arctanh r H) as T.
  pose proof (tanh_contract (arctanh r) d D) as A. pose proof (tanh_contract (arctanh r - d) d D) as B.
  replace (arctanh r - d + d) with (arctanh r) in B by ring. lra.
Qed.
(* q / sqrt (n - 3) falls below every positive bound *)
Lemma delta_vanishes q eps : 0 <= q -> 0 < eps -> exists n0, (3 < n0)%nat /\ forall n, (n0 <= n)%nat -> q / sqrt (INR n - 3) <= eps.
Proof.
  intros Q E. set (b := (q / eps) ^ 2). destruct (archimed b) as [A _].
  set (n0 := (4 + Z.to_nat (up b))%nat). exists n0. split; [unfold n0; lia|]. intros n L.
  assert (N : (3 < n)%nat) by (unfold n0 in L; lia). pose proof (n_gt3 n N).
  assert (BN : b <= INR n - 3).
  { assert (INR n0 <= INR n) by (apply le_INR; exact L). unfold n0 in H0. rewrite plus_INR in H0.
    assert (IZR (up b) <= INR (Z.to_nat (up b))).
    { rewrite INR_IZR_INZ. apply IZR_le. lia. }
    cbn [INR] in H0. lra. }
  assert (SP : 0 < sqrt (INR n - 3)) by (apply sqrt_lt_R0; lra).
  assert (QE : 0 <= q / eps) by (apply Rmult_le_pos; [exact Q|left; apply Rinv_0_lt_compat, E]).
  assert (QS : q / eps <= sqrt (INR n - 3)).
  { rewrite <- (sqrt_pow2 (q / eps)) by exact QE. apply sqrt_le_1; [apply pow2_ge_0|lra|exact BN]. }
  apply (Rmult_le_reg_r (sqrt (INR n - 3))); [exact SP|]. unfold Rdiv. rewrite Rmult_assoc, Rinv_l by lra.
  assert (q = eps * (q / eps)) by (field; lra). rewrite Rmult_1_r. rewrite H0 at 1. apply Rmult_le_compat_l; lra.
Qed.

(* perfect correlation: the interval is the estimate *)
Lemma fisher_one q n : (3 < n)%nat -> fisher_ci 1 q n = (Some 1, Some 1).
Proof.
  intros N. unfold fisher_ci. rewrite over_sqrt_fin by exact N. unfold e_arctanh. destruct (Req_EM_T 1 1); [|lra]. reflexivity.
Qed.
Lemma fisher_minus_one q n : (3 < n)%nat -> fisher_ci (-1) q n = (Some (-1), Some (-1)).
Proof.
  intros N. unfold fisher_ci. rewrite over_sqrt_fin by exact N. unfold e_arctanh.
  destruct (Req_EM_T (-1) 1); [lra|]. destruct (Req_EM_T (-1) (-1)); [|lra]. reflexivity.
Qed.
(* fewer than three observations: no interval *)
Lemma fisher_few r q n : (n < 3)%nat -> fisher_ci r q n = (None, None).
Proof.
  intros N. unfold fisher_ci, over_sqrt. assert (INR n - 3 < 0). { replace 3 with (INR 3) by (cbn; lra). pose proof (lt_INR n 3 N). lra. }
  unfold np_sqrt. destruct (Rlt_dec _ 0); [|lra]. unfold e_sub. cbn [e_opp]. destruct (e_arctanh r); reflexivity.
Qed.
(* three observations: no information *)
Lemma fisher_three r q : -1 < r < 1 -> 0 < q -> fisher_ci r q 3 = (Some (-1), Some 1).
Proof.
  intros H Q. unfold fisher_ci, over_sqrt. replace (INR 3 - 3) with 0 by (cbn; ring). rewrite np_sqrt_some by lra.
  rewrite sqrt_0. unfold e_div. destruct (Req_EM_T 0 0); [|lra]. destruct (Rlt_dec 0 q); [|lra].
  rewrite e_arctanh_fin by exact H. reflexivity.
Qed.

(* ---- the interval of the bias ---- *)
Lemma std1_some l : (1 < List.length l)%nat -> std1 l = Some (sqrt (rlen l / (rlen l - 1) * var l)).
Proof.
  intros L. assert (NE : l <> []) by (destruct l; [cbn in L; lia|discriminate]).
  pose proof (rlen_pos l NE) as P. assert (P1 : 0 < rlen l - 1).
  { unfold rlen. pose proof (lt_INR 1 _ L). cbn in H. lra. }
  unfold std1, np_mean. rewrite fdiv_some by lra. cbn [obind]. fold (rmean l). rewrite fdiv_some by lra. cbn [obind].
  assert (E : rsum (map (fun v => (v - rmean l) ^ 2) l) / (rlen l - 1) = rlen l / (rlen l - 1) * var l).
  { unfold var. unfold rmean at 2. unfold rlen at 4. rewrite map_length. fold (rlen l).
    replace (map (fun x => (x - rmean l) * (x - rmean l)) l) with (map (fun v => (v - rmean l) ^ 2) l)
      by (apply map_ext; intros; ring).
    field. lra. }
  rewrite E. rewrite np_sqrt_some; [reflexivity|]. apply Rmult_le_pos; [|apply var_nonneg].
  apply Rmult_le_pos; [lra|]. left. apply Rinv_0_lt_compat. exact P1.
Qed.

Section T.
Variable t_ppf : R -> nat -> R.
Definition half_width (d : pairs) (alpha : R) : R :=
  sqrt (rlen d / (rlen d - 1) * var (map (fun p => fst p - snd p) d)) / sqrt (rlen d) *
  t_ppf (1 - alpha / 2) (List.length d - 1).
Lemma bias_ci_value d b alpha : (1 < List.length d)%nat ->
  bias_ci t_ppf d b alpha = Some (b - half_width d alpha, b + half_width d alpha).
Proof.
  intros L. unfold bias_ci. rewrite std1_some by (rewrite map_length; exact L). cbn [obind].
  assert (P : 0 < sqrt (INR (List.length d))).
  { apply sqrt_lt_R0. apply (lt_INR 0). lia. }
  rewrite fdiv_some by lra. cbn [omap]. unfold half_width, rlen. rewrite map_length. reflexivity.
Qed.
Lemma half_width_nonneg d alpha : (1 < List.length d)%nat -> 0 <= t_ppf (1 - alpha / 2) (List.length d - 1) ->
  0 <= half_width d alpha.
Proof.
  intros L T. unfold half_width. apply Rmult_le_pos; [|exact T]. apply Rmult_le_pos; [apply sqrt_pos|].
  left. apply Rinv_0_lt_compat, sqrt_lt_R0. apply (lt_INR 0). lia.
Qed.
(* the same dispersion and more observations *)
Lemma half_width_shrinks d1 d2 alpha : (1 < List.length d1)%nat -> (List.length d1 <= List.length d2)%nat ->
  var (map (fun p => fst p - snd p) d2) = var (map (fun p => fst p - snd p) d1) ->
  0 <= t_ppf (1 - alpha / 2) (List.length d2 - 1) <= t_ppf (1 - alpha / 2) (List.length d1 - 1) ->
  half_width d2 alpha <= half_width d1 alpha.
Proof.
  intros L1 L2 V T. unfold half_width. rewrite V.
  set (v := var (map (fun p : R * R => fst p - snd p) d1)) in *.
  assert (VP : 0 <= v) by apply var_nonneg.
  assert (N1 : 1 < rlen d1) by (apply (lt_INR 1); exact L1).
  assert (N2 : rlen d1 <= rlen d2) by (apply le_INR; exact L2).
  assert (E : forall n, 1 < n -> sqrt (n / (n - 1) * v) / sqrt n = sqrt (v / (n - 1))).
  { intros n N. rewrite <- sqrt_div_alt by lra. f_equal. field. lra. }
  rewrite !E by lra. apply Rmult_le_compat; [apply sqrt_pos|apply T| |apply T].
  apply sqrt_le_1.
  - apply Rmult_le_pos; [exact VP|left; apply Rinv_0_lt_compat; lra].
  - apply Rmult_le_pos; [exact VP|left; apply Rinv_0_lt_compat; lra].
  - apply Rmult_le_compat_l; [exact VP|]. apply Rinv_le_contravar; lra.
Qed.

Lemma var_diff d : d <> [] -> var (map (fun p => fst p - snd p) d) = var (xs d) + var (ys d) - 2 * cov d.
Proof.
  intros NE. pose proof (rlen_pos d NE) as P.
  assert (ML : forall f : R * R -> R, rlen (map f d) = rlen d) by (intros f; unfold rlen; rewrite map_length; reflexivity).
  assert (MM : rmean (map (fun p => fst p - snd p) d) = rmean (xs d) - rmean (ys d)).
  { unfold rmean, xs, ys. rewrite !ML, rsum_minus. field. lra. }
  unfold var, cov. rewrite MM. unfold xs, ys. rewrite !map_map. fold (xs d) (ys d).
  set (mx := rmean (xs d)). set (my := rmean (ys d)).
  unfold rmean. rewrite !ML.
  assert (E : rsum (map (fun p => (fst p - snd p - (mx - my)) * (fst p - snd p - (mx - my))) d) =
    rsum (map (fun p => (fst p - mx) * (fst p - mx)) d) + rsum (map (fun p => (snd p - my) * (snd p - my)) d)
    - 2 * rsum (map (fun p => (fst p - mx) * (snd p - my)) d)).
  { clearbody mx my. clear. induction d as [|p d IH]; cbn; [ring|]. rewrite IH. ring. }
  rewrite E. field. lra.
Qed.

(* the interval from the one-pass moments is the one from the data *)
Lemma bias_ci_moments d alpha m b : (1 < List.length d)%nat -> moments_welford d = Some m -> bias d = Some b ->
  bias_ci_from_moments t_ppf alpha m (List.length d) = bias_ci t_ppf d b alpha.
Proof.
  intros L M B. assert (NE : d <> []) by (destruct d; [cbn in L; lia|discriminate]).
  rewrite welford_correct in M by exact NE. assert (EM : m = Moments (rmean (xs d)) (rmean (ys d)) (var (xs d)) (var (ys d)) (cov d)) by congruence.
  subst m. rewrite bias_ci_value by exact L. unfold bias_ci_from_moments. cbn [m_x m_y m_vx m_vy m_cov].
  assert (N1 : 1 < INR (List.length d)) by (apply (lt_INR 1); exact L).
  rewrite fdiv_some by lra. cbn [obind]. rewrite <- var_diff by exact NE.
  rewrite np_sqrt_some.
  2: { apply Rmult_le_pos; [|apply var_nonneg]. apply Rmult_le_pos; [lra|left; apply Rinv_0_lt_compat; lra]. }
  cbn [obind]. rewrite fdiv_some by (apply Rgt_not_eq, sqrt_lt_R0; lra). cbn [omap].
  assert (EB : b = rmean (xs d) - rmean (ys d)).
  { rewrite bias_correct in B by exact NE. congruence. }
  subst b. reflexivity.
Qed.
End T.

(* ---- ubrmsd ---- *)
Lemma ubrmsd_ci_value chi2 n ub alpha : 0 <= ub -> 0 < chi2 (1 - alpha / 2) (n - 1)%nat -> 0 < chi2 (alpha / 2) (n - 1)%nat ->
  ubrmsd_ci chi2 n ub alpha =
  (Some (ub * sqrt (INR n / chi2 (1 - alpha / 2) (n - 1)%nat)), Some (ub * sqrt (INR n / chi2 (alpha / 2) (n - 1)%nat))).
Proof.
  intros U A B. unfold ubrmsd_ci.
  assert (G : forall c, 0 < c -> obind (fdiv (INR n * ub ^ 2) c) np_sqrt = Some (ub * sqrt (INR n / c))).
  { intros c C. rewrite fdiv_some by lra. cbn [obind]. pose proof (pos_INR n) as P.
    assert (Q : 0 <= INR n / c) by (apply Rmult_le_pos; [exact P|left; apply Rinv_0_lt_compat, C]).
    assert (E : INR n * ub ^ 2 / c = ub ^ 2 * (INR n / c)) by (field; lra). rewrite E.
    rewrite np_sqrt_some by (apply Rmult_le_pos; [apply pow2_ge_0|exact Q]).
    rewrite sqrt_mult by (try apply pow2_ge_0; exact Q). rewrite sqrt_pow2 by exact U. reflexivity. }
  rewrite !G by assumption. reflexivity.
Qed.

(* ---- triple collocation ---- *)
Lemma tcol_ok rows ref : (ref < 3)%nat -> exists t, tcol_metrics rows ref = Ok t /\
  List.length (component 0 t) = 3%nat /\ List.length (component 1 t) = 3%nat /\ List.length (component 2 t) = 3%nat.
Proof.
  intros R3. unfold tcol_metrics, tcol_metrics_from_cov. apply Nat.ltb_lt in R3. rewrite R3.
  destruct (np_cov rows); eexists; (split; [reflexivity|]); repeat split; reflexivity.
Qed.
Definition tc_of (rows : list (nat -> R)) (ref : nat) : tc_result :=
  match tcol_metrics rows ref with Ok t => t | Err _ => ([], [], []) end.
Lemma tc_of_ok rows ref : (ref < 3)%nat -> tcol_metrics rows ref = Ok (tc_of rows ref).
Proof. intros H. destruct (tcol_ok rows ref H) as (t & E & _). unfold tc_of. rewrite E. reflexivity. Qed.

Lemma tcol_percentile ppf cdf rows ref alpha garbage minimum draws : rows <> [] -> (ref < 3)%nat ->
  (minimum <= List.length rows)%nat -> 0 <= alpha <= 1 ->
  exists r, tcol_with_bootstrapped_ci ppf cdf rows ref alpha "percentile" garbage minimum draws = Ok r /\
    List.length r = 3%nat /\
    forall k i, (k < 3)%nat -> (i < 3)%nat ->
      let v := vals (map (fun idx => nth i (component k (tc_of (take_rows rows idx) ref)) None) draws) in
      fst (nth k r ([], [])) = component k (tc_of rows ref) /\
      nth i (snd (nth k r ([], []))) (None, None) =
        (if andb (Nat.eqb k 2) (Nat.eqb i ref) then (Some 1, Some 1)
         else match v with [] => (None, None) | _ => (Some (quantile v (alpha / 2)), Some (quantile v (1 - alpha / 2))) end).
Proof.
  intros NE R3 M A. unfold tcol_with_bootstrapped_ci. apply Nat.ltb_ge in M. rewrite M. rewrite tc_of_ok by exact R3.
  cbn [bindR]. change (String.eqb "percentile" "BCa") with false. cbn [bindR]. cbv iota.
  assert (BS : seqR (map (fun idx => tcol_metrics (take_rows rows idx) ref) draws) =
               Ok (map (fun idx => tc_of (take_rows rows idx) ref) draws)).
  { clear - R3. induction draws as [|idx ds IH]; [reflexivity|]. cbn [map seqR]. rewrite tc_of_ok by exact R3.
    cbn [bindR]. rewrite IH. reflexivity. }
  destruct rows as [|r0 rows]; [congruence|]. set (rows' := r0 :: rows) in *.
  change (List.length rows') with (S (List.length rows)). cbv iota. rewrite BS. cbn [bindR].
  set (bs := map (fun idx => tc_of (take_rows rows' idx) ref) draws).
  assert (ITV : forall k i, tcol_interval ppf cdf "percentile" garbage (map (component k) bs) (component k (tc_of rows' ref))
      (map (component k) []) alpha i =
    Ok (let v := vals (map (fun idx => nth i (component k (tc_of (take_rows rows' idx) ref)) None) draws) in
        match v with [] => (None, None) | _ => (Some (quantile v (alpha / 2)), Some (quantile v (1 - alpha / 2))) end)).
  { intros k i. unfold tcol_interval. cbn [String.eqb Ascii.eqb Bool.eqb].
    change (String.eqb "percentile" "percentile") with true. cbv iota. unfold bs. rewrite !map_map. cbv zeta.
    set (col := map _ draws). destruct (vals col) as [|v0 vr] eqn:V.
    - unfold percentile_bs_ci. rewrite !nanquantile_none by (try exact V; lra). reflexivity.
    - rewrite percentile_ok by (try (rewrite V; discriminate); lra). rewrite V. reflexivity. }
  set (val := fun k i => if andb (Nat.eqb k 2) (Nat.eqb i ref) then (Some 1, Some 1)
     else let v := vals (map (fun idx => nth i (component k (tc_of (take_rows rows' idx) ref)) None) draws) in
        match v with [] => (None, None) | _ => (Some (quantile v (alpha / 2)), Some (quantile v (1 - alpha / 2))) end).
  assert (PART : forall k i, tcol_part ppf cdf "percentile" garbage ref alpha bs (tc_of rows' ref) [] k i = Ok (val k i)).
  { intros k i. unfold tcol_part, val. change (orb (String.eqb "percentile" "percentile") _) with true. rewrite Bool.andb_true_r.
    destruct (andb (Nat.eqb k 2) (Nat.eqb i ref)); [reflexivity|]. apply ITV. }
  exists (map (fun k => (component k (tc_of rows' ref), map (val k) [0; 1; 2]%nat)) [0; 1; 2]%nat).
  split; [|split; [reflexivity|]].
  - destruct draws; cbn [map]; rewrite !PART; cbn [seqR bindR mapR]; reflexivity.
  - intros k i K I. destruct k as [|[|[|k]]]; [| | |lia]; destruct i as [|[|[|i]]]; try lia;
      (split; [reflexivity|]); cbn [nth map snd]; unfold val; reflexivity.
Qed.
