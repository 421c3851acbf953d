(* Proofs about the leverage, the bounds of the smoothing parameter and the robust weights of smoothn. *)
From Coq Require Import Lra Lia.
From Verif Require Import Base RStats RStatsProofs MetricsModel MetricsProofs DctModel DctSpec DctProofs1 DctProofs2 DctProofs3 DctProofs4 DctProofs5 DctProofs6 DctProofs7 DctProofs8 DctProofs9 DctProofs11 DctAutoSpec DctAutoProofs DctAutoProofs2.
Open Scope R_scope.

(* ---- leverage and bounds *)
Lemma root_above x : 0 < x -> 1 < sqrt (1 + x).
Proof. intros H. rewrite <- sqrt_1 at 1. apply sqrt_lt_1; lra. Qed.
Lemma leverage2_sq s : 0 < s -> let a := sqrt (1 + 16 * s) in (sqrt (1 + a) / sqrt 2 / a) ^ 2 = (1 + a) / (2 * a ^ 2).
Proof.
  intros H a. assert (1 < a) by (apply root_above; lra). assert (S2 : sqrt 2 * sqrt 2 = 2) by (apply sqrt_sqrt; lra). assert (0 < sqrt 2) by (apply sqrt_lt_R0; lra).
  assert (A2 : sqrt (1 + a) * sqrt (1 + a) = 1 + a) by (apply sqrt_sqrt; lra).
  replace ((sqrt (1 + a) / sqrt 2 / a) ^ 2) with ((sqrt (1 + a) * sqrt (1 + a)) / ((sqrt 2 * sqrt 2) * a ^ 2)) by (field; lra). rewrite A2, S2. reflexivity.
Qed.
Lemma leverage_pos order s : 0 < s -> 0 < leverage order s.
Proof.
  intros H. unfold leverage. destruct (Nat.eqb order 1).
  - apply Rdiv_lt_0_compat; [lra|]. apply sqrt_lt_R0. lra.
  - pose proof (root_above (16 * s) ltac:(lra)). apply Rdiv_lt_0_compat; [|lra]. apply Rdiv_lt_0_compat; apply sqrt_lt_R0; lra.
Qed.
(* smaller for larger parameters *)
Lemma leverage_decr order s s' : 0 < s -> s < s' -> leverage order s' < leverage order s.
Proof.
  intros H H'. unfold leverage. destruct (Nat.eqb order 1).
  - pose proof (root_above (4 * s) ltac:(lra)). assert (sqrt (1 + 4 * s) < sqrt (1 + 4 * s')) by (apply sqrt_lt_1; lra). unfold Rdiv. rewrite !Rmult_1_l. apply Rinv_lt_contravar; [apply Rmult_lt_0_compat; lra|assumption].
  - cbn zeta. pose proof (leverage2_sq s H) as Q1. pose proof (leverage2_sq s' ltac:(lra)) as Q2. cbn zeta in Q1, Q2.
    pose proof (root_above (16 * s) ltac:(lra)) as A. assert (AB : sqrt (1 + 16 * s) < sqrt (1 + 16 * s')) by (apply sqrt_lt_1; lra).
    pose proof (leverage_pos 2 s H) as P1. pose proof (leverage_pos 2 s' ltac:(lra)) as P2. unfold leverage in P1, P2. cbn [Nat.eqb] in P1, P2. cbn zeta in P1, P2.
    set (a := sqrt (1 + 16 * s)) in *. set (b := sqrt (1 + 16 * s')) in *. clearbody a b.
    apply (fun h => Rsqr_incrst_0 _ _ h (Rlt_le _ _ P2) (Rlt_le _ _ P1)). rewrite !Rsqr_pow2, Q1, Q2.
    apply (Rmult_lt_reg_r (2 * a ^ 2 * b ^ 2)); [apply Rmult_lt_0_compat; [apply Rmult_lt_0_compat; [lra|apply pow_lt; lra]|apply pow_lt; lra]|].
    replace ((1 + b) / (2 * b ^ 2) * (2 * a ^ 2 * b ^ 2)) with ((1 + b) * a ^ 2) by (field; lra). replace ((1 + a) / (2 * a ^ 2) * (2 * a ^ 2 * b ^ 2)) with ((1 + a) * b ^ 2) by (field; lra).
    assert (0 < (b - a) * (a + b + a * b)) by (apply Rmult_lt_0_compat; [lra|]; assert (0 < a * b) by (apply Rmult_lt_0_compat; lra); lra). lra.
Qed.
Lemma leverage_below order s : 0 < s -> leverage order s < 1.
Proof.
  intros H. unfold leverage. destruct (Nat.eqb order 1).
  - pose proof (root_above (4 * s) ltac:(lra)). apply (Rmult_lt_reg_r (sqrt (1 + 4 * s))); [lra|]. unfold Rdiv. rewrite Rmult_assoc, Rinv_l by lra. lra.
  - cbn zeta. pose proof (leverage2_sq s H) as Q. cbn zeta in Q. pose proof (leverage_pos 2 s H) as P1. unfold leverage in P1. cbn [Nat.eqb] in P1. cbn zeta in P1. pose proof (root_above (16 * s) ltac:(lra)) as A.
    set (a := sqrt (1 + 16 * s)) in *. clearbody a. apply (fun h => Rsqr_incrst_0 _ _ h (Rlt_le _ _ P1) Rle_0_1). rewrite Rsqr_1, Rsqr_pow2, Q.
    apply (Rmult_lt_reg_r (2 * a ^ 2)); [apply Rmult_lt_0_compat; [lra|apply pow_lt; lra]|]. replace ((1 + a) / (2 * a ^ 2) * (2 * a ^ 2)) with (1 + a) by (field; lra).
    assert (0 < (a - 1) * (2 * a + 1)) by (apply Rmult_lt_0_compat; lra). lra.
Qed.
Lemma leverage_inj order s s' : 0 < s -> 0 < s' -> leverage order s <= leverage order s' -> s' <= s.
Proof. intros H H' L. destruct (Rle_or_lt s' s) as [|X]; [assumption|]. pose proof (leverage_decr order s s' H X). lra. Qed.

Lemma rpower_unit x e : 0 < x < 1 -> 0 < e -> 0 < Rpower x e < 1.
Proof. intros H E. split; [apply exp_pos|]. unfold Rpower. rewrite <- exp_0. apply exp_increasing. assert (ln x < 0) by (rewrite <- ln_1; apply ln_increasing; lra). replace 0 with (e * 0) by ring. apply Rmult_lt_compat_l; assumption. Qed.
Lemma rpower_root x n : 0 < x -> n <> 0%nat -> sqrt (Rpower x (2 / INR n)) ^ n = x.
Proof.
  intros H N. assert (0 < INR n) by (apply lt_0_INR; lia). rewrite <- Rpower_sqrt by apply exp_pos. rewrite Rpower_mult. rewrite <- Rpower_pow by apply exp_pos. rewrite Rpower_mult.
  replace (2 / INR n * / 2 * INR n) with 1 by (field; lra). apply Rpower_1, H.
Qed.
(* the bounds are the parameters with a given leverage *)
Lemma bound_leverage order n h : 0 < h < 1 -> n <> 0%nat -> 0 < s_bound order n h /\ leverage order (s_bound order n h) ^ n = h.
Proof.
  intros H N. assert (IN : 0 < INR n) by (apply lt_0_INR; lia). pose proof (rpower_unit h (2 / INR n) H ltac:(apply Rdiv_lt_0_compat; lra)) as Q. pose proof (rpower_root h n ltac:(lra) N) as RT.
  unfold s_bound, leverage. set (q := Rpower h (2 / INR n)) in *. clearbody q. destruct (Nat.eqb order 1).
  - assert (IQ : 1 < 1 / q) by (apply (Rmult_lt_reg_r q); [lra|]; unfold Rdiv; rewrite Rmult_assoc, Rinv_l by lra; lra). split; [lra|].
    replace (1 + 4 * ((1 / q - 1) / 4)) with (/ q) by (field; lra). rewrite <- RT. f_equal. assert (0 < sqrt q) by (apply sqrt_lt_R0; lra). rewrite sqrt_inv. field. lra.
  - pose proof (root_above (8 * q) ltac:(lra)) as A. set (r := sqrt (1 + 8 * q)) in *. assert (RR : r * r = 1 + 8 * q) by (apply sqrt_sqrt; lra). clearbody r.
    set (a := (1 + r) / 4 / q). assert (AQ : 4 * q * a = 1 + r) by (unfold a; field; lra).
    assert (EQ : 2 * q * a ^ 2 = 1 + a). { apply (Rmult_eq_reg_r (8 * q)); [|lra]. replace (2 * q * a ^ 2 * (8 * q)) with ((4 * q * a) ^ 2) by ring. rewrite AQ. replace ((1 + a) * (8 * q)) with (8 * q + 2 * (4 * q * a)) by ring. rewrite AQ. replace ((1 + r) ^ 2) with (1 + 2 * r + r * r) by ring. rewrite RR. ring. }
    assert (A0 : 0 < a) by (unfold a; repeat apply Rdiv_lt_0_compat; lra).
    assert (A1 : 1 < a). { destruct (Rlt_or_le 1 a) as [|X]; [assumption|exfalso]. assert (a ^ 2 <= a). { replace (a ^ 2) with (a * a) by ring. rewrite <- (Rmult_1_r a) at 3. apply Rmult_le_compat_l; lra. } assert (2 * q * a ^ 2 <= 2 * q * a) by (apply Rmult_le_compat_l; lra). assert (q * a < 1 * a) by (apply Rmult_lt_compat_r; lra). lra. }
    assert (A2 : 1 < a ^ 2) by (replace (a ^ 2) with (a * a) by ring; rewrite <- (Rmult_1_r 1); apply Rmult_gt_0_lt_compat; lra).
    split; [lra|]. replace (1 + 16 * ((a ^ 2 - 1) / 16)) with (a ^ 2) by field. rewrite sqrt_pow2 by lra. rewrite <- RT. f_equal.
    rewrite <- sqrt_div_alt by lra. assert (E2 : (1 + a) / 2 = q * a ^ 2) by lra. rewrite E2. rewrite sqrt_mult by (lra || apply pow2_ge_0). rewrite sqrt_pow2 by lra. field. lra.
Qed.

(* ---- the leverage of a long series is the average influence of a value, order 1 *)
Lemma average_algebra a c : 0 < a -> (1 - ((a - 1) / (a + 1)) ^ 2) * (1 + (a ^ 2 - 1) / 4 * (2 - 2 * c)) = a * (1 - 2 * ((a - 1) / (a + 1)) * c + ((a - 1) / (a + 1)) ^ 2).
Proof. intros H. field. lra. Qed.
Section Average.
Variable s : R.
Hypothesis sp : 0 < s.
Let q := sqrt (1 + 4 * s).
Let r := (q - 1) / (q + 1).
Definition g (x : R) : R := 1 / (1 + s * (2 - 2 * cos x)).
Definition G (x : R) : R := 1 / q * (x + 2 * atan (r * sin x / (1 - r * cos x))).
Lemma q_above : 1 < q. Proof. apply root_above. lra. Qed.
Lemma q_sq : q ^ 2 = 1 + 4 * s. Proof. replace (q ^ 2) with (q * q) by ring. apply sqrt_sqrt. lra. Qed.
Lemma r_range : 0 < r < 1.
Proof. pose proof q_above. unfold r. split; [apply Rdiv_lt_0_compat; lra|]. apply (Rmult_lt_reg_r (q + 1)); [lra|]. unfold Rdiv. rewrite Rmult_assoc, Rinv_l by lra. lra. Qed.
Lemma G_der x : derivable_pt_lim G x (g x).
Proof.
  pose proof r_range as RR. pose proof (COS_bound x) as CB. assert (D : 0 < 1 - r * cos x). { assert (r * cos x <= r * 1) by (apply Rmult_le_compat_l; lra). lra. }
  pose proof q_above as Q1. pose proof q_sq as QS. pose proof (sin2_cos2 x) as SC. unfold Rsqr in SC.
  replace (g x) with (1 / q * (1 + 2 * (/ (1 + (r * sin x / (1 - r * cos x)) ^ 2) * (((r * cos x) * (1 - r * cos x) - (- (r * - sin x)) * (r * sin x)) / Rsqr (1 - r * cos x))))).
  - unfold G. apply (derivable_pt_lim_scal (fun x => x + 2 * atan (r * sin x / (1 - r * cos x))) (1 / q) x).
    apply (derivable_pt_lim_plus (fun x => x) (fun x => 2 * atan (r * sin x / (1 - r * cos x)))); [apply derivable_pt_lim_id|].
    apply (derivable_pt_lim_scal (fun x => atan (r * sin x / (1 - r * cos x))) 2 x).
    apply (derivable_pt_lim_comp (fun x => r * sin x / (1 - r * cos x)) atan x); [|apply derivable_pt_lim_atan].
    apply (derivable_pt_lim_div (fun x => r * sin x) (fun x => 1 - r * cos x) x); [|replace (- (r * - sin x)) with (0 - r * - sin x) by ring|lra].
    + apply (derivable_pt_lim_scal sin r x). apply derivable_pt_lim_sin.
    + apply (derivable_pt_lim_minus (fun _ => 1) (fun x => r * cos x)); [apply derivable_pt_lim_const|]. apply (derivable_pt_lim_scal cos r x). apply derivable_pt_lim_cos.
  - unfold Rsqr, g. set (c := cos x) in *. set (t := sin x) in *. clearbody c t.
    assert (N : 0 < (1 - r * c) ^ 2 + (r * t) ^ 2) by (pose proof (pow2_ge_0 (r * t)); pose proof (pow_lt (1 - r * c) 2 D); lra).
    assert (E : 1 / q * (1 + 2 * (/ (1 + (r * t / (1 - r * c)) ^ 2) * ((r * c * (1 - r * c) - - (r * - t) * (r * t)) / ((1 - r * c) * (1 - r * c))))) = 1 / q * ((1 - r ^ 2 * (t * t + c * c)) / ((1 - 2 * r * c) + r ^ 2 * (t * t + c * c)))).
    { f_equal. replace (1 - 2 * r * c + r ^ 2 * (t * t + c * c)) with ((1 - r * c) ^ 2 + (r * t) ^ 2) by ring. field. lra. }
    rewrite E, SC. rewrite !Rmult_1_r.
    assert (SE : s = (q ^ 2 - 1) / 4) by lra. assert (P2 : 0 < 1 + s * (2 - 2 * c)). { assert (0 <= s * (2 - 2 * c)) by (apply Rmult_le_pos; lra). lra. }
    assert (P3 : 0 < 1 - 2 * r * c + r ^ 2) by (replace (1 - 2 * r * c + r ^ 2) with ((1 - r * c) ^ 2 + r ^ 2 * (1 - c * c)) by ring; replace (1 - c * c) with (t * t) by lra; replace (r ^ 2 * (t * t)) with ((r * t) ^ 2) by ring; exact N).
    apply (Rmult_eq_reg_r (q * (1 - 2 * r * c + r ^ 2) * (1 + s * (2 - 2 * c)))); [|repeat apply Rmult_integral_contrapositive_currified; lra].
    replace (1 / q * ((1 - r ^ 2) / (1 - 2 * r * c + r ^ 2)) * (q * (1 - 2 * r * c + r ^ 2) * (1 + s * (2 - 2 * c)))) with ((1 - r ^ 2) * (1 + s * (2 - 2 * c))) by (field; lra).
    replace (1 / (1 + s * (2 - 2 * c)) * (q * (1 - 2 * r * c + r ^ 2) * (1 + s * (2 - 2 * c)))) with (q * (1 - 2 * r * c + r ^ 2)) by (field; lra).
    rewrite SE. apply average_algebra. lra.
Qed.
Lemma g_range x : 0 < g x <= 1.
Proof.
  pose proof (COS_bound x). assert (0 <= s * (2 - 2 * cos x)) by (apply Rmult_le_pos; lra). unfold g. split; [apply Rdiv_lt_0_compat; lra|].
  apply (Rmult_le_reg_r (1 + s * (2 - 2 * cos x))); [lra|]. unfold Rdiv. rewrite Rmult_assoc, Rinv_l by lra. lra.
Qed.
Lemma g_decr x y : 0 <= x -> x <= y -> y <= PI -> g y <= g x.
Proof.
  intros A B C. assert (CC : cos y <= cos x) by (apply cos_decr_1; lra). unfold g, Rdiv. rewrite !Rmult_1_l. pose proof (COS_bound x). apply Rinv_le_contravar.
  - assert (0 <= s * (2 - 2 * cos x)) by (apply Rmult_le_pos; lra). lra.
  - assert (s * (2 - 2 * cos x) <= s * (2 - 2 * cos y)) by (apply Rmult_le_compat_l; lra). lra.
Qed.
Lemma G_step x y : 0 <= x -> x < y -> y <= PI -> g y * (y - x) <= G y - G x <= g x * (y - x).
Proof.
  intros A B C. destruct (MVT_cor2 G g x y B (fun c _ => G_der c)) as (c & E & CC). rewrite E.
  pose proof (g_decr x c A ltac:(lra) ltac:(lra)). pose proof (g_decr c y ltac:(lra) ltac:(lra) C). split; apply Rmult_le_compat_r; lra.
Qed.
Lemma G_sum n m : (m <= n)%nat -> (0 < n)%nat ->
  rsum (map (fun k => g (PI * INR k / INR n)) (seq 0 m)) * (PI / INR n) - (1 - g (PI * INR m / INR n)) * (PI / INR n) <= G (PI * INR m / INR n) - G 0 <= rsum (map (fun k => g (PI * INR k / INR n)) (seq 0 m)) * (PI / INR n).
Proof.
  intros M N. pose proof PI_RGT_0 as P. assert (IN : 0 < INR n) by (apply lt_0_INR, N). induction m as [|m IH].
  - cbn [seq map]. replace (PI * INR 0 / INR n) with 0 by (cbn [INR]; field; lra). unfold g. rewrite cos_0. replace (1 / (1 + s * (2 - 2 * 1))) with 1 by field. unfold rsum. cbn. lra.
  - specialize (IH ltac:(lia)). rewrite seq_S, map_app, rsum_app. cbn [map plus Nat.add]. replace (rsum [g (PI * INR m / INR n)]) with (g (PI * INR m / INR n)) by (unfold rsum; cbn; ring).
    assert (LM : INR m + 1 <= INR n) by (rewrite <- S_INR; apply le_INR; lia). pose proof (pos_INR m).
    assert (X0 : 0 <= PI * INR m / INR n) by (apply Rmult_le_pos; [apply Rmult_le_pos; lra|left; apply Rinv_0_lt_compat, IN]).
    assert (D : PI * INR (S m) / INR n - PI * INR m / INR n = PI / INR n) by (rewrite S_INR; field; lra). assert (0 < PI / INR n) by (apply Rdiv_lt_0_compat; lra).
    assert (X1 : PI * INR (S m) / INR n <= PI). { rewrite S_INR. apply (Rmult_le_reg_r (INR n)); [exact IN|]. unfold Rdiv. rewrite Rmult_assoc, Rinv_l by lra. rewrite Rmult_1_r. apply Rmult_le_compat_l; lra. }
    pose proof (G_step (PI * INR m / INR n) (PI * INR (S m) / INR n) X0 ltac:(lra) X1) as GS. rewrite D in GS. lra.
Qed.
Lemma average_bounds n : (0 < n)%nat -> 1 / q <= rsum (map (fun k => g (PI * INR k / INR n)) (seq 0 n)) / INR n <= 1 / q + 1 / INR n.
Proof.
  intros N. pose proof (G_sum n n ltac:(lia) N) as B. assert (IN : 0 < INR n) by (apply lt_0_INR, N). pose proof PI_RGT_0 as P. pose proof q_above as Q.
  replace (PI * INR n / INR n) with PI in B by (field; lra). unfold G in B. rewrite sin_PI, cos_PI, sin_0, cos_0 in B. replace (r * 0 / (1 - r * -1)) with 0 in B by (unfold Rdiv; ring). replace (r * 0 / (1 - r * 1)) with 0 in B by (unfold Rdiv; ring). rewrite atan_0 in B.
  set (t := rsum _) in *. clearbody t. replace (1 / q * (PI + 2 * 0) - 1 / q * (0 + 2 * 0)) with (PI * (1 / q)) in B by (field; lra).
  replace (t * (PI / INR n)) with (PI * (t / INR n)) in B by (field; lra). replace ((1 - g PI) * (PI / INR n)) with (PI * ((1 - g PI) / INR n)) in B by (field; lra). destruct B as [B1 B2].
  split; [apply (Rmult_le_reg_l PI); lra|]. rewrite <- Rmult_minus_distr_l in B1. apply Rmult_le_reg_l in B1; [|exact P].
  assert ((1 - g PI) / INR n <= 1 / INR n). { unfold Rdiv. apply Rmult_le_compat_r; [left; apply Rinv_0_lt_compat, IN|]. pose proof (g_range PI). lra. } lra.
Qed.
End Average.

Lemma influence_leverage n s t : (2 <= n)%nat -> 0 < s -> influence 1 [n] s t -> leverage 1 s <= t / INR n <= leverage 1 s + 1 / INR n.
Proof.
  intros N SP IN. apply (influence_gamma [n] (lamN [n]) 1 s) in IN; [|intros k _; reflexivity|lra|left; reflexivity]. subst t.
  unfold leverage. cbn [Nat.eqb]. replace (total [n] (gamma s (lamN [n]) 1)) with (rsum (map (fun k => g s (PI * INR k / INR n)) (seq 0 n))); [apply average_bounds; [exact SP|lia]|].
  unfold total. cbn [indices]. rewrite (map_ext_in _ (fun k => gamma s (lamN [n]) 1 [k])).
  - clear. induction (seq 0 n) as [|k l IH]; [reflexivity|]. cbn [map flat_map app rsum]. rewrite IH. reflexivity.
  - intros k _. unfold gamma, g. cbn [lamN pow]. unfold lambda1. rewrite Rplus_0_r, Rmult_1_r. reflexivity.
Qed.

(* ---- robust weights *)
Section Robust.
Variable fmin : (R -> option R) -> R -> R -> R -> R.
Variables (shape : list nat) (order : nat) (lam data : arr R) (valid : arr bool) (weights : arr R) (rf : R) (given : option R) (tolz : R) (maxiter : nat).
Lemma outer_weights rounds : forall i flag st st1 fl, outer fmin shape order lam data valid weights rf given tolz true maxiter (S rounds) i flag st = Ok (st1, fl) ->
  exists s, smooth st1 = Some s /\ wtot st1 = fun i => weights i * robust_weights shape (fun i => data i - z st1 i) (leverage order s) (Some (fun i => negb (valid i))) i.
Proof.
  induction rounds as [|r IH]; intros i flag st st1 fl H.
  - cbn [outer] in H. destruct (inner _ _ _ _ _ _ _ _ _ _ _ _) as [st2|]; [|discriminate]. cbn [bindR] in H. destruct (smooth st2) as [s|]; [|discriminate]. injection H as <- _. exists s. split; reflexivity.
  - remember (S r) as r'. cbn [outer] in H. destruct (inner _ _ _ _ _ _ _ _ _ _ _ _) as [st2|]; [|discriminate]. cbn [bindR] in H. destruct (smooth st2) as [s|]; [|discriminate]. subst r'. exact (IH _ _ _ _ _ H).
Qed.
End Robust.

Lemma filter_gaps o d shape (p : index -> bool) : (forall i, In i (indices shape) -> (p i = true <-> ~ gap o d i)) -> filter (fun i => negb (negb (valid_at o d i))) (indices shape) = filter p (indices shape).
Proof.
  intros H. apply filter_ext_in. intros i I. rewrite negb_involutive. destruct (p i) eqn:P; [apply valid_spec, (H i I), P|]. destruct (valid_at o d i) eqn:V; [|reflexivity].
  apply valid_spec in V. apply (H i I) in V. congruence.
Qed.

Section RobustCall.
Variable fmin : (R -> option R) -> R -> R -> R -> R.
Variable nearest : list nat -> arr bool -> index -> index.
Variable keep : nat -> nat.
Notation run := (smoothn fmin nearest keep).
Lemma final_weights shape d o w y : usable shape d o -> o_robust o = true -> o_exclude o = None -> weights_of o shape d w -> values_of o shape d y -> exists out s u fw,
  run shape d o = Ok out /\ r_smooth out = Some s /\ 0 < s /\ gives shape out u /\ r_weights out = Some fw /\
  forall used, (forall i, In i (indices shape) -> (used i = true <-> ~ gap o d i)) ->
  forall med mad h, np_median (map (fun i => y i - u i) (filter used (indices shape))) = Some med -> np_median (map (fun i => Rabs (y i - u i - med)) (filter used (indices shape))) = Some mad ->
  average_influence (o_order o) s h ->
  forall i, In i (indices shape) -> fw i = w i * (if Req_EM_T mad 0 then 0 else cauchy mad h (y i - u i)).
Proof.
  intros U RB EX WO VO. destruct (usable_ready shape d o U) as (lam & RD & L). destruct (run_ind fmin nearest keep shape d o (fun _ => True) (fun _ => True) U) as (st & flag & s & E & ES & SP & SE & _ & _); [auto|auto|auto|].
  pose proof U as (_ & AX & OR & _ & _ & _ & MI & TZ & SMP).
  assert (FW : wtot st = fun i => wv o shape d i * robust_weights shape (fun i => yv o d i - z st i) (leverage (o_order o) s) (Some (fun i => negb (valid_at o d i))) i).
  { rewrite (smoothn_ready fmin nearest keep o shape d lam RD) in E. unfold outerv in E. rewrite RB in E.
    match type of E with bindR ?x _ = _ => destruct x as [[st1 fl]|e] eqn:EO; [|discriminate] end. cbn [bindR fst snd] in E.
    destruct (outer_weights _ _ _ _ _ _ _ _ _ _ _ _ _ _ _ _ _ EO) as (s1 & ES1 & FW). rewrite ES1 in E.
    assert (Q : outv nearest keep o shape d st1 fl = outv nearest keep o shape d st flag) by (destruct (o_smooth o); cbn [bindR] in E; congruence). clear E.
    assert (Q1 : zoutv o st1 = zoutv o st) by (unfold outv in Q; congruence). assert (Q2 : wtot st1 = wtot st) by (unfold outv in Q; congruence). assert (Q3 : smooth st1 = smooth st) by (unfold outv in Q; congruence).
    rewrite ES1, ES in Q3. injection Q3 as ->. rewrite <- Q2, FW. unfold zoutv in Q1. rewrite EX in Q1.
    assert (QZ : (fun i => yv o d i - z st1 i) = (fun i => yv o d i - z st i)); [|rewrite QZ; reflexivity].
    apply FunctionalExtensionality.functional_extensionality. intros i. assert (Some (z st1 i) = Some (z st i)) as [= ->] by exact (f_equal (fun f => f i) Q1). reflexivity. }
  exists (outv nearest keep o shape d st flag), s, (z st), (wtot st). split; [exact E|]. split; [exact ES|]. split; [exact SP|]. split; [apply gives_out, EX|]. split; [reflexivity|].
  intros used HU med mad h M1 M2 AI i I. rewrite FW. rewrite (weights_unique shape d o w U WO i I).
  destruct (valid_dec o d i) as [G|NG].
  { assert (Z0 : wv o shape d i = 0) by (rewrite <- (weights_unique shape d o w U WO i I); apply (WO i I), G). rewrite Z0. ring. }
  f_equal. unfold robust_weights, robust_spread. cbn beta iota. rewrite (filter_gaps o d shape used HU).
  assert (YE : forall j, In j (filter used (indices shape)) -> yv o d j = y j).
  { intros j J. apply filter_In in J as [J UJ]. apply (usable_yv shape d o y U VO j J), (HU j J), UJ. }
  rewrite (map_ext_in _ (fun j => y j - z st j)) by (intros j J; rewrite (YE j J); reflexivity). rewrite M1. cbn [obind].
  rewrite (map_ext_in _ (fun j => Rabs (y j - z st j - med))) by (intros j J; rewrite (YE j J); reflexivity). rewrite M2. cbn [obind].
  destruct (Req_EM_T mad 0) as [|NM]; [reflexivity|].
  assert (HL : h = leverage (o_order o) s).
  { destruct AI as [[O1 ->]|[O2 (a & A0 & A1 & H0 & A2)]]; [rewrite O1; reflexivity|]. rewrite O2. pose proof (leverage_pos 2 s SP) as LP. pose proof (leverage2_sq s SP) as LQ. cbn zeta in LQ.
    assert (AE : sqrt (1 + 16 * s) = a) by (rewrite <- A1; apply sqrt_pow2; lra). unfold leverage in *. cbn [Nat.eqb] in *. cbn zeta in *. rewrite AE in *.
    apply Rsqr_inj; [lra|lra|]. rewrite !Rsqr_pow2, LQ. rewrite <- A2. field. lra. }
  subst h. pose proof (leverage_below (o_order o) s SP) as LB. destruct (Rlt_dec (leverage (o_order o) s) 1) as [_|]; [|lra]. rewrite (usable_yv shape d o y U VO i I NG).
  unfold cauchy. assert (SQ : 0 < sqrt (1 - leverage (o_order o) s)) by (apply sqrt_lt_R0; lra). set (rr := y i - z st i). set (sh := sqrt _) in *.
  assert (SQR : (Rabs (rr / (14826 / 10000 * mad)) / sh / (2385 / 1000)) ^ 2 = (rr / (14826 / 10000 * mad * sh) / (2385 / 1000)) ^ 2).
  { replace ((Rabs (rr / (14826 / 10000 * mad)) / sh / (2385 / 1000)) ^ 2) with (Rabs (rr / (14826 / 10000 * mad)) ^ 2 * (/ sh / (2385 / 1000)) ^ 2) by (field; lra). rewrite pow2_abs. field. split; lra. }
  rewrite SQR. reflexivity.
Qed.
End RobustCall.
