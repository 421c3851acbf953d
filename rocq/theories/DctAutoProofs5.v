(* Proofs about smoothn, continued: the range of the parameters that are searched; a scored example. *)
From Coq Require Import Lra Lia.
From Verif Require Import Base RStats RStatsProofs MetricsModel MetricsProofs DctModel DctSpec DctProofs1 DctProofs2 DctProofs3 DctProofs4 DctProofs5 DctProofs6 DctProofs7 DctProofs8 DctProofs9 DctProofs11 DctProofs12 DctAutoSpec DctAutoProofs DctAutoProofs2 DctAutoProofs3.
Open Scope R_scope.

Lemma average_leverage order s h : order = 1%nat \/ order = 2%nat -> 0 < s -> (average_influence order s h <-> h = leverage order s).
Proof.
  intros O SP. split.
  - intros [[O1 ->]|[O2 (a & A0 & A1 & H0 & A2)]]; [rewrite O1; reflexivity|]. rewrite O2. pose proof (leverage_pos 2 s SP) as LP. pose proof (leverage2_sq s SP) as LQ. cbn zeta in LQ.
    assert (AE : sqrt (1 + 16 * s) = a) by (rewrite <- A1; apply sqrt_pow2; lra). unfold leverage in *. cbn [Nat.eqb] in *. cbn zeta in *. rewrite AE in *.
    apply Rsqr_inj; [lra|lra|]. rewrite !Rsqr_pow2, LQ. rewrite <- A2. field. lra.
  - intros ->. destruct O as [-> | ->]; [left; split; reflexivity|right]. split; [reflexivity|]. pose proof (leverage_pos 2 s SP) as LP. pose proof (leverage2_sq s SP) as LQ. cbn zeta in LQ. pose proof (root_above (16 * s) ltac:(lra)).
    exists (sqrt (1 + 16 * s)). split; [lra|]. split; [replace (sqrt (1 + 16 * s) ^ 2) with (sqrt (1 + 16 * s) * sqrt (1 + 16 * s)) by ring; apply sqrt_sqrt; lra|]. split; [exact LP|].
    unfold leverage. cbn [Nat.eqb]. cbn zeta. set (a := sqrt (1 + 16 * s)) in *. rewrite Rpow_mult_distr, LQ. field. lra.
Qed.

Lemma pow_mono x y n : 0 < x -> x <= y -> x ^ n <= y ^ n.
Proof. intros X Y. apply pow_incr. lra. Qed.
Lemma pow_mono_lt x y n : n <> 0%nat -> 0 < x -> x < y -> x ^ n < y ^ n.
Proof.
  intros N X Y. destruct n as [|n]; [congruence|]. clear N. induction n as [|n IH]; [cbn; lra|]. change (x ^ S (S n)) with (x * x ^ S n). change (y ^ S (S n)) with (y * y ^ S n).
  apply Rmult_le_0_lt_compat; [lra|left; apply pow_lt, X|exact Y|exact IH].
Qed.
Lemma pow_reg x y n : n <> 0%nat -> 0 < x -> 0 < y -> x ^ n <= y ^ n -> x <= y.
Proof. intros N X Y H. destruct (Rle_or_lt x y) as [|L]; [assumption|]. pose proof (pow_mono_lt y x n N Y L). lra. Qed.
Lemma log10_mono x y : 0 < x -> x <= y -> log10 x <= log10 y.
Proof.
  intros X Y. unfold log10, Rdiv. apply Rmult_le_compat_r; [left; apply Rinv_0_lt_compat; rewrite <- ln_1; apply ln_increasing; lra|]. destruct Y as [Y| ->]; [left; apply ln_increasing; assumption|right; reflexivity].
Qed.
Lemma pow10_mono p q : p <= q -> pow10 p <= pow10 q.
Proof. intros [H| ->]; [left; unfold pow10; apply Rpower_lt; lra|right; reflexivity]. Qed.

Lemma leverage_one order : order = 1%nat \/ order = 2%nat -> 1 / 100 <= leverage order 1 <= 1 / 2.
Proof.
  intros [-> | ->].
  - unfold leverage. cbn [Nat.eqb]. assert (2 <= sqrt (1 + 4 * 1) <= 3). { split; [rewrite <- (sqrt_pow2 2) by lra; apply sqrt_le_1_alt; lra|rewrite <- (sqrt_pow2 3) by lra; apply sqrt_le_1_alt; lra]. }
    set (a := sqrt _) in *. clearbody a. assert (1 / a * a = 1) by (field; lra). split; apply (Rmult_le_reg_r a); lra.
  - pose proof (leverage_pos 2 1 ltac:(lra)) as LP. pose proof (leverage2_sq 1 ltac:(lra)) as LQ. cbn zeta in LQ. unfold leverage in *. cbn [Nat.eqb] in *. cbn zeta in *.
    assert (A2 : sqrt (1 + 16 * 1) ^ 2 = 17) by (replace (sqrt (1 + 16 * 1) ^ 2) with (sqrt (1 + 16 * 1) * sqrt (1 + 16 * 1)) by ring; rewrite sqrt_sqrt by lra; lra).
    assert (4 <= sqrt (1 + 16 * 1) <= 5). { split; [rewrite <- (sqrt_pow2 4) by lra; apply sqrt_le_1_alt; lra|rewrite <- (sqrt_pow2 5) by lra; apply sqrt_le_1_alt; lra]. }
    set (a := sqrt (1 + 16 * 1)) in *. set (l := sqrt (1 + a) / sqrt 2 / a) in *. clearbody l. rewrite A2 in LQ. assert (LQ2 : l * l = (1 + a) / 34) by (replace (l * l) with (l ^ 2) by ring; rewrite LQ; f_equal; ring).
    split; apply Rnot_lt_le; intros X.
    + assert (l * l < 1 / 100 * (1 / 100)) by (apply Rmult_le_0_lt_compat; lra). lra.
    + assert (1 / 2 * (1 / 2) < l * l) by (apply Rmult_le_0_lt_compat; lra). lra.
Qed.
Section Bounds.
Variables (order ndim : nat).
Hypothesis order_ok : order = 1%nat \/ order = 2%nat.
Hypothesis dim_ok : (1 <= ndim <= 3)%nat.
Notation lo := (log10 (s_bound order ndim (99 / 100))).
Notation hi := (log10 (s_bound order ndim (1 / 1000000))).
Lemma bound_one : s_bound order ndim (99 / 100) <= 1 <= s_bound order ndim (1 / 1000000).
Proof.
  destruct (bound_leverage order ndim (99 / 100) ltac:(lra) ltac:(lia)) as [P1 L1]. destruct (bound_leverage order ndim (1 / 1000000) ltac:(lra) ltac:(lia)) as [P2 L2]. pose proof (leverage_one order order_ok) as LO.
  assert (C : 1 / 1000000 <= leverage order 1 ^ ndim <= 99 / 100).
  { set (l := leverage order 1) in *. clearbody l. assert (N : ndim = 1%nat \/ ndim = 2%nat \/ ndim = 3%nat) by lia. assert (1 / 100 * (1 / 100) <= l * l <= 1 / 2 * (1 / 2)) by (split; apply Rmult_le_compat; lra).
    assert (1 / 100 * (1 / 100 * (1 / 100)) <= l * (l * l) <= 1 / 2 * (1 / 2 * (1 / 2))) by (split; apply Rmult_le_compat; lra). destruct N as [->|[-> | ->]]; cbn [pow]; rewrite !Rmult_1_r; lra. }
  split.
  - apply (leverage_inj order); [lra|exact P1|]. apply (pow_reg _ _ ndim ltac:(lia)); [apply leverage_pos; lra|apply leverage_pos, P1|]. rewrite L1. lra.
  - apply (leverage_inj order); [exact P2|lra|]. apply (pow_reg _ _ ndim ltac:(lia)); [apply leverage_pos, P2|apply leverage_pos; lra|]. rewrite L2. lra.
Qed.
Lemma bound_zero : lo <= 0 <= hi.
Proof.
  pose proof bound_one as B. destruct (bound_leverage order ndim (99 / 100) ltac:(lra) ltac:(lia)) as [P1 _].
  assert (Z : log10 1 = 0) by (unfold log10; rewrite ln_1; unfold Rdiv; ring). split; rewrite <- Z; apply log10_mono; lra.
Qed.
Lemma searched_leverage p : lo <= p <= hi -> 1 / 1000000 <= leverage order (pow10 p) ^ ndim <= 99 / 100.
Proof.
  intros [A B]. destruct (bound_leverage order ndim (99 / 100) ltac:(lra) ltac:(lia)) as [P1 L1]. destruct (bound_leverage order ndim (1 / 1000000) ltac:(lra) ltac:(lia)) as [P2 L2].
  apply pow10_mono in A, B. rewrite pow10_log10 in A by exact P1. rewrite pow10_log10 in B by exact P2. pose proof (pow10_pos p) as PP.
  assert (D : forall s s', 0 < s -> s <= s' -> leverage order s' <= leverage order s) by (intros s s' S0 [S1| ->]; [left; apply leverage_decr; assumption|right; reflexivity]).
  split; [rewrite <- L2|rewrite <- L1]; apply pow_mono; try (apply leverage_pos; lra); apply D; assumption.
Qed.
End Bounds.

Section Call.
Variable fmin : (R -> option R) -> R -> R -> R -> R.
Variable nearest : list nat -> arr bool -> index -> index.
Variable keep : nat -> nat.
Notation run := (smoothn fmin nearest keep).
Hypothesis fmin_inside : forall f a b e, a <= b -> a <= fmin f a b e <= b.

Lemma run_bounds shape d o : usable shape d o -> o_smooth o = None -> exists out s, run shape d o = Ok out /\ r_smooth out = Some s /\ 0 < s /\
  1 / 1000000 <= leverage (o_order o) s ^ List.length shape <= 99 / 100.
Proof.
  intros U SN. pose proof U as ((DIM & SZ) & AX & OR & _ & _ & _ & MI & TZ & SMP). pose proof (bound_zero (o_order o) (List.length shape) OR DIM) as BZ.
  set (lo := log10 (s_bound (o_order o) (List.length shape) (99 / 100))) in *. set (hi := log10 (s_bound (o_order o) (List.length shape) (1 / 1000000))) in *.
  set (P := fun st : state => lo <= pbest st <= hi /\ forall i, In i (indices shape) -> 0 <= wtot st i <= 1).
  assert (WV : forall i, In i (indices shape) -> 0 <= wv o shape d i <= 1) by (intros i I; apply (usable_wv shape d o U i I)).
  destruct (run_ind fmin nearest keep shape d o P (fun st => P st /\ smooth st = Some (pow10 (pbest st))) U) as (st & flag & s & E & ES & SP & SE & QS & FL).
  - intros lam j st st' L PS E. assert (PP : P st) by tauto. destruct PP as [P1 P2].
    destruct (step_score fmin shape (o_order o) lam (yv o d) (valid_at o d) (rfv (weightedv o shape d)) (o_smooth o) OR SMP L SZ j st st' P2 E) as (s & ES & _ & _ & SN1 & _ & _ & EW). destruct (SN1 SN) as [A [B C]].
    split; [|congruence]. split; [|rewrite EW; exact P2].
    assert (DEC : {j = 0%nat \/ exists e, j = (2 ^ e)%nat} + {~ (j = 0%nat \/ exists e, j = (2 ^ e)%nat)}).
    { destruct (Nat.eq_dec j 0) as [Z|Z]; [left; left; exact Z|]. destruct (power_of_two j) eqn:PT; [left; right; apply power_of_two_spec, PT|right]. intros [X|X]; [contradiction|]. apply power_of_two_spec in X. congruence. }
    destruct DEC as [Y|N]; [rewrite (B Y); apply fmin_inside; unfold lo, hi in *; lra|rewrite (C N); exact P1].
  - intros st w RB [[P1 P2] _] WR. left. split; [exact P1|]. cbn [wtot next_round]. intros i I. pose proof (WR i). pose proof (WV i I). split; [apply Rmult_le_pos; lra|]. rewrite <- (Rmult_1_r 1). apply Rmult_le_compat; lra.
  - split; [exact BZ|exact WV].
  - exists (outv nearest keep o shape d st flag), s. split; [exact E|]. split; [exact ES|]. split; [exact SP|].
    assert (X : lo <= pbest st <= hi /\ smooth st = Some (pow10 (pbest st))) by (destruct QS as [[[[A _] B] _]|[_ (st1 & w & [[A _] B] & _ & ->)]]; split; assumption). destruct X as [X1 X2].
    rewrite ES in X2. injection X2 as ->. apply searched_leverage; [exact OR|exact DIM|exact X1].
Qed.
End Call.

(* ---- one value, one gap: the score of the first iteration *)
Lemma half_trace : total [2%nat] (gamma (1 / 2) (lamN [2%nat]) 1) = 3 / 2.
Proof.
  unfold total. cbn [indices seq flat_map map app]. unfold gamma. cbn [lamN pow]. unfold lambda1. cbn [INR]. replace (PI * 0 / (1 + 1)) with 0 by field. replace (PI * 1 / (1 + 1)) with (PI / 2) by field. rewrite cos_0, cos_PI2. unfold rsum. cbn. lra.
Qed.
Lemma half_score fmin nearest keep tz : 0 <= tz < 1 -> exists out, smoothn fmin nearest keep [2%nat] d_half (o_half (Some ([2%nat], fun _ => 0)) 1 tz) = Ok out /\ r_smooth out = Some (1 / 2) /\ r_score out = Some (1 / 2) /\
  exists t, influence 1 [2%nat] (1 / 2) t /\ best_fit 1 [2%nat] (1 / 2) (fun _ => 1) (series [1; 0] 0) (series [3 / 4; 1 / 4] 0) /\
    gcv_of (total [2%nat] (fun i => w_half i * (1 - series [3 / 4; 1 / 4] 0 i) ^ 2)) 1 t 2 = 1.
Proof.
  intros TZ. assert (U : usable [2%nat] d_half (o_half (Some ([2%nat], fun _ => 0)) 1 tz)) by (apply half_usable; [intros g0 E; injection E as <-; reflexivity|lia|exact TZ]).
  destruct (run_score fmin nearest keep [2%nat] d_half _ w_half (fun _ => 1) U eq_refl eq_refl (half_weights _ _ _) (half_values _ _ _)) as (out & s & zp & u & t & rf & A & B & SP & SE & BF & IN & SC & RF & GV & IN1 & IN2).
  specialize (IN1 eq_refl). specialize (IN2 _ _ eq_refl). rewrite IN1 in IN2. injection IN2 as ->. specialize (SE (1 / 2) eq_refl). subst s. change (o_order (o_half (Some ([2%nat], fun _ : index => 0)) 1 tz)) with 1%nat in *.
  apply (influence_gamma [2%nat] (lamN [2%nat]) 1 (1 / 2)) in IN; [|intros k _; reflexivity|lra|left; reflexivity]. rewrite half_trace in IN. subst t.
  assert (BF2 : best_fit 1 [2%nat] (1 / 2) (fun _ => 1) (series [1; 0] 0) (series [3 / 4; 1 / 4] 0)).
  { assert (ES : forall i, In i (indices [2%nat]) -> sm [2%nat] (pen (lamN [2%nat]) 1 (1 / 2)) (series [1; 0] 0) i = series [3 / 4; 1 / 4] 0 i).
    { apply sm_solves; [intros k _; reflexivity|lra|left; reflexivity|]. intros j J. each_index J; unfold rough_op, laplacian, second_diff, series; cbn [Nat.eqb Nat.ltb Nat.leb hd nth Nat.sub]; lra. }
    pose proof (sm_best [2%nat] (lamN [2%nat]) 1 (1 / 2) ltac:(intros k _; reflexivity) ltac:(lra) ltac:(left; reflexivity) (series [1; 0] 0)) as BB. intros z2. destruct (BB z2) as [B1 B2].
    rewrite <- (penalised_ext_z 1 [2%nat] (1 / 2) (fun _ => 1) (series [1; 0] 0) _ _ (or_introl eq_refl) ES). split; [exact B1|]. intros H i I. rewrite (B2 H i I). apply ES, I. }
  assert (UE : forall i, In i (indices [2%nat]) -> u i = series [3 / 4; 1 / 4] 0 i).
  { intros i I. apply (best_unique [2%nat] 1 (1 / 2) (fun _ => 1) (series [1; 0] 0) (series [3 / 4; 1 / 4] 0) u BF2); [|exact I]. intros z2.
    assert (EQ : forall v, penalised 1 [2%nat] (1 / 2) (fun _ => 1) (series [1; 0] 0) v = penalised 1 [2%nat] (1 / 2) (fun _ => 1) (fun i => if Req_EM_T (w_half i) 0 then 0 else w_half i * 1 + (1 - w_half i) * 0) v).
    { intros v. apply penalised_ext; [reflexivity|]. intros j J _. each_index J; unfold w_half, series; cbn [hd nth]; destruct (Req_EM_T _ 0); lra. }
    rewrite !EQ. apply BF. }
  exists out. split; [exact A|]. split; [exact B|]. assert (RS : total [2%nat] (fun i => w_half i * (1 - series [3 / 4; 1 / 4] 0 i) ^ 2) = 1 / 16).
  { unfold total. cbn [indices seq flat_map map app]. unfold w_half, series. cbn [hd nth]. unfold rsum. cbn. lra. }
  split.
  - rewrite SC. f_equal. rewrite (total_ext [2%nat] _ (fun i => w_half i * (1 - series [3 / 4; 1 / 4] 0 i) ^ 2)) by (intros i I; rewrite (UE i I); reflexivity). rewrite RS. change (INR (size [2%nat])) with (1 + 1). unfold gcv_of. field.
  - exists (3 / 2). split; [apply (influence_gamma [2%nat] (lamN [2%nat]) 1 (1 / 2)); [intros k _; reflexivity|lra|left; reflexivity|symmetry; exact half_trace]|]. split; [exact BF2|]. rewrite RS. unfold gcv_of. field.
Qed.
