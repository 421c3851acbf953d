(* Proofs about smoothn, continued: statements for callers, and concrete calls. *)
From Coq Require Import Lra Lia FunctionalExtensionality.
From Verif Require Import Base RStats RStatsProofs MetricsModel MetricsProofs DctModel DctSpec DctProofs1 DctProofs2 DctProofs3 DctProofs4 DctProofs5 DctProofs6 DctProofs7 DctProofs8 DctProofs9 DctProofs10.
Open Scope R_scope.

Lemma complete_weights shape d o y : usable shape d o -> complete shape d o y -> forall i, In i (indices shape) -> wv o shape d i = 1.
Proof.
  intros U [C W] i I. destruct (usable_weights shape d o U i I) as [_ H]. specialize (H (proj1 (C i I))). destruct (o_weights o) as [[sh v]|] eqn:E; [|exact H].
  destruct H as (m & M1 & (j & J & M2) & M3). rewrite (W sh v eq_refl i j I J), M2 in M3. destruct U as (_ & _ & _ & UW & _). destruct (UW sh v E) as (_ & _ & k & K & P). pose proof (M1 k K). apply (Rmult_eq_reg_r m); lra.
Qed.
Lemma complete_values shape d o y : usable shape d o -> complete shape d o y -> forall i, In i (indices shape) -> yv o d i = y i.
Proof. intros U [C _] i I. destruct (C i I) as [G E]. unfold yv. rewrite (proj2 (valid_spec o d i) G), E. reflexivity. Qed.

Section Calls.
Variable fmin : (R -> option R) -> R -> R -> R -> R.
Variable nearest : list nat -> arr bool -> index -> index.
Variable keep : nat -> nat.
Notation run := (smoothn fmin nearest keep).

Lemma complete_smooth shape d o y : usable shape d o -> o_robust o = false -> complete shape d o y ->
  exists out s lam, run shape d o = Ok out /\ r_flag out = 1%Z /\ r_smooth out = Some s /\ 0 < s /\ (forall s', o_smooth o = Some s' -> s = s') /\ pen_nonneg_lam shape lam /\ lambda shape None = Ok lam /\
    gives shape out (sm shape (pen lam (o_order o) s) y).
Proof.
  intros U RB C. destruct (usable_ready shape d o U) as (lam & RD & L). pose proof U as (_ & AX & OR & _ & _ & _ & MI & TZ & SMP).
  destruct (complete_run_lam fmin nearest keep shape d o lam RD OR MI TZ SMP RB (complete_weights shape d o y U C)) as (out & s & zz & A & B & E & D & F & G & H).
  exists out, s, lam. repeat (split; [assumption|]). split. { destruct RD as (_ & _ & _ & _ & X & _). rewrite AX in X. exact X. }
  exists zz. split; [exact G|]. intros i I. rewrite (H i I). f_equal. apply sm_ext; [reflexivity| |exact I]. apply (complete_values shape d o y U C).
Qed.
Lemma complete_best shape d o y : usable shape d o -> o_robust o = false -> complete shape d o y ->
  exists out s u, run shape d o = Ok out /\ r_flag out = 1%Z /\ r_smooth out = Some s /\ 0 < s /\ (forall s', o_smooth o = Some s' -> s = s') /\ gives shape out u /\
    best_fit (o_order o) shape s (fun _ => 1) y u /\ total shape u = total shape y.
Proof.
  intros U RB C. destruct (complete_smooth shape d o y U RB C) as (out & s & lam & A & B & E & D & F & L & LL & G). exists out, s. eexists. repeat (split; [eassumption|]). pose proof U as (_ & _ & OR & _). split.
  - apply (fixed_best_ones shape lam (o_order o) s L ltac:(lra) OR). intros i I. apply (sm_all_ones shape (pen lam (o_order o) s) y i I).
  - apply sm_total; [exact L|lra|exact OR].
Qed.
Lemma superposition shape o s a b d1 d2 d3 y1 y2 : usable shape d1 o -> usable shape d2 o -> usable shape d3 o -> o_robust o = false -> o_smooth o = Some s ->
  complete shape d1 o y1 -> complete shape d2 o y2 -> complete shape d3 o (fun i => a * y1 i + b * y2 i) ->
  exists out1 out2 out3 u1 u2 u3, run shape d1 o = Ok out1 /\ run shape d2 o = Ok out2 /\ run shape d3 o = Ok out3 /\ gives shape out1 u1 /\ gives shape out2 u2 /\ gives shape out3 u3 /\
    forall i, In i (indices shape) -> u3 i = a * u1 i + b * u2 i.
Proof.
  intros U1 U2 U3 RB SO C1 C2 C3.
  destruct (complete_smooth shape d1 o y1 U1 RB C1) as (o1 & s1 & lam & A1 & _ & _ & _ & F1 & L & L1 & G1).
  destruct (complete_smooth shape d2 o y2 U2 RB C2) as (o2 & s2 & lam2 & A2 & _ & _ & _ & F2 & _ & L2 & G2).
  destruct (complete_smooth shape d3 o _ U3 RB C3) as (o3 & s3 & lam3 & A3 & _ & _ & _ & F3 & _ & L3 & G3).
  assert (lam2 = lam) by congruence. assert (lam3 = lam) by congruence. subst lam2 lam3. rewrite (F1 s SO) in *. rewrite (F2 s SO) in *. rewrite (F3 s SO) in *.
  exists o1, o2, o3. do 3 eexists. repeat (split; [eassumption|]). intros i I. apply sm_linear, I.
Qed.
Lemma in_range shape d o y lo hi : usable shape d o -> o_robust o = false -> complete shape d o y -> o_order o = 1%nat -> (forall i, In i (indices shape) -> lo <= y i <= hi) ->
  exists out u, run shape d o = Ok out /\ gives shape out u /\ forall i, In i (indices shape) -> lo <= u i <= hi.
Proof.
  intros U RB C O1 Y. destruct (complete_best shape d o y U RB C) as (out & s & u & A & _ & _ & SP & _ & G & B & _). exists out, u. split; [exact A|]. split; [exact G|]. rewrite O1 in B.
  intros i I. pose proof (Y i I). apply (best_in_range shape s (fun _ => 1) y u lo hi); try assumption; try lra; intros; [lra|apply Y; assumption].
Qed.
Lemma nonrobust_flag shape d o : usable shape d o -> o_robust o = false -> exists out, run shape d o = Ok out /\ r_flag out = 1%Z.
Proof. intros U RB. destruct (nonrobust_run fmin nearest keep shape d o U RB) as (lam & st & s & _ & _ & _ & _ & _ & _ & _ & E). eexists. split; [exact E|reflexivity]. Qed.
Lemma side_products shape d o : usable shape d o -> exists out, run shape d o = Ok out /\ r_distance out = None /\ forall i, (gap o d i -> r_data out i = Some 0) /\ (~ gap o d i -> r_data out i = d i).
Proof.
  intros U. destruct (run_ind fmin nearest keep shape d o (fun _ => True) (fun _ => True) U (fun _ _ _ _ _ _ _ => Logic.I) (fun _ _ _ _ _ => or_introl Logic.I) Logic.I) as (st & flag & s1 & E & _).
  exists (outv nearest keep o shape d st flag). split; [exact E|]. split; [reflexivity|]. intros i. cbn [r_data outv]. split; intros G.
  - rewrite (proj2 (valid_gap o d i) G). reflexivity.
  - rewrite (proj2 (valid_spec o d i) G). reflexivity.
Qed.
(* nothing but gaps *)
Lemma all_missing shape o : usable shape (fun _ => None) o -> o_gap o = None -> o_exclude o = None -> o_init o = None -> (3 <= o_maxiter o)%nat ->
  exists out, run shape (fun _ => None) o = Ok out /\ r_flag out = 1%Z /\ gives shape out (fun _ => 0).
Proof.
  intros U GN EN IN MI. set (d := fun _ : index => @None R) in *. pose proof U as (_ & _ & OR & _ & _ & _ & _ & _ & SMP).
  assert (V : forall i, valid_at o d i = false) by (intros i; apply valid_gap; left; rewrite GN; reflexivity).
  assert (SN : forall s, o_smooth o = Some s -> 0 <= s) by (intros s E; left; apply SMP, E).
  assert (Y : yv o d = fun _ => 0) by (apply functional_extensionality; intros i; unfold yv; rewrite V; reflexivity).
  assert (W : forall i, wv o shape d i = 0) by (intros i; unfold wv; rewrite V; reflexivity).
  destruct (run_ind fmin nearest keep shape d o (fun st => (forall i, wtot st i = 0) /\ forall i, In i (indices shape) -> z st i = 0) (fun st => (forall i, wtot st i = 0) /\ forall i, In i (indices shape) -> z st i = 0) U) as (st & flag & s & E & _ & _ & _ & QS & FL).
  - intros lam j st st' L PS E. assert (P : (forall i, wtot st i = 0) /\ forall i, In i (indices shape) -> z st i = 0) by tauto. destruct P as [PW PZ].
    destruct (step_ok fmin shape (o_order o) lam (yv o d) (valid_at o d) (rfv (weightedv o shape d)) (o_smooth o) OR SN j st) as (st1 & s1 & E1 & _ & S0 & _ & _ & EZ & _ & EW & _). rewrite E in E1. injection E1 as <-.
    split; [intros i; rewrite EW; apply PW|]. intros i I. rewrite EZ, (PZ i I). rewrite (sm_const shape lam (o_order o) s1 0); try assumption; [ring|]. intros k K. unfold pull. rewrite (PW k), (PZ k K). ring.
  - intros st w _ [PW PZ] _. left. split; [intros i; cbn; rewrite W; ring|exact PZ].
  - split; [exact W|]. cbn [z]. unfold startv. rewrite IN. intros i I. destruct (weightedv o shape d); [|reflexivity]. unfold calc_init_guess. rewrite Y.
    transitivity (idctNd shape (fun k => 0 * 0 + 0 * 0) i); [|rewrite (idct_linear shape 0 0 (fun _ => 0) (fun _ => 0)) by exact I; ring]. apply idct_ext; [|exact I]. intros k K.
    assert (dctNd shape (fun i => if negb (valid_at o d i) then 0 else 0) k = 0).
    { transitivity (dctNd shape (fun _ => 0 * 0 + 0 * 0) k); [apply dct_ext; [intros j _; destruct (negb (valid_at o d j)); ring|exact K]|]. rewrite (dct_linear shape 0 0 (fun _ => 0) (fun _ => 0)) by exact K. ring. }
    rewrite H. destruct (inside keep shape k); ring.
  - exists (outv nearest keep o shape d st flag). split; [exact E|]. split; [destruct FL as [->|[_ X]]; [reflexivity|lia]|]. destruct (gives_out nearest keep shape d o st flag EN) as (zz & EZ & ZZ). exists zz. split; [exact EZ|]. intros i I. rewrite (ZZ i I). f_equal.
    destruct QS as [[[_ QZ] _]|[_ (st1 & w & [_ QZ] & _ & ->)]]; apply QZ, I.
Qed.
(* integer axes *)
Lemma int_axis shape d o a : o_axis o = Some (AxInt a) -> o_weights o = None -> (2 <= size shape)%nat -> run shape d o = Err EType.
Proof.
  intros AX WN SZ. unfold smoothn. rewrite WN. cbn [bindR]. rewrite (proj2 (Nat.ltb_ge (size shape) 2)) by exact SZ. rewrite AX.
  match goal with |- (if existsb ?n ?l then _ else _) = _ => assert (E2 : existsb n l = false) end.
  { match goal with |- ?x = false => destruct x eqn:E end; [|reflexivity]. apply existsb_exists in E as (i & I & E). destruct (valid_at o d i); [destruct (Rlt_dec 1 0); [lra|discriminate]|destruct (Rlt_dec 0 0); [lra|discriminate]]. }
  rewrite E2. reflexivity.
Qed.
End Calls.

(* ---- robust weights *)
Lemma robust_cases shape res h mask : (forall i, robust_weights shape res h mask i = 0) \/ exists m, robust_spread shape res mask = Some m /\ m <> 0 /\ h < 1 /\
  forall i, robust_weights shape res h mask i = 1 / (1 + (Rabs (res i / (14826 / 10000 * m)) / sqrt (1 - h) / (2385 / 1000)) ^ 2).
Proof.
  unfold robust_weights. destruct (robust_spread shape res mask) as [m|]; [|left; reflexivity]. destruct (Req_EM_T m 0); [left; reflexivity|]. destruct (Rlt_dec h 1); [|left; reflexivity].
  right. exists m. split; [reflexivity|]. split; [assumption|]. split; [assumption|]. intros i. reflexivity.
Qed.
Lemma robust_range shape res h mask i : 0 <= robust_weights shape res h mask i <= 1.
Proof.
  destruct (robust_cases shape res h mask) as [E|(m & _ & _ & _ & E)]; rewrite E; [lra|]. set (u := (_ / (2385 / 1000)) ^ 2). assert (0 <= u) by apply pow2_ge_0. assert (D : 0 < 1 + u) by lra. split.
  - apply Rmult_le_pos; [lra|left; apply Rinv_0_lt_compat, D].
  - apply (Rmult_le_reg_r (1 + u)); [exact D|]. unfold Rdiv. rewrite Rmult_assoc, Rinv_l by lra. lra.
Qed.
Lemma robust_antitone shape res h mask i j : Rabs (res i) <= Rabs (res j) -> robust_weights shape res h mask j <= robust_weights shape res h mask i.
Proof.
  intros A. destruct (robust_cases shape res h mask) as [E|(m & _ & NZ & H1 & E)]; rewrite !E; [lra|].
  set (f := fun x => (Rabs (x / (14826 / 10000 * m)) / sqrt (1 - h) / (2385 / 1000)) ^ 2). change (1 / (1 + f (res j)) <= 1 / (1 + f (res i))).
  assert (SQ : 0 < sqrt (1 - h)) by (apply sqrt_lt_R0; lra).
  assert (F : f (res i) <= f (res j)).
  { unfold f. apply pow_incr. assert (P : forall x, 0 <= Rabs x * / (2385 / 1000)) by (intros; apply Rmult_le_pos; [apply Rabs_pos|lra]). split.
    - unfold Rdiv. apply Rmult_le_pos; [|lra]. apply Rmult_le_pos; [apply Rabs_pos|left; apply Rinv_0_lt_compat, SQ].
    - unfold Rdiv. apply Rmult_le_compat_r; [lra|]. apply Rmult_le_compat_r; [left; apply Rinv_0_lt_compat, SQ|]. rewrite !Rabs_mult. apply Rmult_le_compat_r; [apply Rabs_pos|exact A]. }
  assert (0 <= f (res i)) by apply pow2_ge_0. unfold Rdiv. rewrite !Rmult_1_l. apply Rinv_le_contravar; lra.
Qed.
Lemma robust_full shape res h mask i m : robust_spread shape res mask = Some m -> m <> 0 -> h < 1 -> (robust_weights shape res h mask i = 1 <-> res i = 0).
Proof.
  intros S1 NZ H1. unfold robust_weights. rewrite S1. destruct (Req_EM_T m 0); [contradiction|]. destruct (Rlt_dec h 1); [|contradiction].
  assert (SQ : 0 < sqrt (1 - h)) by (apply sqrt_lt_R0; lra). set (u := Rabs (res i / (14826 / 10000 * m)) / sqrt (1 - h) / (2385 / 1000)). assert (0 <= u ^ 2) by apply pow2_ge_0. split; intros E.
  - assert (U2 : u ^ 2 = 0). { assert (X : 1 / (1 + u ^ 2) * (1 + u ^ 2) = 1) by (field; lra). rewrite E in X. lra. }
    apply (fun e => Rsqr_0_uniq u (eq_trans (Rsqr_pow2 _) e)) in U2. unfold u, Rdiv in U2. apply Rmult_integral in U2 as [U2|U2]; [|lra]. apply Rmult_integral in U2 as [U2|U2]; [|pose proof (Rinv_0_lt_compat _ SQ); lra].
    destruct (Req_dec (res i) 0) as [Z|Z]; [exact Z|]. exfalso. apply (Rabs_no_R0 (res i * / (14826 / 10000 * m))); [|exact U2]. apply Rmult_integral_contrapositive_currified; [exact Z|]. apply Rinv_neq_0_compat. apply Rmult_integral_contrapositive_currified; [lra|exact NZ].
  - unfold u. rewrite E. replace (0 / (14826 / 10000 * m)) with 0 by (unfold Rdiv; ring). rewrite Rabs_R0. unfold Rdiv. rewrite !Rmult_0_l. field.
Qed.
Lemma robust_no_mask shape res h i : robust_weights shape res h None i = 0.
Proof.
  unfold robust_weights, robust_spread. assert (E : filter (fun _ : index => negb true) (indices shape) = []) by (induction (indices shape); [reflexivity|assumption]). rewrite E. reflexivity.
Qed.
