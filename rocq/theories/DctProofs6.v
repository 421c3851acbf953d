(* Proofs about smoothn, continued: complete data; more iterations; stationary points. *)
From Coq Require Import Lra Lia.
From Verif Require Import Base RStats RStatsProofs MetricsModel MetricsProofs DctModel DctSpec DctProofs1 DctProofs2 DctProofs3 DctProofs4 DctProofs5.
Open Scope R_scope.

Section Best.
Variables (shape : list nat) (lam : arr R) (order : nat) (s : R).
Hypothesis L : pen_nonneg_lam shape lam.
Hypothesis SP : 0 <= s.
Hypothesis O : order = 1%nat \/ order = 2%nat.
(* a fixed point is the best fit, if some weight is positive or all are *)
Lemma fixed_minimal w y v : (forall i, In i (indices shape) -> 0 <= w i) -> (forall i, In i (indices shape) -> sm shape (pen lam order s) (pull w y v) i = v i) ->
  forall z2, penalised order shape s w y v <= penalised order shape s w y z2.
Proof.
  intros W F z2. rewrite <- !(cost_penalised shape lam order s) by assumption. rewrite (cost_fixed shape (pen lam order s) (pen_nonneg _ _ _ _ L SP) w y v F z2).
  assert (0 <= total shape (fun i => w i * (z2 i - v i) ^ 2)) by (apply total_nonneg; intros i I; apply Rmult_le_pos; [apply W, I|apply pow2_ge_0]).
  assert (0 <= total shape (fun k => pen lam order s k * dctNd shape (fun i => z2 i - v i) k ^ 2)) by (apply total_nonneg; intros k K; apply Rmult_le_pos; [apply (pen_nonneg shape); assumption|apply pow2_ge_0]).
  lra.
Qed.
Lemma fixed_best_ones y v : (forall i, In i (indices shape) -> sm shape (pen lam order s) (pull (fun _ => 1) y v) i = v i) -> best_fit order shape s (fun _ => 1) y v.
Proof.
  intros F z2. split; [apply fixed_minimal; [intros; lra|exact F]|].
  rewrite <- !(cost_penalised shape lam order s) by assumption. rewrite (cost_fixed shape (pen lam order s) (pen_nonneg _ _ _ _ L SP) (fun _ => 1) y v F z2). intros H i I.
  assert (A : forall i, In i (indices shape) -> 0 <= 1 * (z2 i - v i) ^ 2) by (intros; pose proof (pow2_ge_0 (z2 i0 - v i0)); lra).
  pose proof (total_nonneg shape _ A).
  assert (0 <= total shape (fun k => pen lam order s k * dctNd shape (fun i => z2 i - v i) k ^ 2)) by (apply total_nonneg; intros k K; apply Rmult_le_pos; [apply (pen_nonneg shape); assumption|apply pow2_ge_0]).
  pose proof (total_zero shape (fun i => 1 * (z2 i - v i) ^ 2) A ltac:(lra) i I) as E. cbn beta in E. rewrite Rmult_1_l in E. apply (fun e => Rsqr_0_uniq (z2 i - v i) (eq_trans (Rsqr_pow2 _) e)) in E. lra.
Qed.
End Best.

Lemma next_tol_unweighted shape valid a b t : next_tol shape false valid a b = t -> t = TolNum 0 \/ t = TolNaN.
Proof.
  unfold next_tol. intros <-. destruct (Req_EM_T _ 0); [destruct (Req_EM_T 0 0); [right; reflexivity|congruence]|left; f_equal; unfold Rdiv; ring].
Qed.

Section Complete.
Variable fmin : (R -> option R) -> R -> R -> R -> R.
Variable nearest : list nat -> arr bool -> index -> index.
Variable keep : nat -> nat.
Notation run := (smoothn fmin nearest keep).

Lemma weighted_false o shape d : weightedv o shape d = false <-> forall i, In i (indices shape) -> wv o shape d i = 1.
Proof.
  unfold weightedv. split.
  - intros H i I. destruct (Req_EM_T (wv o shape d i) 1) as [E|E]; [exact E|]. exfalso. assert (X : existsb (fun i => if Req_EM_T (wv o shape d i) 1 then false else true) (indices shape) = true); [|congruence].
    apply existsb_exists. exists i. split; [exact I|]. destruct (Req_EM_T (wv o shape d i) 1); [contradiction|reflexivity].
  - intros H. match goal with |- ?x = false => destruct x eqn:E end; [|reflexivity]. apply existsb_exists in E as (i & I & E). destruct (Req_EM_T (wv o shape d i) 1) as [_|N]; [discriminate|]. exfalso. apply N, H, I.
Qed.

Lemma complete_run_lam shape d o lam : ready o shape d lam -> o_order o = 1%nat \/ o_order o = 2%nat -> (1 <= o_maxiter o)%nat -> 0 <= o_tolz o < 1 -> (forall s, o_smooth o = Some s -> 0 < s) ->
  o_robust o = false -> (forall i, In i (indices shape) -> wv o shape d i = 1) ->
  exists out s zz, run shape d o = Ok out /\ r_flag out = 1%Z /\ r_smooth out = Some s /\ 0 < s /\ (forall s', o_smooth o = Some s' -> s = s') /\
    r_z out = Some zz /\ (forall i, In i (indices shape) -> zz i = Some (sm shape (pen lam (o_order o) s) (yv o d) i)).
Proof.
  intros RD OR MI TZ SMP RB W. rewrite (smoothn_ready fmin nearest keep o shape d lam RD).
  pose proof (proj2 (weighted_false o shape d) W) as NW. unfold outerv. rewrite NW. set (start := startv nearest keep o shape d).
  assert (GO : forall s, o_smooth o = Some s -> 0 <= s) by (intros s E; left; apply SMP, E).
  destruct (o_maxiter o) as [|m] eqn:EM; [lia|]. set (st0 := St start start (TolNum 1) 0 (o_smooth o) (wv o shape d) None false).
  destruct (step_ok fmin shape (o_order o) lam (yv o d) (valid_at o d) (rfv false) (o_smooth o) OR GO 0 st0) as (st' & s & E & ES & SN & SG & SE & EZ & EZ0 & EW & EI & ET).
  pose proof (next_tol_unweighted _ _ _ _ _ (eq_sym ET)) as ET2.
  assert (XF : exceeds (tol st') (o_tolz o) = false). { destruct ET2 as [-> | ->]; [|reflexivity]. cbn. destruct (Rlt_dec (o_tolz o) 0); [lra|reflexivity]. }
  assert (INN : inner fmin shape (o_order o) lam (yv o d) (valid_at o d) (rfv false) (o_smooth o) (o_tolz o) (S m) 0 st0 = Ok st').
  { cbn [inner]. change (exceeds (tol st0) (o_tolz o)) with (if Rlt_dec (o_tolz o) 1 then true else false). destruct (Rlt_dec (o_tolz o) 1); [|lra]. rewrite E. cbn [bindR]. destruct m; cbn [inner]; [reflexivity|]. rewrite XF. reflexivity. }
  cbn [outer]. rewrite INN, RB. cbn [bindR]. rewrite XF, andb_false_r. cbn [fst snd bindR]. rewrite ES.
  replace (match o_smooth o with Some _ | _ => Ok tt end) with (@Ok unit tt) by (destruct (o_smooth o); reflexivity). cbn [bindR].
  eexists. exists s, (zoutv o st'). split; [reflexivity|]. unfold outv. cbn [r_flag r_smooth r_z]. split; [reflexivity|]. split; [exact ES|].
  split. { destruct (o_smooth o) as [s'|] eqn:EO; [rewrite (SE s' eq_refl); apply SMP; reflexivity|apply SG; reflexivity]. }
  split; [exact SE|]. split; [reflexivity|]. intros i I. unfold zoutv.
  assert (NG : ~ gap o d i). { intros G. pose proof (W i I) as Wi. unfold wv in Wi. rewrite (proj2 (valid_gap o d i) G) in Wi. lra. }
  assert (EX : match o_exclude o with Some m => m i = false | None => True end).
  { destruct (o_exclude o) as [mm|] eqn:EE; [|exact Logic.I]. destruct (mm i) eqn:M; [|reflexivity]. exfalso. apply NG. right. exists mm. auto. }
  assert (Z : z st' i = sm shape (pen lam (o_order o) s) (yv o d) i).
  { rewrite EZ. unfold rfv. cbn [z wtot st0]. replace (1 * sm shape (pen lam (o_order o) s) (pull (wv o shape d) (yv o d) start) i + (1 - 1) * start i) with (sm shape (pen lam (o_order o) s) (pull (wv o shape d) (yv o d) start) i) by ring.
    apply sm_ext; [reflexivity| |exact I]. intros j J. unfold pull. rewrite (W j J). ring. }
  destruct (o_exclude o) as [mm|]; [rewrite EX|]; rewrite Z; reflexivity.
Qed.
Lemma complete_run shape d o : usable shape d o -> o_robust o = false -> (forall i, In i (indices shape) -> wv o shape d i = 1) ->
  exists out s zz lam, run shape d o = Ok out /\ r_flag out = 1%Z /\ r_smooth out = Some s /\ 0 < s /\ (forall s', o_smooth o = Some s' -> s = s') /\
    pen_nonneg_lam shape lam /\ r_z out = Some zz /\ (forall i, In i (indices shape) -> zz i = Some (sm shape (pen lam (o_order o) s) (yv o d) i)).
Proof.
  intros U RB W. destruct (usable_ready shape d o U) as (lam & RD & L). destruct U as (_ & _ & OR & _ & _ & _ & MI & TZ & SMP).
  destruct (complete_run_lam shape d o lam RD OR MI TZ SMP RB W) as (out & s & zz & A & B & C & D & E & F & G). exists out, s, zz, lam. repeat (split; [assumption|]). assumption.
Qed.
End Complete.

(* ---- the inner loop *)
Section Inner.
Variable fmin : (R -> option R) -> R -> R -> R -> R.
Variables (shape : list nat) (order : nat) (lam data : arr R) (valid : arr bool) (rf : R) (given : option R) (tolz : R).
Hypothesis order_ok : order = 1%nat \/ order = 2%nat.
Hypothesis given_ok : forall s, given = Some s -> 0 <= s.
Notation step := (inner_step fmin shape order lam data valid rf given).
Notation loop := (inner fmin shape order lam data valid rf given tolz).
Lemma inner_ind (P : state -> Prop) : (forall j st st', P st -> exceeds (tol st) tolz = true -> step j st = Ok st' -> P st') ->
  forall fuel j st, P st -> exists st', loop fuel j st = Ok st' /\ P st'.
Proof.
  intros H. induction fuel as [|f IH]; intros j st PS; cbn [inner]; [exists st; auto|].
  destruct (exceeds (tol st) tolz) eqn:E; [|exists st; auto].
  destruct (step_ok fmin shape order lam data valid rf given order_ok given_ok j st) as (st' & s & ES & _). rewrite ES. cbn [bindR]. apply IH. apply (H j st st' PS E ES).
Qed.
Lemma inner_more : forall fuel j st st1, loop fuel j st = Ok st1 ->
  loop (S fuel) j st = if exceeds (tol st1) tolz then step (j + fuel)%nat st1 else Ok st1.
Proof.
  induction fuel as [|f IH]; intros j st st1 H.
  - cbn [inner] in H. injection H as <-. cbn [inner]. destruct (exceeds (tol st) tolz); [|reflexivity]. rewrite Nat.add_0_r. destruct (step j st); reflexivity.
  - cbn [inner] in H. cbn [inner]. destruct (exceeds (tol st) tolz) eqn:E.
    + destruct (step j st) as [st'|e]; [|discriminate]. cbn [bindR] in *. specialize (IH (S j) st' st1 H). cbn [inner] in IH. rewrite IH. replace (S j + f)%nat with (j + S f)%nat by lia. reflexivity.
    + injection H as <-. rewrite E. reflexivity.
Qed.
End Inner.

Section Weighted.
Variable fmin : (R -> option R) -> R -> R -> R -> R.
Variable nearest : list nat -> arr bool -> index -> index.
Variable keep : nat -> nat.
Notation run := (smoothn fmin nearest keep).
Definition innerv (o : options) (shape : list nat) (d : arr (option R)) (lam : arr R) (m : nat) : res state :=
  inner fmin shape (o_order o) lam (yv o d) (valid_at o d) (rfv (weightedv o shape d)) (o_smooth o) (o_tolz o) m 0
    (St (startv nearest keep o shape d) (startv nearest keep o shape d) (TolNum 1) 0 (o_smooth o) (wv o shape d) None (weightedv o shape d)).

Lemma nonrobust_run shape d o : usable shape d o -> o_robust o = false -> exists lam st s, pen_nonneg_lam shape lam /\ lambda shape None = Ok lam /\
  innerv o shape d lam (o_maxiter o) = Ok st /\ smooth st = Some s /\ 0 < s /\ (forall s', o_smooth o = Some s' -> s = s') /\ wtot st = wv o shape d /\
  run shape d o = Ok (outv nearest keep o shape d st 1).
Proof.
  intros U RB. destruct (usable_ready shape d o U) as (lam & RD & L). rewrite (smoothn_ready fmin nearest keep o shape d lam RD). pose proof RD as (_ & _ & _ & _ & LL & _).
  destruct U as (_ & AX & OR & _ & _ & _ & MI & TZ & SMP). rewrite AX in LL.
  assert (GO : forall s, o_smooth o = Some s -> 0 <= s) by (intros s E; left; apply SMP, E).
  destruct (o_maxiter o) as [|m] eqn:EM; [lia|]. unfold innerv, outerv. rewrite EM, RB. set (st0 := St _ _ _ _ _ _ _ _).
  assert (X : exists st, inner fmin shape (o_order o) lam (yv o d) (valid_at o d) (rfv (weightedv o shape d)) (o_smooth o) (o_tolz o) (S m) 0 st0 = Ok st /\
     (exists s, smooth st = Some s /\ 0 < s /\ (forall s', o_smooth o = Some s' -> s = s')) /\ wtot st = wv o shape d).
  { assert (STEP : forall j st st', inner_step fmin shape (o_order o) lam (yv o d) (valid_at o d) (rfv (weightedv o shape d)) (o_smooth o) j st = Ok st' -> wtot st' = wtot st /\ exists s, smooth st' = Some s /\ 0 < s /\ (forall s', o_smooth o = Some s' -> s = s')).
    { intros j st st' E. destruct (step_ok fmin shape (o_order o) lam (yv o d) (valid_at o d) (rfv (weightedv o shape d)) (o_smooth o) OR GO j st) as (st1 & s & E1 & ES & SN & SG & SE & EZ & EZ0 & EW & EI & ET).
      rewrite E in E1. injection E1 as <-. split; [exact EW|]. exists s. split; [exact ES|]. split; [|exact SE]. destruct (o_smooth o) as [s'|] eqn:EO; [rewrite (SE s' eq_refl); apply SMP; reflexivity|apply SG; reflexivity]. }
    cbn [inner]. change (exceeds (tol st0) (o_tolz o)) with (if Rlt_dec (o_tolz o) 1 then true else false). destruct (Rlt_dec (o_tolz o) 1); [|lra].
    destruct (step_ok fmin shape (o_order o) lam (yv o d) (valid_at o d) (rfv (weightedv o shape d)) (o_smooth o) OR GO 0 st0) as (st1 & s & E1 & _). rewrite E1. cbn [bindR].
    apply (inner_ind fmin shape (o_order o) lam (yv o d) (valid_at o d) (rfv (weightedv o shape d)) (o_smooth o) (o_tolz o) OR GO
      (fun st => (exists s, smooth st = Some s /\ 0 < s /\ (forall s', o_smooth o = Some s' -> s = s')) /\ wtot st = wv o shape d)).
    - intros j st st' [_ Hw] _ E. destruct (STEP j st st' E) as [A B]. split; [exact B|congruence].
    - destruct (STEP _ _ _ E1) as [A B]. split; [exact B|exact A]. }
  destruct X as (st & E & (s & ES & SN & SE) & EW). exists lam, st, s. split; [exact L|]. split; [exact LL|]. split; [exact E|]. split; [exact ES|]. split; [exact SN|]. split; [exact SE|]. split; [exact EW|].
  change (outer fmin shape (o_order o) lam (yv o d) (valid_at o d) (wv o shape d) (rfv (weightedv o shape d)) (o_smooth o) (o_tolz o) false (S m) 3 0 1 st0) with
   (bindR (inner fmin shape (o_order o) lam (yv o d) (valid_at o d) (rfv (weightedv o shape d)) (o_smooth o) (o_tolz o) (S m) 0 st0) (fun st => @Ok (state * Z) (st, 1%Z))).
  rewrite E. cbn [bindR fst snd]. rewrite ES. destruct (o_smooth o); reflexivity.
Qed.

Lemma rf_range b : 0 < 1 - (1 - rfv b) ^ 2. Proof. destruct b; unfold rfv; lra. Qed.
Lemma step_cost shape d o lam j st st' s : usable shape d o -> pen_nonneg_lam shape lam -> o_smooth o = Some s -> wtot st = wv o shape d ->
  inner_step fmin shape (o_order o) lam (yv o d) (valid_at o d) (rfv (weightedv o shape d)) (o_smooth o) j st = Ok st' ->
  penalised (o_order o) shape s (wv o shape d) (yv o d) (z st') <= penalised (o_order o) shape s (wv o shape d) (yv o d) (z st).
Proof.
  intros U L SO EW0 E. pose proof (usable_wv shape d o U) as WV. destruct U as (_ & AX & OR & _ & _ & _ & MI & TZ & SMP).
  assert (GO : forall s, o_smooth o = Some s -> 0 <= s) by (intros s0 E0; left; apply SMP, E0).
  destruct (step_ok fmin shape (o_order o) lam (yv o d) (valid_at o d) (rfv (weightedv o shape d)) (o_smooth o) OR GO j st) as (st1 & s1 & E1 & ES & SN & SG & SE & EZ & EZ0 & EW & EI & ET).
  rewrite E in E1. injection E1 as <-. rewrite (SE s SO) in *. rewrite EZ, EW0.
  rewrite <- !(cost_penalised shape lam (o_order o) s) by assumption.
  pose proof (cost_step shape (pen lam (o_order o) s) (pen_nonneg _ _ _ _ L SN) (wv o shape d) (yv o d) (z st) (rfv (weightedv o shape d))) as C. cbv zeta in C. rewrite C.
  match goal with |- _ - ?a * ?x - ?y <= _ => assert (0 <= a * x); [|assert (0 <= y); [|lra]] end.
  - apply Rmult_le_pos; [pose proof (rf_range (weightedv o shape d)); lra|]. apply total_nonneg. intros k K. apply Rmult_le_pos; [pose proof (pen_nonneg shape lam (o_order o) s L SN k K); lra|apply pow2_ge_0].
  - apply total_nonneg. intros i I. apply Rmult_le_pos; [destruct (WV i I) as [_ ?]; lra|apply pow2_ge_0].
Qed.
End Weighted.
