(* Proofs about the smoothing parameter and the score of smoothn, continued: the call as a whole. *)
From Coq Require Import Lra Lia.
From Verif Require Import Base RStats RStatsProofs MetricsModel MetricsProofs DctModel DctSpec DctProofs1 DctProofs2 DctProofs3 DctProofs4 DctProofs5 DctProofs6 DctProofs7 DctProofs8 DctProofs9 DctProofs11 DctAutoSpec DctAutoProofs.
Open Scope R_scope.

Lemma power_of_two_spec j : power_of_two j = true <-> exists e, j = (2 ^ e)%nat.
Proof.
  unfold power_of_two. rewrite Nat.eqb_eq. split; [intros <-; eexists; reflexivity|]. intros (e & ->). rewrite Nat.log2_pow2 by lia. reflexivity.
Qed.

Section Auto.
Variable fmin : (R -> option R) -> R -> R -> R -> R.
Variables (shape : list nat) (order : nat) (lam data : arr R) (valid : arr bool) (rf : R) (given : option R) (tolz : R).
Hypothesis order_ok : order = 1%nat \/ order = 2%nat.
Hypothesis given_ok : forall s, given = Some s -> 0 < s.
Hypothesis lam_ok : pen_nonneg_lam shape lam.
Hypothesis size_ok : (2 <= size shape)%nat.
Notation step := (inner_step fmin shape order lam data valid rf given).
Notation loop := (inner fmin shape order lam data valid rf given tolz).
Definition objective (st : state) (p : R) : option R :=
  Some (gcv_of (total shape (fun i => wtot st i * (data i - sm shape (pen lam order (pow10 p)) (pull (wtot st) data (z st)) i) ^ 2)) (INR (size shape)) (total shape (gamma (pow10 p) lam order)) (INR (size shape))).

Lemma step_score j st st' : (forall i, In i (indices shape) -> 0 <= wtot st i <= 1) -> step j st = Ok st' -> exists s,
  smooth st' = Some s /\ 0 < s /\ (forall s', given = Some s' -> s = s') /\
  (given = None -> s = pow10 (pbest st') /\
     ((j = 0%nat \/ exists e, j = (2 ^ e)%nat) -> pbest st' = fmin (objective st) (log10 (s_bound order (List.length shape) (99 / 100))) (log10 (s_bound order (List.length shape) (1 / 1000000))) (1 / 10)) /\
     (~ (j = 0%nat \/ exists e, j = (2 ^ e)%nat) -> pbest st' = pbest st)) /\
  score st' = Some (gcv_of (total shape (fun i => wtot st i * (data i - sm shape (pen lam order s) (pull (wtot st) data (z st)) i) ^ 2)) (INR (size shape)) (total shape (gamma s lam order)) (INR (size shape))) /\
  z st' = (fun i => rf * sm shape (pen lam order s) (pull (wtot st) data (z st)) i + (1 - rf) * z st i) /\ wtot st' = wtot st.
Proof.
  intros W E. unfold inner_step in E. change (dctNd shape (fun i => wtot st i * (data i - z st i) + z st i)) with (dctNd shape (pull (wtot st) data (z st))) in E.
  set (c := dctNd shape (pull (wtot st) data (z st))) in *.
  set (ob := fun p : R => match gcv shape (pow10 p) lam c (fun i => Some (data i)) order (weights_arg shape (wtot st)) with Ok r => fst r | Err _ => None end) in *.
  assert (OB : ob = objective st).
  { apply FunctionalExtensionality.functional_extensionality. intros p. unfold ob, c. rewrite (gcv_value shape lam order (pow10 p) (wtot st) data (z st) lam_ok (pow10_pos p) order_ok size_ok W). reflexivity. }
  rewrite OB in E. clear OB ob. set (pn := if (Nat.eqb j 0 || power_of_two j)%bool then _ else pbest st) in *.
  set (p := match given with Some s => log10 s | None => pn end) in *.
  set (s := match given with Some s => if Req_EM_T s 0 then 0 else pow10 p | None => pow10 p end) in *.
  assert (S0 : 0 < s /\ (forall s', given = Some s' -> s = s') /\ (given = None -> s = pow10 p /\ p = pn)).
  { subst s p. destruct given as [s'|] eqn:G.
    - pose proof (given_ok s' eq_refl) as P. destruct (Req_EM_T s' 0) as [Z|NZ]; [lra|]. rewrite pow10_log10 by exact P. split; [exact P|]. split; [intros ? [= <-]; reflexivity|discriminate].
    - split; [apply pow10_pos|]. split; [discriminate|auto]. }
  destruct S0 as (SP & SG & SN). clearbody s. unfold c in E. rewrite (gcv_value shape lam order s (wtot st) data (z st) lam_ok SP order_ok size_ok W) in E. cbn [bindR fst snd] in E. injection E as <-.
  exists s. cbn [smooth pbest score z wtot]. split; [reflexivity|]. split; [exact SP|]. split; [exact SG|]. split; [|split; [reflexivity|split; reflexivity]].
  intros G. destruct (SN G) as [E1 E2]. split; [exact E1|]. rewrite E2. unfold pn. split; intros H.
  - replace (Nat.eqb j 0 || power_of_two j)%bool with true; [reflexivity|]. symmetry. apply orb_true_iff. destruct H as [->|H]; [left; reflexivity|right; apply power_of_two_spec, H].
  - destruct (Nat.eqb j 0 || power_of_two j)%bool eqn:B; [|reflexivity]. exfalso. apply H. apply orb_true_iff in B as [B|B]; [left; apply Nat.eqb_eq, B|right; apply power_of_two_spec, B].
Qed.
(* the last iteration *)
Lemma inner_last fuel : forall j st st1, exceeds (tol st) tolz = true -> loop (S fuel) j st = Ok st1 -> exists j' st', step j' st' = Ok st1 /\ wtot st' = wtot st /\ (fuel = 0%nat -> j' = j /\ st' = st).
Proof.
  induction fuel as [|f IH]; intros j st st1 X H; cbn [inner] in H; rewrite X in H; destruct (step j st) as [st2|] eqn:E; try discriminate; cbn [bindR] in H.
  - injection H as <-. exists j, st. auto.
  - destruct (exceeds (tol st2) tolz) eqn:X2.
    + destruct (IH (S j) st2 st1 X2) as (j' & st' & E' & W & _); [cbn [inner]; rewrite X2; exact H|]. exists j', st'. split; [exact E'|]. split; [|discriminate]. rewrite W.
      destruct (step_ok fmin shape order lam data valid rf given order_ok ltac:(intros q Q; left; apply given_ok, Q) j st) as (st3 & s & E3 & _ & _ & _ & _ & _ & _ & EW & _). rewrite E in E3. injection E3 as <-. exact EW.
    + injection H as <-. exists j, st. split; [exact E|]. split; [reflexivity|discriminate].
Qed.
End Auto.

Lemma gcv_of_ext a b m t n : a = b -> gcv_of a m t n = gcv_of b m t n.
Proof. intros ->. reflexivity. Qed.
Section Call.
Variable fmin : (R -> option R) -> R -> R -> R -> R.
Variable nearest : list nat -> arr bool -> index -> index.
Variable keep : nat -> nat.
Notation run := (smoothn fmin nearest keep).

(* the last iteration of a call that is not robust *)
Lemma last_step shape d o : usable shape d o -> o_robust o = false -> exists lam st j st', pen_nonneg_lam shape lam /\
  run shape d o = Ok (outv nearest keep o shape d st 1) /\
  inner_step fmin shape (o_order o) lam (yv o d) (valid_at o d) (rfv (weightedv o shape d)) (o_smooth o) j st' = Ok st /\ wtot st' = wv o shape d /\
  (o_maxiter o = 1%nat \/ weightedv o shape d = false -> j = 0%nat /\ z st' = startv nearest keep o shape d).
Proof.
  intros U RB. destruct (nonrobust_run fmin nearest keep shape d o U RB) as (lam & st & s & L & LL & H & ES & SP & SE & EW & EO).
  destruct U as (_ & AX & OR & _ & _ & _ & MI & TZ & SMP). unfold innerv in H. destruct (o_maxiter o) as [|m] eqn:EM; [lia|].
  set (st0 := St _ _ _ _ _ _ _ _) in *. assert (X : exceeds (tol st0) (o_tolz o) = true). { cbn. destruct (Rlt_dec (o_tolz o) 1); [reflexivity|lra]. }
  destruct (weightedv o shape d) eqn:WD.
  - destruct (inner_last fmin shape (o_order o) lam (yv o d) (valid_at o d) (rfv true) (o_smooth o) (o_tolz o) OR SMP m 0%nat st0 st X H) as (j & st' & E & W & F).
    exists lam, st, j, st'. split; [exact L|]. split; [exact EO|]. split; [exact E|]. split; [exact W|]. intros [M|M]; [|discriminate]. destruct (F ltac:(lia)) as [-> ->]. split; reflexivity.
  - assert (GO : forall s, o_smooth o = Some s -> 0 <= s) by (intros q E; left; apply SMP, E).
    destruct (step_ok fmin shape (o_order o) lam (yv o d) (valid_at o d) (rfv false) (o_smooth o) OR GO 0 st0) as (st' & s2 & E & _ & _ & _ & _ & _ & _ & _ & _ & ET).
    assert (st = st'). { cbn [inner] in H. rewrite X, E in H. cbn [bindR] in H. destruct m; cbn [inner] in H; [congruence|].
      destruct (next_tol_unweighted _ _ _ _ _ (eq_sym ET)) as [T|T]; rewrite T in H; [|cbn in H; congruence]. cbn in H. destruct (Rlt_dec (o_tolz o) 0); [lra|congruence]. }
    subst st'. exists lam, st, 0%nat, st0. split; [exact L|]. split; [exact EO|]. split; [exact E|]. split; [reflexivity|]. intros _. split; reflexivity.
Qed.

Lemma run_score shape d o w y : usable shape d o -> o_robust o = false -> o_exclude o = None -> weights_of o shape d w -> values_of o shape d y -> exists out s zp u t rf,
  run shape d o = Ok out /\ r_smooth out = Some s /\ 0 < s /\ (forall s', o_smooth o = Some s' -> s = s') /\
  best_fit (o_order o) shape s (fun _ => 1) (fun i => if Req_EM_T (w i) 0 then zp i else w i * y i + (1 - w i) * zp i) u /\ influence (o_order o) shape s t /\
  r_score out = Some (gcv_of (total shape (fun i => w i * (y i - u i) ^ 2)) (INR (size shape)) t (INR (size shape))) /\
  (((forall i, In i (indices shape) -> w i = 1) /\ rf = 1) \/ (exists i, In i (indices shape) /\ w i <> 1) /\ rf = 7 / 4) /\
  gives shape out (fun i => rf * u i + (1 - rf) * zp i) /\
  (o_maxiter o = 1%nat -> r_init out = Some zp) /\ (forall sh g, o_init o = Some (sh, g) -> r_init out = Some g).
Proof.
  intros U RB EX WO VO. destruct (last_step shape d o U RB) as (lam & st & j & st' & L & EO & E & EW & F).
  pose proof U as ((_ & SZ) & AX & OR & _ & _ & _ & MI & TZ & SMP).
  assert (W01 : forall i, In i (indices shape) -> 0 <= wtot st' i <= 1) by (intros i I; rewrite EW; apply (usable_wv shape d o U i I)).
  destruct (step_score fmin shape (o_order o) lam (yv o d) (valid_at o d) (rfv (weightedv o shape d)) (o_smooth o) OR SMP L SZ j st' st W01 E) as (s & ES & SP & SG & _ & SC & EZ & EW2).
  assert (WE : forall i, In i (indices shape) -> wtot st' i = w i) by (intros i I; rewrite EW; symmetry; apply (weights_unique shape d o w U WO i I)).
  assert (YE : forall i, In i (indices shape) -> w i <> 0 -> yv o d i = y i).
  { intros i I N. apply (usable_yv shape d o y U VO i I). intros G. apply N, (WO i I), G. }
  set (u := sm shape (pen lam (o_order o) s) (pull (wtot st') (yv o d) (z st'))) in *.
  exists (outv nearest keep o shape d st 1), s, (z st'), u, (total shape (gamma s lam (o_order o))), (rfv (weightedv o shape d)).
  split; [exact EO|]. split; [exact ES|]. split; [exact SP|]. split; [intros s' G; apply SG, G|].
  split.
  { assert (BF : best_fit (o_order o) shape s (fun _ => 1) (pull (wtot st') (yv o d) (z st')) u) by (apply sm_best; [exact L|lra|exact OR]).
    assert (PE : forall i, In i (indices shape) -> pull (wtot st') (yv o d) (z st') i = (if Req_EM_T (w i) 0 then z st' i else w i * y i + (1 - w i) * z st' i)).
    { intros i I. unfold pull. rewrite (WE i I). destruct (Req_EM_T (w i) 0) as [-> |N]; [ring|]. rewrite (YE i I N). ring. }
    intros z2. rewrite <- !(penalised_ext (o_order o) shape s (fun _ => 1) (pull (wtot st') (yv o d) (z st')) (fun _ => 1) (fun i => if Req_EM_T (w i) 0 then z st' i else w i * y i + (1 - w i) * z st' i)) by (auto). apply BF. }
  split; [apply influence_gamma with (lam := lam); auto; lra|].
  split. { unfold outv. cbn [r_score]. rewrite SC. f_equal. apply gcv_of_ext. apply total_ext. intros i I. rewrite (WE i I). destruct (Req_EM_T (w i) 0) as [-> |N]; [ring|]. rewrite (YE i I N). reflexivity. }
  split. { destruct (weightedv o shape d) eqn:WD.
    - right. split; [|reflexivity]. unfold weightedv in WD. apply existsb_exists in WD as (i & I & N). exists i. split; [exact I|]. rewrite (weights_unique shape d o w U WO i I). destruct (Req_EM_T (wv o shape d i) 1); [discriminate|assumption].
    - left. split; [|reflexivity]. intros i I. rewrite (weights_unique shape d o w U WO i I). apply (proj1 (weighted_false o shape d) WD i I). }
  split. { pose proof (gives_out nearest keep shape d o st 1 EX) as G. rewrite EZ in G. exact G. }
  split; [intros M; destruct (F (or_introl M)) as [_ Z0]; unfold outv; cbn [r_init]; rewrite Z0; reflexivity|].
  intros sh g0 IN. unfold outv, startv. cbn [r_init]. rewrite IN. reflexivity.
Qed.

(* complete data: the score of the fit, the parameter found by the search *)
Lemma run_choice shape d o y : usable shape d o -> o_robust o = false -> complete shape d o y -> exists out s v,
  run shape d o = Ok out /\ r_smooth out = Some s /\ 0 < s /\ r_score out = Some v /\ gcv_score (o_order o) shape y s v /\
  (forall s', o_smooth o = Some s' -> s = s') /\
  (o_smooth o = None -> exists f, (forall p, exists v, f p = Some v /\ gcv_score (o_order o) shape y (Rpower 10 p) v) /\
     s = Rpower 10 (fmin f (log10 (s_bound (o_order o) (List.length shape) (99 / 100))) (log10 (s_bound (o_order o) (List.length shape) (1 / 1000000))) (1 / 10))).
Proof.
  intros U RB CO. destruct (last_step shape d o U RB) as (lam & st & j & st' & L & EO & E & EW & F).
  pose proof U as ((_ & SZ) & AX & OR & _ & _ & _ & MI & TZ & SMP).
  pose proof (complete_weights shape d o y U CO) as W1. pose proof (complete_values shape d o y U CO) as Y1.
  destruct (F (or_intror (proj2 (weighted_false o shape d) W1))) as [-> Z0].
  assert (W01 : forall i, In i (indices shape) -> 0 <= wtot st' i <= 1) by (intros i I; rewrite EW, (W1 i I); lra).
  destruct (step_score fmin shape (o_order o) lam (yv o d) (valid_at o d) (rfv (weightedv o shape d)) (o_smooth o) OR SMP L SZ 0%nat st' st W01 E) as (s & ES & SP & SG & SN & SC & EZ & EW2).
  assert (SCORE : forall q, 0 < q -> gcv_score (o_order o) shape y q (gcv_of (total shape (fun i => wtot st' i * (yv o d i - sm shape (pen lam (o_order o) q) (pull (wtot st') (yv o d) (z st')) i) ^ 2)) (INR (size shape)) (total shape (gamma q lam (o_order o))) (INR (size shape)))).
  { intros q Q. exists (sm shape (pen lam (o_order o) q) y), (total shape (gamma q lam (o_order o))). split; [apply sm_best; [exact L|lra|exact OR]|]. split; [apply influence_gamma with (lam := lam); auto; lra|].
    apply gcv_of_ext, total_ext. intros i I. rewrite EW, (W1 i I), (Y1 i I). rewrite (sm_ext shape (pen lam (o_order o) q) (pen lam (o_order o) q) (pull (wv o shape d) (yv o d) (z st')) y (fun _ _ => eq_refl)); [ring| |exact I].
    intros k K. unfold pull. rewrite (W1 k K), (Y1 k K). ring. }
  exists (outv nearest keep o shape d st 1), s. eexists. split; [exact EO|]. split; [exact ES|]. split; [exact SP|]. split; [exact SC|]. split; [apply SCORE, SP|]. split; [exact SG|].
  intros G. destruct (SN G) as [E1 [E2 _]]. exists (objective shape (o_order o) lam (yv o d) st'). split.
  - intros p. eexists. split; [reflexivity|]. apply SCORE, pow10_pos.
  - rewrite E1, (E2 (or_introl eq_refl)). reflexivity.
Qed.
End Call.
