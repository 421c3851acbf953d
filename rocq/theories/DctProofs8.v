(* Proofs about smoothn, continued: the iteration as seen by its caller. *)
From Coq Require Import Lra Lia.
From Verif Require Import Base RStats RStatsProofs MetricsModel MetricsProofs DctModel DctSpec DctProofs1 DctProofs2 DctProofs3 DctProofs4 DctProofs5 DctProofs6 DctProofs7.
Open Scope R_scope.

Lemma usable_maxiter shape d o m : usable shape d o -> (1 <= m)%nat -> usable shape d (with_maxiter m o).
Proof. intros (A & B & C & D & E & F & G & H & K) M. exact (conj A (conj B (conj C (conj D (conj E (conj F (conj M (conj H K)))))))). Qed.
Lemma usable_init shape d o g : usable shape d o -> usable shape d (with_init (shape, g) o).
Proof. intros (A & B & C & D & E & F & G & H & K). exact (conj A (conj B (conj C (conj D (conj (fun sh w (X : Some (shape, g) = Some (sh, w)) => eq_sym (f_equal fst (f_equal (fun x => match x with Some y => y | None => (shape, g) end) X))) (conj F (conj G (conj H K)))))))). Qed.

Section Api.
Variable fmin : (R -> option R) -> R -> R -> R -> R.
Variable nearest : list nat -> arr bool -> index -> index.
Variable keep : nat -> nat.
Notation run := (smoothn fmin nearest keep).

Lemma gives_out shape d o st flag : o_exclude o = None -> gives shape (outv nearest keep o shape d st flag) (z st).
Proof. intros E. exists (zoutv o st). split; [reflexivity|]. intros i _. unfold zoutv. rewrite E. reflexivity. Qed.
Lemma gives_unique shape out u v : gives shape out u -> gives shape out v -> forall i, In i (indices shape) -> u i = v i.
Proof. intros (zz & E & A) (zz' & E' & A') i I. rewrite E in E'. injection E' as <-. specialize (A i I). specialize (A' i I). congruence. Qed.

(* more iterations *)
Lemma more_iterations shape d o s m m' w y : usable shape d o -> o_robust o = false -> o_exclude o = None -> o_smooth o = Some s -> weights_of o shape d w -> values_of o shape d y ->
  (1 <= m <= m')%nat -> exists out out' u u' start,
    run shape d (with_maxiter m o) = Ok out /\ run shape d (with_maxiter m' o) = Ok out' /\ r_smooth out = Some s /\ r_smooth out' = Some s /\ gives shape out u /\ gives shape out' u' /\ r_init out = Some start /\
    penalised (o_order o) shape s w y u' <= penalised (o_order o) shape s w y u <= penalised (o_order o) shape s w y start.
Proof.
  intros U RB EX SO WO VO MM.
  destruct (nonrobust_run fmin nearest keep shape d (with_maxiter m o) (usable_maxiter shape d o m U ltac:(lia)) RB) as (lam & st & s1 & L & LL & EI & ES & SP & SE & EW & ER).
  destruct (nonrobust_run fmin nearest keep shape d (with_maxiter m' o) (usable_maxiter shape d o m' U ltac:(lia)) RB) as (lam' & st' & s1' & L' & LL' & EI' & ES' & SP' & SE' & EW' & ER').
  assert (lam' = lam) by congruence. subst lam'. rewrite (SE s SO) in *. rewrite (SE' s SO) in *. clear SE SE' L' LL'.
  change (o_maxiter (with_maxiter m o)) with m in EI. change (o_maxiter (with_maxiter m' o)) with m' in EI'.
  change (innerv fmin nearest keep (with_maxiter m o) shape d lam m) with (innerv fmin nearest keep o shape d lam m) in EI. change (innerv fmin nearest keep (with_maxiter m' o) shape d lam m') with (innerv fmin nearest keep o shape d lam m') in EI'.
  exists (outv nearest keep (with_maxiter m o) shape d st 1), (outv nearest keep (with_maxiter m' o) shape d st' 1), (z st), (z st'), (startv nearest keep o shape d).
  split; [exact ER|]. split; [exact ER'|]. split; [exact ES|]. split; [exact ES'|]. split; [apply gives_out, EX|]. split; [apply gives_out, EX|]. split; [reflexivity|].
  assert (PE : forall v, penalised (o_order o) shape s w y v = penalised (o_order o) shape s (wv o shape d) (yv o d) v).
  { intros v. apply penalised_ext; [intros i I; apply weights_unique; assumption|]. intros i I NZ. symmetry. apply (usable_yv shape d o y U VO i I). intros G. apply NZ. apply (proj1 (WO i I) G). }
  rewrite !PE. clear PE. pose proof U as (_ & _ & OR & _ & _ & _ & _ & TZ & SMP).
  assert (GO : forall s, o_smooth o = Some s -> 0 <= s) by (intros s0 E0; left; apply SMP, E0).
  assert (MONO : forall k a b, innerv fmin nearest keep o shape d lam k = Ok a -> innerv fmin nearest keep o shape d lam (S k) = Ok b -> wtot a = wv o shape d /\
     penalised (o_order o) shape s (wv o shape d) (yv o d) (z b) <= penalised (o_order o) shape s (wv o shape d) (yv o d) (z a)).
  { intros k a b A B. unfold innerv in *. assert (WA : wtot a = wv o shape d).
    { destruct (inner_ind fmin shape (o_order o) lam (yv o d) (valid_at o d) (rfv (weightedv o shape d)) (o_smooth o) (o_tolz o) OR GO (fun st => wtot st = wv o shape d)) with (fuel := k) (j := 0%nat) (st := St (startv nearest keep o shape d) (startv nearest keep o shape d) (TolNum 1) 0 (o_smooth o) (wv o shape d) None (weightedv o shape d)) as (a' & A' & WA).
      - intros j x x' X _ E. destruct (step_ok fmin shape (o_order o) lam (yv o d) (valid_at o d) (rfv (weightedv o shape d)) (o_smooth o) OR GO j x) as (x1 & s0 & E1 & _ & _ & _ & _ & _ & _ & W1 & _). rewrite E in E1. injection E1 as <-. congruence.
      - reflexivity.
      - congruence. }
    split; [exact WA|]. rewrite (inner_more fmin shape (o_order o) lam (yv o d) (valid_at o d) (rfv (weightedv o shape d)) (o_smooth o) (o_tolz o) OR k 0%nat _ a A) in B. destruct (exceeds (tol a) (o_tolz o)).
    - apply (step_cost fmin shape d o lam _ a b s U L SO WA B).
    - injection B as <-. lra. }
  assert (TOT : forall k, exists a, innerv fmin nearest keep o shape d lam k = Ok a).
  { intros k. destruct (inner_ind fmin shape (o_order o) lam (yv o d) (valid_at o d) (rfv (weightedv o shape d)) (o_smooth o) (o_tolz o) OR GO (fun _ => True)) with (fuel := k) (j := 0%nat) (st := St (startv nearest keep o shape d) (startv nearest keep o shape d) (TolNum 1) 0 (o_smooth o) (wv o shape d) None (weightedv o shape d)) as (a & A & _); auto.
    exists a. exact A. }
  assert (CH : forall p k a b, innerv fmin nearest keep o shape d lam k = Ok a -> innerv fmin nearest keep o shape d lam (p + k) = Ok b ->
     penalised (o_order o) shape s (wv o shape d) (yv o d) (z b) <= penalised (o_order o) shape s (wv o shape d) (yv o d) (z a)).
  { induction p as [|p IH]; intros k a b A B; [change (0 + k)%nat with k in B; rewrite A in B; injection B as <-; lra|]. destruct (TOT (p + k)%nat) as (c & C). pose proof (IH k a c A C). pose proof (proj2 (MONO _ c b C B)). lra. }
  split.
  - apply (CH (m' - m)%nat m); [exact EI|]. replace (m' - m + m)%nat with m' by lia. exact EI'.
  - apply (CH m 0%nat (St (startv nearest keep o shape d) (startv nearest keep o shape d) (TolNum 1) 0 (o_smooth o) (wv o shape d) None (weightedv o shape d)) st eq_refl). rewrite Nat.add_0_r. exact EI.
Qed.

(* one iteration *)
Definition fed (g : arr R) (shape : list nat) (o : options) : options := with_maxiter 1 (with_init (shape, g) o).
Lemma one_step shape d o s g : usable shape d o -> o_robust o = false -> o_exclude o = None -> o_smooth o = Some s -> exists lam out,
  pen_nonneg_lam shape lam /\ lambda shape None = Ok lam /\ run shape d (fed g shape o) = Ok out /\ gives shape out (relax shape (pen lam (o_order o) s) (wv o shape d) (rfv (weightedv o shape d)) (yv o d) g).
Proof.
  intros U RB EX SO. assert (U2 : usable shape d (fed g shape o)) by (apply usable_maxiter; [apply usable_init, U|lia]).
  destruct (nonrobust_run fmin nearest keep shape d (fed g shape o) U2 RB) as (lam & st & s1 & L & LL & EI & ES & SP & SE & EW & ER).
  exists lam, (outv nearest keep (fed g shape o) shape d st 1). split; [exact L|]. split; [exact LL|]. split; [exact ER|].
  destruct (gives_out shape d (fed g shape o) st 1 EX) as (zz & EZ & ZZ). exists zz. split; [exact EZ|]. intros i I. rewrite (ZZ i I). f_equal.
  clear zz EZ ZZ. unfold innerv in EI. cbn [o_maxiter fed with_maxiter inner] in EI.
  pose proof U2 as (_ & _ & OR & _ & _ & _ & _ & TZ & SMP).
  assert (GO : forall s, o_smooth o = Some s -> 0 <= s) by (intros s0 E0; left; apply SMP, E0).
  change (exceeds (tol (St ?a ?b (TolNum 1) ?c ?e ?f ?h ?k)) (o_tolz (fed g shape o))) with (if Rlt_dec (o_tolz o) 1 then true else false) in EI.
  cbn [exceeds tol] in EI. change (o_tolz (with_maxiter 1 (with_init (shape, g) o))) with (o_tolz o) in EI. change (o_tolz (fed g shape o)) with (o_tolz o) in TZ. destruct (Rlt_dec (o_tolz o) 1); [|lra].
  match type of EI with bindR (inner_step _ _ _ _ _ _ _ _ _ ?x) _ = _ => set (st0 := x) in * end.
  destruct (step_ok fmin shape (o_order o) lam (yv o d) (valid_at o d) (rfv (weightedv o shape d)) (o_smooth o) OR GO 0 st0) as (st1 & s2 & E1 & _ & _ & _ & SE2 & EZ & _).
  assert (E : st1 = st). { unfold fed in EI. change (inner_step fmin shape (o_order (with_maxiter 1 (with_init (shape, g) o))) lam (yv (with_maxiter 1 (with_init (shape, g) o)) d) (valid_at (with_maxiter 1 (with_init (shape, g) o)) d) (rfv (weightedv (with_maxiter 1 (with_init (shape, g) o)) shape d)) (o_smooth (with_maxiter 1 (with_init (shape, g) o))) 0 st0)
     with (inner_step fmin shape (o_order o) lam (yv o d) (valid_at o d) (rfv (weightedv o shape d)) (o_smooth o) 0 st0) in EI. rewrite E1 in EI. cbn [bindR] in EI. congruence. }
  subst st1. rewrite EZ, (SE2 s SO). reflexivity.
Qed.

(* the constants of the convergence *)
Lemma pen_setting shape d o s lam : usable shape d o -> o_smooth o = Some s -> pen_nonneg_lam shape lam ->
  exists pmin pmax, size shape <> 0%nat /\ pen lam (o_order o) s (origin shape) = 0 /\ 0 < pmin /\ 0 <= pmax /\
   (forall k, In k (indices shape) -> k <> origin shape -> pmin <= pen lam (o_order o) s k) /\ (forall k, In k (indices shape) -> pen lam (o_order o) s k <= pmax).
Proof.
  intros U SO L. destruct U as ((_ & SZ) & _ & OR & _ & _ & _ & _ & _ & SMP). pose proof (SMP s SO) as SP.
  destruct (finite_bounds (pen lam (o_order o) s) (indices shape)) as [(b & B) _].
  destruct (finite_bounds (pen lam (o_order o) s) (filter (fun k => if list_eq_dec Nat.eq_dec k (origin shape) then false else true) (indices shape))) as [_ LOW].
  destruct LOW as (a & A & LA).
  { intros k K. apply filter_In in K as [K NE]. destruct (list_eq_dec Nat.eq_dec k (origin shape)) as [|N]; [discriminate|]. unfold pen. rewrite (L k K). apply Rmult_lt_0_compat; [exact SP|]. apply pow_lt, lamN_pos; assumption. }
  exists a, (Rmax 0 b). split; [lia|]. split.
  { unfold pen. rewrite (L _ (origin_in shape ltac:(lia))), lamN_origin. destruct OR as [-> | ->]; ring. }
  split; [exact A|]. split; [apply Rmax_l|]. split.
  { intros k K NE. apply LA. apply filter_In. split; [exact K|]. destruct (list_eq_dec Nat.eq_dec k (origin shape)); [contradiction|reflexivity]. }
  intros k K. pose proof (B k K). pose proof (Rmax_r 0 b). lra.
Qed.

Lemma some_weight shape d o w : usable shape d o -> weights_of o shape d w -> (exists i, In i (indices shape) /\ 0 < w i) -> exists i, In i (indices shape) /\ 0 < wv o shape d i.
Proof. intros U WO (i & I & P). exists i. split; [exact I|]. rewrite <- (weights_unique shape d o w U WO i I). exact P. Qed.
Lemma pen_eq shape d o s w y v : usable shape d o -> weights_of o shape d w -> values_of o shape d y -> penalised (o_order o) shape s w y v = penalised (o_order o) shape s (wv o shape d) (yv o d) v.
Proof.
  intros U WO VO. apply penalised_ext; [intros i I; apply weights_unique; assumption|]. intros i I NZ. symmetry. apply (usable_yv shape d o y U VO i I). intros G. apply NZ. apply (proj1 (WO i I) G).
Qed.
Lemma rf_ne b : rfv b <> 0. Proof. destruct b; unfold rfv; lra. Qed.

(* an initial guess is returned unchanged exactly if it is minimal *)
Lemma stationary shape d o s w y g : usable shape d o -> o_robust o = false -> o_exclude o = None -> o_smooth o = Some s -> weights_of o shape d w -> values_of o shape d y ->
  exists out u, run shape d (fed g shape o) = Ok out /\ gives shape out u /\
    ((forall i, In i (indices shape) -> u i = g i) <-> forall z2, penalised (o_order o) shape s w y g <= penalised (o_order o) shape s w y z2).
Proof.
  intros U RB EX SO WO VO. destruct (one_step shape d o s g U RB EX SO) as (lam & out & L & LL & ER & GV). exists out. eexists. split; [exact ER|]. split; [exact GV|].
  assert (PE := fun v => pen_eq shape d o s w y v U WO VO). pose proof (usable_wv shape d o U) as WV. pose proof U as (_ & _ & OR & _ & _ & _ & _ & _ & SMP). pose proof (SMP s SO) as SP.
  split.
  - intros FX z2. rewrite !PE. apply (fixed_minimal shape lam (o_order o) s L ltac:(lra) OR); [intros i I; apply (WV i I)|]. intros i I. specialize (FX i I). unfold relax in FX. apply (Rmult_eq_reg_l (rfv (weightedv o shape d))); [lra|apply rf_ne].
  - intros M. destruct (pen_setting shape d o s lam U SO L) as (pmin & pmax & SZ & P0 & PM & PX & PL & PH).
    apply (minimal_fixed shape (pen lam (o_order o) s) (wv o shape d) pmin (rfv (weightedv o shape d)) P0 PM PL (fun i I => proj2 (WV i I)) (rf_range _)).
    intros z2. rewrite !(cost_penalised shape lam (o_order o) s) by assumption. rewrite <- !PE. apply M.
Qed.

(* feeding the result back as initial guess converges to the only best fit, geometrically *)
Lemma converges shape d o s w y : usable shape d o -> o_robust o = false -> o_exclude o = None -> o_smooth o = Some s -> weights_of o shape d w -> values_of o shape d y ->
  (exists i, In i (indices shape) /\ 0 < w i) ->
  exists zz rate, best_fit (o_order o) shape s w y zz /\ 0 <= rate < 1 /\
    forall gs : nat -> arr R, (forall n, exists out, run shape d (fed (gs n) shape o) = Ok out /\ gives shape out (gs (S n))) ->
      exists C, forall n i, In i (indices shape) -> Rabs (gs n i - zz i) <= C * rate ^ n.
Proof.
  intros U RB EX SO WO VO SW. destruct (one_step shape d o s (fun _ => 0) U RB EX SO) as (lam & _ & L & LL & _).
  assert (PE := fun v => pen_eq shape d o s w y v U WO VO).
  destruct (pen_setting shape d o s lam U SO L) as (pmin & pmax & SZ & P0 & PM & PX & PL & PH).
  destruct (some_weight shape d o w U WO SW) as (i0 & I0 & W0). pose proof (usable_wv shape d o U) as WV. assert (WR : forall i, In i (indices shape) -> 0 <= wv o shape d i <= 1) by (intros i I; apply (WV i I)).
  set (rf := rfv (weightedv o shape d)). pose proof (rf_range (weightedv o shape d) : 0 < 1 - (1 - rf) ^ 2) as RF. pose proof U as (_ & _ & OR & _).
  set (pn := pen lam (o_order o) s) in *. set (wt := wv o shape d) in *. assert (W0L : wt i0 <= wt i0) by lra.
  destruct (fixed_point_exists shape pn wt pmin pmax (wt i0) rf i0 SZ P0 PM PX PL PH WR I0 W0 W0L RF (yv o d)) as (zz & FX).
  exists zz, (rho shape pmin pmax (wt i0) rf). split.
  { assert (EN : forall z2, penalised (o_order o) shape s w y z2 = penalised (o_order o) shape s w y zz + energy shape pn wt (fun i => z2 i - zz i)).
    { intros z2. rewrite !PE, <- !(cost_penalised shape lam (o_order o) s) by assumption. apply (fixed_energy shape pn wt pmin rf P0 PM PL (yv o d) zz FX). apply rf_ne. }
    intros z2. rewrite (EN z2). pose proof (energy_nonneg shape pn wt pmin P0 PM PL WR (fun i => z2 i - zz i)) as E0. split; [lra|]. intros LE i I.
    pose proof (energy_zero shape pn wt pmin (wt i0) i0 SZ P0 PM PL WR I0 W0 W0L (fun i => z2 i - zz i) ltac:(lra) i I) as Z. cbv beta in Z. lra. }
  split; [apply (rho_range shape pmin pmax (wt i0) rf SZ PM PX W0 RF)|].
  intros gs FO. exists (sqrt (KK shape pmin (wt i0) * energy shape pn wt (fun i => gs 0%nat i - zz i))). intros n i I.
  apply (approach shape pn wt pmin pmax (wt i0) rf i0 SZ P0 PM PX PL PH WR I0 W0 W0L RF (yv o d) zz gs FX); [|exact I].
  intros k j J. destruct (FO k) as (out & ER & GV). destruct (one_step shape d o s (gs k) U RB EX SO) as (lam' & out' & L' & LL' & ER' & GV').
  assert (lam' = lam) by congruence. subst lam'. assert (out' = out) by congruence. subst out'. apply (gives_unique shape out _ _ GV GV' j J).
Qed.
End Api.
