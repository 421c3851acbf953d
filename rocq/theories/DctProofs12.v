(* Proofs about smoothn, continued: concrete calls. *)
From Coq Require Import Lra Lia FunctionalExtensionality.
From Verif Require Import Base RStats RStatsProofs MetricsModel MetricsProofs MetricsProofs2 DctModel DctSpec DctProofs1 DctProofs2 DctProofs3 DctProofs4 DctProofs5 DctProofs6 DctProofs7 DctProofs8 DctProofs9 DctProofs10 DctProofs11.
Open Scope R_scope.

(* series given by their values *)
Definition series {A} (l : list A) (dflt : A) : arr A := fun i => nth (hd 0%nat i) l dflt.
Ltac each_index I := cbn in I; repeat (destruct I as [<-|I]; [|]); [..|destruct I].

Lemma size_cons n rest : size (n :: rest) = (n * size rest)%nat.
Proof.
  unfold size. cbn [indices]. transitivity (List.length (seq 0 n) * List.length (indices rest))%nat; [|rewrite seq_length; reflexivity].
  induction (seq 0 n) as [|a l IH]; [reflexivity|]. cbn [flat_map]. rewrite app_length, IH, map_length. reflexivity.
Qed.
Section Calls.
Variable fmin : (R -> option R) -> R -> R -> R -> R.
Variable nearest : list nat -> arr bool -> index -> index.
Variable keep : nat -> nat.
Notation run := (smoothn fmin nearest keep).

(* ---- smoothing curvature leaves the range of the data *)
Definition o_curv : options := Opts (Some (1 / 4)) None None 2 None false 100 (1 / 1000) None None.
Definition d_peak : arr (option R) := series [Some 1; Some 0; Some 0] None.
Lemma peak_usable : usable [3%nat] d_peak o_curv.
Proof.
  unfold usable, o_curv; cbn [o_axis o_order o_weights o_init o_maxiter o_tolz o_smooth]. repeat split; try (cbn; lia) || lra || (right; reflexivity) || (intros; discriminate).
  - intros i I E. each_index I; discriminate.
  - intros s E. injection E as <-. lra.
Qed.
Lemma peak_complete : complete [3%nat] d_peak o_curv (series [1; 0; 0] 0).
Proof. split; [|intros; discriminate]. intros i I. each_index I; (split; [intros [E|(m & E & _)]; discriminate|reflexivity]). Qed.
Lemma peak_run : exists out u, run [3%nat] d_peak o_curv = Ok out /\ r_flag out = 1%Z /\ gives [3%nat] out u /\ u [0%nat] = 51 / 65 /\ u [1%nat] = 15 / 65 /\ u [2%nat] = - 1 / 65.
Proof.
  destruct (complete_smooth fmin nearest keep [3%nat] d_peak o_curv _ peak_usable eq_refl peak_complete) as (out & s & lam & A & B & _ & _ & F & L & _ & G). specialize (F (1 / 4) eq_refl). subst s.
  exists out. eexists. split; [exact A|]. split; [exact B|]. split; [exact G|].
  assert (E : forall i, In i (indices [3%nat]) -> sm [3%nat] (pen lam 2 (1 / 4)) (series [1; 0; 0] 0) i = series [51 / 65; 15 / 65; - 1 / 65] 0 i).
  { apply sm_solves; [exact L|lra|right; reflexivity|]. intros i I. each_index I; unfold rough_op, laplacian, second_diff, series; cbn [Nat.eqb Nat.ltb Nat.leb hd nth Nat.sub]; lra. }
  change (o_order o_curv) with 2%nat. rewrite !E by (cbn; tauto). repeat split.
Qed.

(* ---- two values, the second one missing *)
Definition d_half : arr (option R) := series [Some 1; None] None.
Definition o_half (init : option (list nat * arr R)) (m : nat) (tz : R) : options := Opts (Some (1 / 2)) None None 1 init false m tz None None.
Definition w_half : arr R := series [1; 0] 0.
Lemma half_usable init m tz : (forall g, init = Some g -> fst g = [2%nat]) -> (1 <= m)%nat -> 0 <= tz < 1 -> usable [2%nat] d_half (o_half init m tz).
Proof.
  intros IN M T. unfold usable, o_half; cbn [o_axis o_order o_weights o_init o_maxiter o_tolz o_smooth]. repeat split; try (cbn; lia) || lra || (left; reflexivity) || (intros; discriminate).
  - intros sh g E. apply (IN (sh, g) E).
  - intros i I E. left. exact E.
  - intros s E. injection E as <-. lra.
Qed.
Lemma half_weights init m tz : weights_of (o_half init m tz) [2%nat] d_half w_half.
Proof. intros i I. each_index I; split; intros G; try reflexivity; exfalso; [destruct G as [E|(x & E & _)]; discriminate|apply G; left; reflexivity]. Qed.
Lemma half_values init m tz : values_of (o_half init m tz) [2%nat] d_half (fun _ => 1).
Proof. intros i I G. each_index I; [reflexivity|]. exfalso. apply G. left. reflexivity. Qed.
Lemma half_pull lam g0 g1 i : pen_nonneg_lam [2%nat] lam -> In i (indices [2%nat]) ->
  sm [2%nat] (pen lam 1 (1 / 2)) (pull w_half (series [1; 0] 0) (series [g0; g1] 0)) i = series [3 / 4 + 1 / 4 * g1; 1 / 4 + 3 / 4 * g1] 0 i.
Proof. intros L I. apply (sm_solves [2%nat] lam 1 (1 / 2) _ (series [3 / 4 + 1 / 4 * g1; 1 / 4 + 3 / 4 * g1] 0) L); [lra|left; reflexivity| |exact I]. intros j J. each_index J; unfold rough_op, pull, w_half, laplacian, second_diff, series; cbn [Nat.eqb Nat.ltb Nat.leb hd nth Nat.sub]; lra. Qed.
Lemma half_best : best_fit 1 [2%nat] (1 / 2) w_half (fun _ => 1) (fun _ => 1).
Proof.
  intros z2. unfold penalised, roughness, total. cbn. replace (0 ^ 2) with 0 by ring. pose proof (pow2_ge_0 (1 - z2 [0%nat])). pose proof (pow2_ge_0 (z2 [1%nat] - z2 [0%nat])). cbn in *. split; [lra|].
  intros H1 i I. assert (A : (1 - z2 [0%nat]) * (1 - z2 [0%nat]) = 0) by lra. assert (B : (z2 [1%nat] - z2 [0%nat]) * (z2 [1%nat] - z2 [0%nat]) = 0) by lra.
  apply Rmult_integral in A. apply Rmult_integral in B. each_index I; lra.
Qed.
Lemma half_wv init m tz : (forall g, init = Some g -> fst g = [2%nat]) -> (1 <= m)%nat -> 0 <= tz < 1 -> forall i, In i (indices [2%nat]) -> wv (o_half init m tz) [2%nat] d_half i = w_half i.
Proof. intros IN M T i I. symmetry. apply (weights_unique [2%nat] d_half (o_half init m tz)); [apply half_usable; assumption|apply half_weights|exact I]. Qed.

(* the gap still changes, but the iteration stops *)
Lemma half_stops m tz : (1 <= m)%nat -> 0 <= tz < 1 ->
  exists out u, run [2%nat] d_half (o_half (Some ([2%nat], series [5; 17] 0)) m tz) = Ok out /\ r_flag out = 1%Z /\ gives [2%nat] out u /\ u [0%nat] = 5 /\ u [1%nat] = 10.
Proof.
  intros M T. set (o := o_half _ m tz). assert (IN : forall g, Some ([2%nat], series [5; 17] 0) = Some g -> fst g = [2%nat]) by (intros g E; injection E as <-; reflexivity).
  assert (U : usable [2%nat] d_half o) by (apply half_usable; assumption).
  destruct (nonrobust_run fmin nearest keep [2%nat] d_half o U eq_refl) as (lam & st & s1 & L & LL & EI & ES & SP & SE & EW & ER). specialize (SE (1 / 2) eq_refl). subst s1.
  destruct (gives_out nearest keep [2%nat] d_half o st 1 eq_refl) as (zz & EZ & ZZ). exists (outv nearest keep o [2%nat] d_half st 1), (z st). split; [exact ER|]. split; [reflexivity|]. split; [exists zz; split; assumption|].
  assert (WT : weightedv o [2%nat] d_half = true).
  { destruct (weightedv o [2%nat] d_half) eqn:E; [reflexivity|]. exfalso. pose proof (proj1 (weighted_false o [2%nat] d_half) E [1%nat] ltac:(cbn; tauto)) as X. unfold o in X. rewrite half_wv in X by (assumption || (cbn; tauto)). cbn in X. lra. }
  assert (SN : forall s, o_smooth o = Some s -> 0 <= s) by (intros s E; injection E as <-; lra).
  unfold innerv in EI. change (o_maxiter o) with m in EI. destruct m as [|m']; [lia|]. cbn [inner] in EI.
  set (st0 := St _ _ _ _ _ _ _ _) in EI.
  assert (X0 : exceeds (tol st0) (o_tolz o) = true) by (cbn [tol st0 exceeds]; destruct (Rlt_dec (o_tolz o) 1); [reflexivity|exfalso; apply n; apply T]).
  rewrite X0 in EI. destruct (step_ok fmin [2%nat] (o_order o) lam (yv o d_half) (valid_at o d_half) (rfv (weightedv o [2%nat] d_half)) (o_smooth o) ltac:(left; reflexivity) SN 0 st0) as (st1 & s1 & E1 & _ & _ & _ & S1 & Z1 & _ & _ & _ & T1).
  specialize (S1 (1 / 2) eq_refl). subst s1. rewrite E1 in EI. cbn [bindR] in EI. rewrite WT in Z1.
  assert (ZV : forall i, In i (indices [2%nat]) -> z st1 i = series [5; 10] 0 i).
  { intros i I. rewrite Z1. cbn [rfv]. change (z st0) with (series [5; 17] 0).
    rewrite (sm_ext [2%nat] (pen lam (o_order o) (1 / 2)) (pen lam 1 (1 / 2)) (pull (wtot st0) (yv o d_half) (series [5; 17] 0)) (pull w_half (series [1; 0] 0) (series [5; 17] 0))); [|reflexivity| |exact I].
    - rewrite (half_pull lam 5 17 i L I). each_index I; cbn; lra.
    - intros j J. unfold pull. change (wtot st0 j) with (wv o [2%nat] d_half j). unfold o. rewrite half_wv by assumption. f_equal. each_index J; cbn; reflexivity. }
  assert (T0 : exceeds (tol st1) (o_tolz o) = false).
  { rewrite T1. unfold next_tol. change (isweighted st0) with (weightedv o [2%nat] d_half). rewrite WT. change (filter (valid_at o d_half) (indices [2%nat])) with [[0%nat]]. cbn [map norm2]. change (z0 st0) with (series [5; 17] 0).
    rewrite !(ZV [0%nat]) by (cbn; tauto). unfold norm2. cbn [map rsum]. unfold series. cbn [hd nth]. replace ((5 - 5) ^ 2 + 0) with 0 by ring. rewrite sqrt_0. replace (5 ^ 2 + 0) with (5 * 5) by ring. rewrite sqrt_square by lra.
    destruct (Req_EM_T 5 0); [lra|]. cbn [exceeds]. destruct (Rlt_dec (o_tolz o) (0 / 5)); [|reflexivity]. exfalso. change (o_tolz o) with tz in r. lra. }
  assert (EQ : st1 = st) by (destruct m'; cbn [inner] in EI; [congruence|rewrite T0 in EI; congruence]). subst st1. rewrite !ZV by (cbn; tauto). split; reflexivity.
Qed.
(* far from converged after one iteration, reported as success *)
Lemma half_once tz : 0 <= tz < 1 -> exists out u, run [2%nat] d_half (o_half (Some ([2%nat], fun _ => 0)) 1 tz) = Ok out /\ r_flag out = 1%Z /\ gives [2%nat] out u /\ u [0%nat] = 21 / 16 /\ u [1%nat] = 7 / 16.
Proof.
  intros T. set (o := o_half (Some ([2%nat], fun _ => 0)) 1 tz). assert (IN : forall g : list nat * arr R, Some ([2%nat], fun _ => 0) = Some g -> fst g = [2%nat]) by (intros g E; injection E as <-; reflexivity).
  assert (U : usable [2%nat] d_half o) by (apply half_usable; [exact IN|lia|exact T]).
  destruct (one_step fmin nearest keep [2%nat] d_half o (1 / 2) (fun _ => 0) U eq_refl eq_refl eq_refl) as (lam & out & L & LL & ER & GV).
  change (fed (fun _ => 0) [2%nat] o) with o in ER. exists out. eexists. split; [exact ER|]. destruct (nonrobust_flag fmin nearest keep [2%nat] d_half o U eq_refl) as (out' & ER' & FL). assert (out' = out) by congruence. subst out'. split; [exact FL|]. split; [exact GV|].
  assert (WT : weightedv o [2%nat] d_half = true).
  { destruct (weightedv o [2%nat] d_half) eqn:E; [reflexivity|]. exfalso. pose proof (proj1 (weighted_false o [2%nat] d_half) E [1%nat] ltac:(cbn; tauto)) as X. unfold o in X. rewrite half_wv in X by (assumption || lia || (cbn; tauto)). cbn in X. lra. }
  rewrite WT. cbn [rfv]. unfold relax.
  assert (E : forall i, In i (indices [2%nat]) -> sm [2%nat] (pen lam (o_order o) (1 / 2)) (pull (wv o [2%nat] d_half) (yv o d_half) (fun _ => 0)) i = series [3 / 4; 1 / 4] 0 i).
  { intros i I. rewrite (sm_ext [2%nat] (pen lam (o_order o) (1 / 2)) (pen lam 1 (1 / 2)) _ (pull w_half (series [1; 0] 0) (series [0; 0] 0))); [|reflexivity| |exact I].
    - rewrite (half_pull lam 0 0 i L I). each_index I; cbn; lra.
    - intros j J. unfold pull. unfold o. rewrite half_wv by (assumption || lia). each_index J; cbn; ring. }
  rewrite !E by (cbn; tauto). cbn. split; lra.
Qed.

(* ---- axes *)
Lemma axis0_values n m d o : o_weights o = None -> (2 <= n * m)%nat -> n <> m -> n <> 1%nat -> o_axis o = Some (AxTuple [0%nat]) -> run [n; m] d o = Err EValue.
Proof.
  intros WN SZ NM N1 AX. unfold smoothn. rewrite WN. cbn [bindR].
  assert (ZE : size [n; m] = (n * m)%nat) by (rewrite !size_cons; unfold size; cbn; lia).
  rewrite ZE, (proj2 (Nat.ltb_ge (n * m) 2)) by exact SZ.
  match goal with |- (if existsb ?p ?l then _ else _) = _ => assert (E2 : existsb p l = false) end.
  { match goal with |- ?x = false => destruct x eqn:E end; [|reflexivity]. apply existsb_exists in E as (i & I & E). destruct (valid_at o d i); [destruct (Rlt_dec 1 0); [lra|discriminate]|destruct (Rlt_dec 0 0); [lra|discriminate]]. }
  rewrite E2, AX. cbn [lambda lambda_sum lambda_entry nth_error List.length countb]. unfold lambda_entry. cbn [nth_error]. cbn. destruct n as [|[|n]]; [|lia|]; cbn; [destruct m; [lia|reflexivity]|]. destruct m as [|[|m]]; cbn; try reflexivity. destruct (Nat.eqb n m) eqn:Q; [apply Nat.eqb_eq in Q; lia|reflexivity].
Qed.
(* the axis is ignored for square data: they are smoothed along the other axis *)
Lemma lambda_axis0 n : n <> 1%nat -> exists lam, lambda [n; n] (Some (AxTuple [0%nat])) = Ok lam /\ forall a b, lam [a; b] = lambda1 n b.
Proof.
  intros N1. cbn [lambda lambda_sum lambda_entry nth_error List.length countb]. unfold lambda_entry. cbn [nth_error List.length]. change (Nat.ltb 1 (countb (Nat.eqb 0) [0%nat])) with false. cbn [andb]. cbn [Nat.ltb Nat.leb Nat.sub Nat.add nth].
  destruct (Nat.eqb n 1) eqn:Q; [apply Nat.eqb_eq in Q; contradiction|]. rewrite Nat.eqb_refl. cbn [bindR]. eexists. split; [reflexivity|]. intros a b. cbn [nth]. ring.
Qed.
Lemma in_pair a b n m : In [a; b] (indices [n; m]) -> (a < n /\ b < m)%nat.
Proof.
  intros I. cbn [indices] in I. apply in_flat_map in I as (x & X & I). apply in_map_iff in I as (r & E & I). injection E as E1 E2. subst a r. apply in_flat_map in I as (y & Y & I). apply in_map_iff in I as (r & E & I). injection E as E1 E2. subst b r. apply in_seq in X, Y. lia.
Qed.
Lemma pair_in k n m : In k (indices [n; m]) -> exists a b, k = [a; b].
Proof.
  intros I. cbn [indices] in I. apply in_flat_map in I as (x & X & I). apply in_map_iff in I as (r & <- & I). apply in_flat_map in I as (y & Y & I). apply in_map_iff in I as (r' & <- & I). destruct I as [<-|[]]. exists x, y. reflexivity.
Qed.
Lemma dct_rows n f a b : (b < n)%nat -> b <> 0%nat -> dctNd [n; n] (fun i => f (hd 0%nat i)) [a; b] = 0.
Proof.
  intros B NZ. cbn [dctNd hd]. apply (dct_const [n] (rsum (map (fun i => kernel n a i * f i) (seq 0 n))) [b]).
  - cbn [indices]. apply in_flat_map. exists b. split; [apply in_seq; lia|left; reflexivity].
  - cbn [origin map]. intros E. injection E as E. contradiction.
Qed.
Lemma sm_untouched shape pn q : (forall k, In k (indices shape) -> pn k = 0 \/ dctNd shape q k = 0) -> forall i, In i (indices shape) -> sm shape pn q i = q i.
Proof.
  intros H i I. unfold sm. rewrite <- (idct_dct shape q i I). apply idct_ext; [|exact I]. intros k K. destruct (H k K) as [E|E]; rewrite E; [field|ring].
Qed.
Lemma axis0_square n d o f : (2 <= n)%nat -> o_axis o = Some (AxTuple [0%nat]) -> o_weights o = None -> o_init o = None -> o_exclude o = None -> o_gap o = None -> o_robust o = false ->
  o_order o = 1%nat \/ o_order o = 2%nat -> (1 <= o_maxiter o)%nat -> 0 <= o_tolz o < 1 -> (forall s, o_smooth o = Some s -> 0 < s) -> (forall a b, d [a; b] = Some (f a)) ->
  exists out u, run [n; n] d o = Ok out /\ gives [n; n] out u /\ forall a b, In [a; b] (indices [n; n]) -> u [a; b] = f a.
Proof.
  intros N AX WN IN EN GN RB OR MI TZ SMP D. destruct (lambda_axis0 n ltac:(lia)) as (lam & LL & LV).
  assert (V : forall a b, valid_at o d [a; b] = true) by (intros a b; unfold valid_at; rewrite GN, EN, D; reflexivity).
  assert (W1 : forall i, In i (indices [n; n]) -> wv o [n; n] d i = 1). { intros i I. destruct (pair_in i n n I) as (a & b & ->). unfold wv. rewrite V. unfold wraw. rewrite WN. reflexivity. }
  assert (RD : ready o [n; n] d lam).
  { unfold ready. rewrite AX. repeat split; try exact LL; try (cbn; lia).
    - intros sh w E. rewrite WN in E. discriminate.
    - rewrite !size_cons. change (size []) with 1%nat. nia.
    - intros i I. destruct (pair_in i n n I) as (a & b & ->). rewrite V, D. discriminate.
    - intros i I. destruct (pair_in i n n I) as (a & b & ->). rewrite V. exists 1. unfold wraw. rewrite WN. split; [reflexivity|lra].
    - intros sh w E. rewrite IN in E. discriminate.
    - intros s E. left. apply SMP, E. }
  destruct (complete_run_lam fmin nearest keep [n; n] d o lam RD OR MI TZ SMP RB W1) as (out & s & zz & A & _ & _ & SP & _ & EZ & ZZ). exists out. eexists. split; [exact A|]. split; [exists zz; split; [exact EZ|exact ZZ]|].
  intros a b I. rewrite (sm_ext [n; n] (pen lam (o_order o) s) (pen lam (o_order o) s) (yv o d) (fun i => f (hd 0%nat i)) (fun _ _ => eq_refl)); [|intros j J; destruct (pair_in j n n J) as (a' & b' & ->); unfold yv; rewrite V, D; reflexivity|exact I].
  rewrite sm_untouched; [reflexivity| |exact I]. intros k K. destruct (pair_in k n n K) as (a' & b' & ->). apply in_pair in K as [_ K]. destruct (Nat.eq_dec b' 0) as [->|NZ]; [left|right; apply dct_rows; assumption].
  unfold pen. rewrite LV. unfold lambda1. replace (PI * INR 0 / INR n) with 0 by (cbn; unfold Rdiv; ring). rewrite cos_0. replace (2 - 2 * 1) with 0 by ring. destruct OR as [-> | ->]; cbn; ring.
Qed.

(* weights that are all negative pass *)
Lemma negative_weights o d : o_axis o = None -> o_weights o = Some ([2%nat], series [-1; -2] 0) -> o_init o = None -> o_exclude o = None -> o_gap o = None -> o_robust o = false ->
  o_order o = 1%nat \/ o_order o = 2%nat -> (1 <= o_maxiter o)%nat -> 0 <= o_tolz o < 1 -> (forall s, o_smooth o = Some s -> 0 < s) -> (forall i, d i <> None) ->
  exists out zz fw, run [2%nat] d o = Ok out /\ r_flag out = 1%Z /\ gives [2%nat] out zz /\ r_weights out = Some fw /\ fw [0%nat] = 1 /\ fw [1%nat] = 2.
Proof.
  intros AX WO IN EN GN RB OR MI TZ SMP D. destruct (lambda_default [2%nat]) as (lam & LL & _).
  assert (V : forall i, valid_at o d i = true) by (intros i; unfold valid_at; rewrite GN, EN; specialize (D i); destruct (d i); [reflexivity|contradiction]).
  assert (M : arr_max [2%nat] (series [-1; -2] 0) = -1). { cbn. unfold Rmax. destruct (Rle_dec (-1) (-2)); [lra|reflexivity]. }
  assert (WR : forall i, In i (indices [2%nat]) -> wraw o [2%nat] i = Some (series [1; 2] 0 i)). { intros i I. unfold wraw. rewrite WO, M. unfold fdiv. destruct (Req_EM_T (-1) 0); [lra|]. each_index I; cbn; f_equal; lra. }
  assert (RD : ready o [2%nat] d lam).
  { unfold ready. rewrite AX. repeat split; try exact LL; try (cbn; lia).
    - intros sh w E. rewrite WO in E. congruence.
    - intros i I. rewrite V. apply D.
    - intros i I. rewrite V, WR by exact I. eexists. split; [reflexivity|]. each_index I; cbn; lra.
    - intros sh w E. rewrite IN in E. discriminate.
    - intros s E. left. apply SMP, E. }
  rewrite (smoothn_ready fmin nearest keep o [2%nat] d lam RD). unfold outerv. rewrite RB.
  destruct (outer_ind fmin [2%nat] (o_order o) lam (yv o d) (valid_at o d) (wv o [2%nat] d) (rfv (weightedv o [2%nat] d)) (o_smooth o) (o_tolz o) false (o_maxiter o) OR SMP MI ltac:(lra) (fun st => wtot st = wv o [2%nat] d) (fun st => wtot st = wv o [2%nat] d)) with (rounds := 3%nat) (i := 0%nat) (flag := 1%Z)
    (st := St (startv nearest keep o [2%nat] d) (startv nearest keep o [2%nat] d) (TolNum 1) 0 (o_smooth o) (wv o [2%nat] d) None (weightedv o [2%nat] d)) as (st & flag & E & (s & ES & _) & QS & FL).
  - intros j st st' H E. destruct (step_fine fmin [2%nat] (o_order o) lam (yv o d) (valid_at o d) (rfv (weightedv o [2%nat] d)) (o_smooth o) OR SMP j st st' E) as [_ ->]. tauto.
  - discriminate.
  - lia.
  - left. reflexivity.
  - reflexivity.
  - assert (F1 : flag = 1%Z). { revert E. cbn [outer]. destruct (inner _ _ _ _ _ _ _ _ _ _ _ _) as [st2|]; [|discriminate]. cbn [bindR]. destruct (Nat.leb (o_maxiter o) 0) eqn:Q; [apply Nat.leb_le in Q; lia|]. cbn [andb]. intros E. congruence. }
    rewrite E. cbn [bindR fst snd]. rewrite ES. destruct QS as [[QS _]|[X _]]; [|discriminate]. exists (outv nearest keep o [2%nat] d st flag), (z st), (wv o [2%nat] d). split; [destruct (o_smooth o); reflexivity|]. split; [exact F1|]. split; [apply gives_out, EN|]. split; [cbn; rewrite QS; reflexivity|].
    unfold wv. rewrite !V, !WR by (cbn; tauto). split; reflexivity.
Qed.
End Calls.

(* ---- the spread of residuals most of which agree *)
Lemma overlap {A} (p q : A -> bool) l : (List.length l < List.length (filter p l) + List.length (filter q l))%nat -> exists x, In x l /\ p x = true /\ q x = true.
Proof.
  induction l as [|x l IH]; cbn; [lia|]. destruct (p x) eqn:P, (q x) eqn:Q; cbn; intros H.
  - exists x. tauto.
  - destruct IH as (y & Y); [lia|]. exists y. tauto.
  - destruct IH as (y & Y); [lia|]. exists y. tauto.
  - destruct IH as (y & Y); [lia|]. exists y. tauto.
Qed.
Lemma median_majority l c : (List.length l < 2 * List.length (filter (fun v => if Req_EM_T v c then true else false) l))%nat -> np_median l = Some c.
Proof.
  intros H. destruct (np_median l) as [m|] eqn:E; [|destruct l as [|x l]; [cbn in H; lia|unfold np_median in E; destruct (Nat.even _); discriminate]].
  destruct (median_halves l m E) as [A B].
  destruct (overlap (fun v => if Req_EM_T v c then true else false) (fun v => leb v m) l ltac:(lia)) as (x & _ & X1 & X2). destruct (Req_EM_T x c) as [->|]; [|discriminate]. unfold leb in X2; destruct (Rle_dec c m); [|discriminate].
  destruct (overlap (fun v => if Req_EM_T v c then true else false) (fun v => leb m v) l ltac:(lia)) as (y & _ & Y1 & Y2). destruct (Req_EM_T y c) as [->|]; [|discriminate]. unfold leb in Y2; destruct (Rle_dec m c); [|discriminate]. f_equal. lra.
Qed.
Lemma robust_majority shape res h m c : (List.length (filter (fun i => negb (m i)) (indices shape)) < 2 * List.length (filter (fun i => if Req_EM_T (res i) c then true else false) (filter (fun i => negb (m i)) (indices shape))))%nat ->
  forall i, robust_weights shape res h (Some m) i = 0.
Proof.
  intros H i. unfold robust_weights, robust_spread. set (used := filter (fun i => negb (m i)) (indices shape)) in *.
  assert (FM : forall f (p : R -> bool) (l : list index), List.length (filter p (map f l)) = List.length (filter (fun i => p (f i)) l)) by (intros f p l; induction l as [|x l IH]; [reflexivity|]; cbn; destruct (p (f x)); cbn; rewrite IH; reflexivity).
  rewrite (median_majority (map res used) c) by (rewrite map_length, FM; exact H). cbn [obind].
  rewrite (median_majority _ 0); [destruct (Req_EM_T 0 0); [reflexivity|contradiction]|]. rewrite map_length, FM. erewrite filter_ext; [exact H|]. intros j. cbn. destruct (Req_EM_T (res j) c) as [->|N]; destruct (Req_EM_T _ 0) as [Z|Z]; try reflexivity.
  - exfalso. apply Z. rewrite Rminus_eq_0. apply Rabs_R0.
  - exfalso. apply N. destruct (Req_dec (res j - c) 0) as [Q|Q]; [lra|]. apply Rabs_no_R0 in Q. contradiction.
Qed.
