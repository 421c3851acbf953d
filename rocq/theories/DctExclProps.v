(* C75: excluded positions are treated like gaps. *)
From Coq Require Import Lra Lia FunctionalExtensionality.
From Verif Require Import Base RStats MetricsModel DctModel DctSpec DctProofs1 DctProofs5 DctProofs8 DctProofs12 DctProps.
Open Scope R_scope.

(* the same call without exclusion mask *)
Definition unmasked (o : options) : options := Opts (o_smooth o) (o_axis o) (o_weights o) (o_order o) (o_init o) (o_robust o) (o_maxiter o) (o_tolz o) (o_gap o) None.
(* the data with the gap value at the excluded positions *)
Definition gaps_put (o : options) (d : arr (option R)) : arr (option R) := fun i => match o_exclude o with Some m => if m i then o_gap o else d i | None => d i end.
(* the result with the gap value at the excluded positions *)
Definition put_gaps (o : options) (out : outcome) : outcome :=
  Out (omap (gaps_put o) (r_z out)) (r_smooth out) (r_flag out) (r_init out) (r_distance out) (r_weights out) (r_score out) (r_data out).

(* Excluding positions is the same as marking them as gaps before the call and again in the result: in every other respect (also
   errors, smoothing parameter, flag, weights, score, content of the data afterwards) the two calls do the same. *)
Theorem C75_exclusion fmin nearest keep shape data o : (2 <= size shape)%nat ->
  smoothn fmin nearest keep shape data o = mapR (put_gaps o) (smoothn fmin nearest keep shape (gaps_put o data) (unmasked o)).
Proof.
  intros SZ. unfold smoothn. cbn [unmasked o_smooth o_axis o_weights o_order o_init o_robust o_maxiter o_tolz o_gap o_exclude].
  destruct (match o_weights o with None => _ | Some _ => _ end) as [weights|e]; [|reflexivity]. cbn [bindR]. rewrite (proj2 (Nat.ltb_ge (size shape) 2)) by exact SZ.
  assert (V : valid_at (unmasked o) (gaps_put o data) = valid_at o data).
  { apply functional_extensionality. intros i. unfold valid_at, gaps_put. cbn [unmasked o_gap o_exclude]. destruct (o_exclude o) as [m|]; [|reflexivity].
    destruct (m i); cbn [negb]; [rewrite andb_false_r|reflexivity]. destruct (o_gap o) as [g|]; [|reflexivity]. destruct (Req_EM_T g g); [reflexivity|congruence]. }
  assert (C : (fun i => if valid_at o data i then gaps_put o data i else Some 0) = (fun i => if valid_at o data i then data i else Some 0)).
  { apply functional_extensionality. intros i. unfold valid_at, gaps_put. destruct (o_exclude o) as [m|]; [|reflexivity]. destruct (m i); cbn [negb]; [rewrite andb_false_r; reflexivity|reflexivity]. }
  rewrite !V.
  assert (CI : forall i, (if valid_at o data i then gaps_put o data i else Some 0) = if valid_at o data i then data i else Some 0) by (intros i; exact (f_equal (fun f => f i) C)).
  assert (Y : (fun i : index => match (if valid_at o data i then gaps_put o data i else Some 0) with Some v => v | None => 0 end) = (fun i : index => match (if valid_at o data i then data i else Some 0) with Some v => v | None => 0 end)).
  { apply functional_extensionality. intros i. rewrite CI. reflexivity. }
  cbv beta. rewrite !Y. rewrite !C.
  destruct (existsb _ (indices shape)); [reflexivity|]. destruct (lambda shape (o_axis o)) as [lam|e]; [|reflexivity]. cbn [bindR].
  match goal with |- bindR ?x _ = _ => destruct x as [start|e] end; [|reflexivity]. cbn [bindR].
  destruct (Nat.eqb (List.length shape) 0 || Nat.ltb 3 (List.length shape))%bool; [reflexivity|].
  match goal with |- context [existsb ?f (indices shape)] => match f with (fun i => (is_nan (if valid_at o data i then data i else Some 0) || _)%bool) => set (nf := f) end end.
  match goal with |- context [existsb ?f (indices shape)] => match f with (fun i => (is_nan (if valid_at o data i then gaps_put o data i else Some 0) || _)%bool) => replace f with nf by (apply functional_extensionality; intros i; unfold nf; rewrite CI; reflexivity) end end.
  destruct (existsb nf (indices shape) || _)%bool.
  - destruct (Nat.eqb (o_order o) 1 || Nat.eqb (o_order o) 2)%bool; [|reflexivity]. cbn [mapR]. reflexivity.
  - match goal with |- bindR ?x _ = mapR _ (bindR ?y _) => change y with x; destruct x as [[st flag]|e] end; [|reflexivity]. cbn [bindR fst snd].
    match goal with |- bindR ?x _ = _ => destruct x end; [|reflexivity]. reflexivity.
Qed.
Print Assumptions C75_exclusion.

(* three values, the second of them excluded: the mask matters *)
Definition o_mask := Opts (Some (1 / 2)) None None 1 None false 100 (1 / 1000) None (Some (fun i => match i with [1%nat] => true | _ => false end)).
Example C75_exclusion_case : (2 <= size [3%nat])%nat /\ o_exclude o_mask <> None /\ valid_at o_mask (series [Some 1; Some 7; Some 2] None) [0%nat] = true /\
  valid_at o_mask (series [Some 1; Some 7; Some 2] None) [1%nat] = false /\ gaps_put o_mask (series [Some 1; Some 7; Some 2] None) [1%nat] = None.
Proof. cbn. repeat split; (lia || discriminate). Qed.

(* the returned array consists of the numbers z at positions that are not excluded and of the gap value elsewhere *)
Definition gives_kept (o : options) (shape : list nat) (out : outcome) (u : arr R) : Prop :=
  exists zz, r_z out = Some zz /\ forall i, In i (indices shape) ->
    (forall m, o_exclude o = Some m -> m i = true -> zz i = o_gap o) /\ ((forall m, o_exclude o = Some m -> m i = false) -> zz i = Some (u i)).

Lemma gap_iff o d i : gap (unmasked o) (gaps_put o d) i <-> gap o d i.
Proof.
  unfold gap, gaps_put. cbn [unmasked o_gap o_exclude]. split.
  - intros [E|(m & E & _)]; [|discriminate]. destruct (o_exclude o) as [m|]; [|left; exact E]. destruct (m i) eqn:M; [right; exists m; auto|left; exact E].
  - intros [E|(m & -> & ->)]; left; [|reflexivity]. destruct (o_exclude o) as [m|]; [destruct (m i)|]; (reflexivity || exact E).
Qed.
Lemma kept_data o d i : ~ gap o d i -> gaps_put o d i = d i.
Proof. intros G. unfold gaps_put. destruct (o_exclude o) as [m|] eqn:E; [|reflexivity]. destruct (m i) eqn:M; [|reflexivity]. exfalso. apply G. right. exists m. auto. Qed.
Lemma usable_unmasked shape d o : usable shape d o -> usable shape (gaps_put o d) (unmasked o).
Proof.
  intros (A & B & C & D & E & F & G). unfold usable. cbn [unmasked o_axis o_order o_weights o_init o_maxiter o_tolz o_smooth]. repeat (split; [assumption|]). split; [|exact G].
  intros i Hi N. rewrite gap_iff. unfold gaps_put in N. destruct (o_exclude o) as [m|] eqn:X; [|exact (F i Hi N)]. destruct (m i) eqn:M; [right; exists m; auto|exact (F i Hi N)].
Qed.
Lemma weights_unmasked shape d o w : weights_of o shape d w -> weights_of (unmasked o) shape (gaps_put o d) w.
Proof. intros W i Hi. rewrite gap_iff. exact (W i Hi). Qed.
Lemma values_unmasked shape d o y : values_of o shape d y -> values_of (unmasked o) shape (gaps_put o d) y.
Proof. intros V i Hi G. rewrite gap_iff in G. rewrite kept_data by exact G. exact (V i Hi G). Qed.
Lemma kept_gives o shape out u : gives shape out u -> gives_kept o shape (put_gaps o out) u.
Proof.
  intros (zz & E & H). exists (gaps_put o zz). split; [cbn; rewrite E; reflexivity|]. intros i Hi. unfold gaps_put. split; [intros m -> ->; reflexivity|].
  intros N. rewrite <- (H i Hi). destruct (o_exclude o) as [m|]; [rewrite (N m eq_refl)|]; reflexivity.
Qed.
(* More iterations never make the fit worse, with an exclusion mask too: the returned array is that of a fit u, seen at the
   positions that are not excluded, which comes closer to the best one. *)
Theorem C75_more_iterations_excluded fmin nearest keep shape data o s m m' w y : usable shape data o -> o_robust o = false -> o_smooth o = Some s ->
  weights_of o shape data w -> values_of o shape data y -> (1 <= m <= m')%nat ->
  exists out out' u u' start,
    smoothn fmin nearest keep shape data (with_maxiter m o) = Ok out /\ smoothn fmin nearest keep shape data (with_maxiter m' o) = Ok out' /\
    r_smooth out = Some s /\ r_smooth out' = Some s /\ gives_kept o shape out u /\ gives_kept o shape out' u' /\ r_init out = Some start /\
    penalised (o_order o) shape s w y u' <= penalised (o_order o) shape s w y u <= penalised (o_order o) shape s w y start.
Proof.
  intros U RB SM W V M.
  destruct (C75_more_iterations fmin nearest keep shape (gaps_put o data) (unmasked o) s m m' w y (usable_unmasked _ _ _ U) RB eq_refl SM (weights_unmasked _ _ _ _ W) (values_unmasked _ _ _ _ V) M)
    as (out & out' & u & u' & start & A & B & C & D & E & F & G & H).
  exists (put_gaps o out), (put_gaps o out'), u, u', start. pose proof (proj2 (proj1 U)) as SZ.
  assert (X : forall n, smoothn fmin nearest keep shape data (with_maxiter n o) = mapR (put_gaps o) (smoothn fmin nearest keep shape (gaps_put o data) (with_maxiter n (unmasked o)))) by (intros n; exact (C75_exclusion fmin nearest keep shape data (with_maxiter n o) SZ)).
  rewrite !X, A, B. repeat (split; [reflexivity || assumption || (apply kept_gives; assumption)|]). exact H.
Qed.
Print Assumptions C75_more_iterations_excluded.
(* The fit behind a masked result that is left unchanged by one more iteration is the best one, and conversely. *)
Theorem C75_stationary_excluded fmin nearest keep shape data o s w y g : usable shape data o -> o_robust o = false -> o_smooth o = Some s ->
  weights_of o shape data w -> values_of o shape data y ->
  exists out u, smoothn fmin nearest keep shape data (with_maxiter 1 (with_init (shape, g) o)) = Ok out /\ gives_kept o shape out u /\
    ((forall i, In i (indices shape) -> u i = g i) <-> forall z2, penalised (o_order o) shape s w y g <= penalised (o_order o) shape s w y z2).
Proof.
  intros U RB SM W V.
  destruct (C75_stationary fmin nearest keep shape (gaps_put o data) (unmasked o) s w y g (usable_unmasked _ _ _ U) RB eq_refl SM (weights_unmasked _ _ _ _ W) (values_unmasked _ _ _ _ V)) as (out & u & A & B & C).
  exists (put_gaps o out), u. split; [|split; [apply kept_gives; exact B|exact C]].
  pose proof (C75_exclusion fmin nearest keep shape data (with_maxiter 1 (with_init (shape, g) o)) (proj2 (proj1 U))) as X. rewrite X.
  change (unmasked (with_maxiter 1 (with_init (shape, g) o))) with (with_maxiter 1 (with_init (shape, g) (unmasked o))).
  change (gaps_put (with_maxiter 1 (with_init (shape, g) o)) data) with (gaps_put o data). rewrite A. reflexivity.
Qed.
Print Assumptions C75_stationary_excluded.
Example C75_excluded_case : let d := series [Some 1; Some 7; Some 2] None in usable [3%nat] d o_mask /\ o_robust o_mask = false /\ o_smooth o_mask = Some (1 / 2) /\
  weights_of o_mask [3%nat] d (series [1; 0; 1] 0) /\ values_of o_mask [3%nat] d (series [1; 0; 2] 0).
Proof.
  cbv zeta. assert (G : gap o_mask (series [Some 1; Some 7; Some 2] None) [1%nat]) by (right; eexists; split; reflexivity).
  split; [|split; [reflexivity|split; [reflexivity|split]]].
  - split; [cbn; lia|]. split; [reflexivity|]. split; [left; reflexivity|]. split; [discriminate|]. split; [discriminate|]. split.
    + intros i [<-|[<-|[<-|[]]]]; discriminate.
    + cbn. split; [lia|]. split; [lra|]. intros s [= <-]. lra.
  - intros i [<-|[<-|[<-|[]]]]; split; intros H; try reflexivity; try (exfalso; exact (H G)); destruct H as [H|(m & E & H)]; try discriminate H; cbn in E; injection E as <-; discriminate H.
  - intros i [<-|[<-|[<-|[]]]] N; cbn; try reflexivity. exfalso; exact (N G).
Qed.
