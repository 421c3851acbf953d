(* C135: past and future are treated alike. *)
From Coq Require Import Reals Lra.
From Verif Require Import Base BaseProofs FiltersModel FiltersSpec FiltersProofs TemporalModel TemporalSpec TemporalProofs TemporalProps BackSpec BackProofs.
Open Scope Z_scope.

(* Moving averages of the series with time running backwards are the moving averages, backwards. *)
Theorem C135_moving_average :
  forall (nan window : Q) (fillna : bool) (min_obs : Z) (pts : list (Q * cell)), 1 <= min_obs -> time_sorted pts ->
    Forall2 ceq (boxcar_filter nan window fillna min_obs (backwards pts)) (rev (boxcar_filter nan window fillna min_obs pts)).
Proof. exact boxcar_back. Qed.
Print Assumptions C135_moving_average.

(* So are the anomalies from them. *)
Theorem C135_anomaly :
  forall (ser : list (Q * cell)) (w : Q), time_sorted ser ->
    Forall2 (fun p q => fst p = fst q /\ ceq (snd p) (snd q)) (calc_anomaly_ma (backwards ser) w) (backwards (calc_anomaly_ma ser w)).
Proof. exact anomaly_back. Qed.
Print Assumptions C135_anomaly.
Definition back_pts : list (Q * cell) := [(0%Q, Some 1%Q); (1%Q, None); ((3#2)%Q, Some 4%Q); (9%Q, Some 2%Q)].
Example C135_filters_case : time_sorted back_pts /\ backwards back_pts = [((-9)%Q, Some 2%Q); ((-3#2)%Q, Some 4%Q); ((-1)%Q, None); (0%Q, Some 1%Q)] /\
  map (option_map Qred) (boxcar_filter default_nan 3 true 1 (backwards back_pts)) = [Some 2; Some (5 # 2); Some (5 # 2); Some (5 # 2)]%Q.
Proof. split; [repeat constructor; cbn; unfold Qle; cbn; lia|]. split; reflexivity. Qed.

(* Collocation by means: the collocated frame, backwards. *)
Theorem C135_mean :
  forall oob oob' ref other w, chronological (findex other) -> chronological ref -> fcols other <> [] ->
    exists f g, temporal_collocation (fun c => c) oob ref other w mean_opts = Ok f /\
      temporal_collocation (fun c => c) oob' (backwards_times ref) (backwards_frame other) w mean_opts = Ok g /\ same_frame g (backwards_frame f).
Proof. exact mean_back. Qed.
Print Assumptions C135_mean.

(* Nearest neighbours: the same, exactly, if no reference time is halfway between two observations. *)
Theorem C135_nearest :
  forall store oob oob' ref other w, chronological (findex other) -> NoDup (findex other) -> NoDup ref ->
    (forall t s s', In t ref -> In s (findex other) -> In s' (findex other) -> Z.abs (s - t) = Z.abs (s' - t) -> s = s') ->
    exists f, temporal_collocation store oob ref other w nearest_opts = Ok f /\
      temporal_collocation store oob' (backwards_times ref) (backwards_frame other) w nearest_opts = Ok (backwards_frame f).
Proof.
  intros store oob oob' ref other w S N NR T.
  destruct (C02_nearest store oob ref other w (chronological_monotone other S)) as (g & G & GN).
  assert (S' : chronological (findex (backwards_frame other))) by (rewrite index_back; apply chron_back; exact S).
  destruct (C02_nearest store oob' (backwards_times ref) (backwards_frame other) w (chronological_monotone _ S')) as (h & H & HN).
  eexists. split; [exact G|]. rewrite H. f_equal.
  assert (NB : NoDup (backwards_times ref)) by (unfold backwards_times; apply NoDup_rev; apply FinFun.Injective_map_NoDup; [intros x y; lia|exact NR]).
  rewrite !dedup_id by (rewrite map_id; assumption). unfold backwards_frame at 2. cbn [fcols backwards_frame]. f_equal. unfold backwards_rows, backwards_times. cbn [frows]. rewrite map_rev. f_equal. rewrite !map_map. apply map_ext_in. intros t I.
  cbn [fst snd]. f_equal. refine (nearest_back (frows other) _ t w _ _ N _ (GN t) (HN (- t))). intros s s'. exact (T t s s' I).
Qed.
Print Assumptions C135_nearest.
Example C135_collocation_case :
  let other := mkFrame ["sm"]%string [(0, [Some 1%Q]); (10, [None]); (17, [Some 3%Q])] in let ref := [3; 4; 15] in
  chronological (findex other) /\ chronological ref /\ NoDup (findex other) /\ NoDup ref /\
  (forall t s s', In t ref -> In s (findex other) -> In s' (findex other) -> Z.abs (s - t) = Z.abs (s' - t) -> s = s') /\
  temporal_collocation (fun c => c) 0 (backwards_times ref) (backwards_frame other) 3 nearest_opts = Ok (mkFrame ["sm"]%string [(-15, [Some 3%Q]); (-4, [None]); (-3, [Some 1%Q])]).
Proof.
  cbv zeta. split; [apply sortedb_spec; reflexivity|]. split; [apply sortedb_spec; reflexivity|]. split; [repeat constructor; cbn; intuition lia|]. split; [repeat constructor; cbn; intuition lia|]. split; [|vm_compute; reflexivity].
  cbn. intros t s s'. intuition (subst; try reflexivity; try lia; exfalso; cbn in *; lia).
Qed.
(* Halfway between two observations the later one is taken, forwards as well as backwards: then the results differ. *)
Theorem C135_nearest_refuted :
  exists ref other w f, chronological (findex other) /\ NoDup (findex other) /\ NoDup ref /\
    temporal_collocation (fun c => c) 0 ref other w nearest_opts = Ok f /\
    temporal_collocation (fun c => c) 0 (backwards_times ref) (backwards_frame other) w nearest_opts <> Ok (backwards_frame f).
Proof.
  exists [5], (mkFrame ["sm"]%string [(0, [Some 1%Q]); (10, [Some 2%Q])]), 5. eexists.
  split; [apply sortedb_spec; reflexivity|]. split; [repeat constructor; cbn; intuition lia|]. split; [repeat constructor; cbn; intuition lia|]. split; [vm_compute; reflexivity|]. vm_compute. discriminate.
Qed.
Print Assumptions C135_nearest_refuted.
