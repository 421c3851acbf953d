(* C127: what a moving average and a climatology leave alone: a linear trend, a repeating year and the mean of the year. *)
From Verif Require Import Base BaseProofs Calendar FiltersModel FiltersSpec FiltersProps AnomalyModel AnomalySpec AnomalyProofs ClimProofs2 ClimProps CycleProofs.
From Coq Require Import Lqa Qabs.
Open Scope Z_scope.

(* The observations lie on the line a + b t (none is missing or equal to the sentinel of the filters) *)
Definition line (a b : Q) (ser : list (Q * cell)) : Prop := forall s c, In (s, c) ser -> exists v, c = Some v /\ (v == a + b * s)%Q /\ ~ (v == default_nan)%Q.
(* The window of width w around t is filled symmetrically *)
Definition symmetric (w : Q) (ser : list (Q * cell)) (t : Q) : Prop :=
  forall s c, In (s, c) ser -> (Qabs (s - t) <= w / 2)%Q -> exists s' c', In (s', c') ser /\ (s' == 2 * t - s)%Q.

(* A linear trend passes the moving average unchanged wherever the window is filled symmetrically: the anomaly there is zero. *)
Theorem C127_trend (a b w : Q) ser k t c : (0 <= w)%Q -> StronglySorted (fun p q : Q * cell => (fst p < fst q)%Q) ser -> line a b ser ->
  nth_error ser k = Some (t, c) -> symmetric w ser t ->
  (exists m, nth_error (moving_average ser w false 1) k = Some (t, Some m) /\ (m == a + b * t)%Q) /\
  exists d, nth_error (calc_anomaly_ma ser w) k = Some (t, Some d) /\ (d == 0)%Q.
Proof.
  intros W S L K SY. destruct (L t c (nth_error_In _ _ K)) as (v & -> & EV & NV).
  assert (TS : time_sorted ser). { unfold time_sorted. clear - S. induction S as [|p r S IH F]; constructor; [exact IH|]. eapply Forall_impl; [|exact F]. cbn beta. intros q H. apply Qlt_le_weak, H. }
  destruct (C09_anomaly_plus_average ser w TS W) as [_ A]. destruct (A k t (Some v) K) as (x & X & _ & X3). destruct (X3 v eq_refl NV) as (m & d & M & -> & E).
  assert (EM : (m == a + b * t)%Q) by (apply (trend_average default_nan a b w 1 ser t S L SY m M); lia).
  split.
  - destruct (C07_boxcar_is_window_mean default_nan w false 1 ser ltac:(lia) TS) as [LB B]. destruct (B k t (Some v) K) as (o & O & _ & O2).
    assert (NM : ~ missing default_nan (Some v)) by (cbn; exact NV). specialize (O2 (or_introl NM)). rewrite M in O2. destruct o as [o|]; [|contradiction]. cbn [ceq] in O2.
    exists o. split; [|rewrite O2; exact EM]. unfold moving_average.
    revert K O. clear. generalize (boxcar_filter default_nan w false 1 ser). intros l. revert ser l. induction k as [|k IH]; intros [|p ser] [|y l] K O; cbn in K, O; try discriminate; cbn [map2 nth_error].
    + injection K as ->. injection O as ->. reflexivity.
    + apply IH; assumption.
  - exists d. split; [exact X|]. lra.
Qed.

(* At the ends of a series the window is not filled symmetrically and a trend shows up as an anomaly. *)
Definition ramp : list (Q * cell) := [(0%Q, Some 0%Q); (1%Q, Some 1%Q); (2%Q, Some 2%Q); (3%Q, Some 3%Q)].
Theorem C127_trend_ends_refuted : ~ (forall a b w ser k t c, (0 <= w)%Q -> StronglySorted (fun p q : Q * cell => (fst p < fst q)%Q) ser -> line a b ser -> nth_error ser k = Some (t, c) ->
  exists d, nth_error (calc_anomaly_ma ser w) k = Some (t, Some d) /\ (d == 0)%Q).
Proof.
  intros H. destruct (H 0%Q 1%Q 2%Q ramp 0%nat 0%Q (Some 0%Q)) as (d & E & D).
  - lra.
  - unfold ramp. repeat constructor.
  - intros s c [E|[E|[E|[E|[]]]]]; injection E as <- <-; eexists; (split; [reflexivity|split; [lra|unfold default_nan; lra]]).
  - reflexivity.
  - vm_compute in E. assert (d = (-1 # 2)%Q) by congruence. subst d. lra.
Qed.

(* A series whose values repeat every year has no anomalies from its own climatology (without smoothing): the climatology is
   the cycle itself. *)
Theorem C127_cycle o ser agg_std : k_freq o = FDay -> k_wrap o = true -> plain o -> k_ma_clim o = Some 1%nat -> k_min_clim o = 1 -> k_min_orig o = 1 ->
  (0 <= k_ma_orig o)%Q -> Forall (fun x => exists v, o_val x = Some v /\ (default_nan < v)%Q) ser -> Forall (fun x => valid_date (o_date x)) ser ->
  StronglySorted (fun x y => (o_jd x + k_ma_orig o / 2 < o_jd y)%Q) ser ->
  (forall x y, In x ser -> In y ser -> unit_of o (o_date x) = unit_of o (o_date y) -> ceq (o_val x) (o_val y)) ->
  exists out, calc_climatology mean_agg agg_std o ser = Ok out /\
    Forall (fun a => exists d, a = Some d /\ (d == 0)%Q) (calc_anomaly_clim (k_respect o) (map c_clim out) ser).
Proof. exact (cycle_zero o ser agg_std). Qed.

(* Smoothing the climatology does not change its sum over the year, and so not its mean: if every day (month) has a value
   before the smoothing then it has one after it, and the values add up to the same. *)
Theorem C127_mean_of_year (agg agg_std : list Q -> cell) o ser :
  k_freq o <> FOther -> k_wrap o = true -> plain o -> 1 <= clim_window o <= n_units (k_freq o) -> 1 <= k_min_clim o <= 2 * (clim_window o / 2) + 1 -> 1 <= k_min_orig o ->
  time_sorted (map (fun y => (o_jd y, o_val y)) ser) ->
  exists sm out, smoothed (k_ma_orig o) (k_fillna o) (k_min_orig o) ser sm /\ calc_climatology agg agg_std o ser = Ok out /\
    let cycle := map (fun k => agg (on_unit (unit_of o) k ser sm)) (zrange 1 (Z.to_nat (n_units (k_freq o)))) in
    ((forall c, In c cycle -> exists v, c = Some v /\ ~ (v == default_nan)%Q) -> Forall (fun c => c <> None) (map c_clim out) /\ (qsum (vals (map c_clim out)) == qsum (vals cycle))%Q).
Proof. exact (year_sum agg agg_std o ser). Qed.

(* Without wrapping around the turn of the year the sum changes. *)
Definition nowrap_opts : clim_opts := mkClim 1 (Some 3%nat) false None false false false false 1 1 FMonth.
Definition wrap_opts : clim_opts := mkClim 1 (Some 3%nat) false None true false false false 1 1 FMonth.
Definition months : list obs := map (fun k => mkObs (mkDate 2021 k 15) (inject_Z (30 * k)) (Some (inject_Z (k * k)))) (zrange 1 12).
Theorem C127_no_wrap_refuted : ~ (forall (ser : list obs) out, time_sorted (map (fun y => (o_jd y, o_val y)) ser) ->
  (forall k, 1 <= k <= 12 -> on_unit (unit_of nowrap_opts) k ser (map o_val ser) <> []) -> calc_climatology mean_agg (fun _ => None) nowrap_opts ser = Ok out ->
  (qsum (vals (map c_clim out)) == qsum (map (fun k => qmean (on_unit (unit_of nowrap_opts) k ser (map o_val ser))) (zrange 1 12)))%Q).
Proof.
  intros H. destruct (calc_climatology mean_agg (fun _ => None) nowrap_opts months) as [out|] eqn:E; [|vm_compute in E; discriminate E].
  specialize (H months out). assert (T : time_sorted (map (fun y => (o_jd y, o_val y)) months)) by (repeat constructor; vm_compute; congruence).
  assert (NE : forall k, 1 <= k <= 12 -> on_unit (unit_of nowrap_opts) k months (map o_val months) <> []).
  { intros k K. assert (C : k = 1 \/ k = 2 \/ k = 3 \/ k = 4 \/ k = 5 \/ k = 6 \/ k = 7 \/ k = 8 \/ k = 9 \/ k = 10 \/ k = 11 \/ k = 12) by lia.
    repeat destruct C as [C|C]; subst; vm_compute; discriminate. }
  specialize (H T NE E). vm_compute in E. injection E as <-. vm_compute in H. discriminate H.
Qed.

(* Non-vacuity *)
Example C127_ex_trend : StronglySorted (fun p q : Q * cell => (fst p < fst q)%Q) ramp /\ line 0 1 ramp /\ symmetric 2 ramp 1 /\ ~ symmetric 2 ramp 0 /\
  map (fun p => option_map Qred (snd p)) (calc_anomaly_ma ramp 2) = [Some (-1 # 2); Some 0; Some 0; Some (1 # 2)]%Q.
Proof.
  split; [unfold ramp; repeat constructor|]. split; [intros s c [E|[E|[E|[E|[]]]]]; injection E as <- <-; eexists; (split; [reflexivity|split; [lra|unfold default_nan; lra]])|]. split.
  - intros s c [E|[E|[E|[E|[]]]]] H; injection E as <- <-.
    + exists 2%Q, (Some 2%Q). split; [cbn; tauto|lra].
    + exists 1%Q, (Some 1%Q). split; [cbn; tauto|lra].
    + exists 0%Q, (Some 0%Q). split; [cbn; tauto|lra].
    + exfalso. revert H. vm_compute. congruence.
  - split; [|vm_compute; reflexivity]. intros H. destruct (H 1%Q (Some 1%Q)) as (s & c & [E|[E|[E|[E|[]]]]] & D).
    + cbn. tauto.
    + vm_compute. congruence.
    + injection E as <- <-. lra.
    + injection E as <- <-. lra.
    + injection E as <- <-. lra.
    + injection E as <- <-. lra.
Qed.
Definition yearly : list obs :=
  [mkObs (mkDate 2020 1 2) 1 (Some 4%Q); mkObs (mkDate 2020 2 29) 59 (Some 7%Q); mkObs (mkDate 2021 1 2) 367 (Some 4%Q); mkObs (mkDate 2021 3 1) 425 (Some 1%Q)].
Example C127_ex_cycle : Forall (fun x => exists v, o_val x = Some v /\ (default_nan < v)%Q) yearly /\ Forall (fun x => valid_date (o_date x)) yearly /\
  StronglySorted (fun x y => (o_jd x + k_ma_orig day_opts / 2 < o_jd y)%Q) yearly /\
  (forall x y, In x yearly -> In y yearly -> unit_of day_opts (o_date x) = unit_of day_opts (o_date y) -> ceq (o_val x) (o_val y)) /\
  mapR (fun out => map (option_map Qred) (calc_anomaly_clim false (map c_clim out) yearly)) (calc_climatology mean_agg (fun _ => None) day_opts yearly) = Ok [Some 0; Some 0; Some 0; Some 0]%Q.
Proof.
  split; [repeat constructor; eexists; split; try reflexivity|]. split; [repeat constructor; vm_compute; congruence|]. split; [repeat constructor; vm_compute; congruence|]. split; [|vm_compute; reflexivity].
  intros x y [E|[E|[E|[E|[]]]]] [F|[F|[F|[F|[]]]]] U; subst; vm_compute in U; try discriminate U; cbn [o_val ceq]; reflexivity.
Qed.
Example C127_ex_year : plain wrap_opts /\ clim_window wrap_opts = 3 /\ time_sorted (map (fun y => (o_jd y, o_val y)) months) /\
  mapR (fun out => Qred (qsum (vals (map c_clim out)))) (calc_climatology mean_agg (fun _ => None) wrap_opts months) = Ok 650%Q /\
  Qred (qsum (map (fun k => inject_Z (k * k)) (zrange 1 12))) = 650%Q.
Proof. split; [split; reflexivity|]. split; [reflexivity|]. split; [repeat constructor; vm_compute; congruence|]. split; vm_compute; reflexivity. Qed.

Print Assumptions C127_trend. Print Assumptions C127_trend_ends_refuted. Print Assumptions C127_cycle. Print Assumptions C127_mean_of_year. Print Assumptions C127_no_wrap_refuted.
