(* Property theorems for climatologies and climatology anomalies (C10-C12). *)
From Verif Require Import Base Calendar FiltersModel FiltersSpec AnomalyModel AnomalySpec AnomalyProofs.

(* a few observations of a common and a leap year *)
Definition ex_opts : clim_opts := mkClim 1 (Some 2%nat) false None true false false false 1 1 FMonth.
Definition ex_ser : list obs :=
  [mkObs (mkDate 2020 1 31) 0 (Some 4%Q); mkObs (mkDate 2020 12 5) 309 (Some 7%Q);
   mkObs (mkDate 2021 1 7) 342 (Some 6%Q); mkObs (mkDate 2021 2 7) 373 None].

(* ---- C10 ---- *)
Theorem C10_climatology_is_circular :
  forall (agg agg_std : list Q -> cell) (o : clim_opts) (ser : list obs),
    k_freq o <> FOther -> k_wrap o = true -> plain o ->
    1 <= clim_window o <= n_units (k_freq o) -> 1 <= k_min_clim o -> 1 <= k_min_orig o ->
    time_sorted (map (fun y => (o_jd y, o_val y)) ser) ->
    exists sm out, smoothed (k_ma_orig o) (k_fillna o) (k_min_orig o) ser sm /\
      calc_climatology agg agg_std o ser = Ok out /\
      List.length out = Z.to_nat (n_units (k_freq o)) /\
      let cycle := map (fun k => agg (on_unit (unit_of o) k ser sm)) (zrange 1 (Z.to_nat (n_units (k_freq o)))) in
      forall k, 1 <= k <= n_units (k_freq o) ->
        exists r, nth_error out (Z.to_nat (k - 1)) = Some r /\
          (missing default_nan (circular cycle k) /\ k_fillna o = false -> c_clim r = None) /\
          (~ missing default_nan (circular cycle k) \/ k_fillna o = true ->
             ceq (c_clim r) (circular_average cycle (clim_window o) (k_min_clim o) k)).
Proof. exact climatology_circular. Qed.
Print Assumptions C10_climatology_is_circular.

(* outside of that range of windows the call raises *)
Theorem C10_window_out_of_range :
  forall (agg agg_std : list Q -> cell) (o : clim_opts) (ser : list obs),
    k_freq o <> FOther -> k_wrap o = true ->
    clim_window o = 0 \/ n_units (k_freq o) < clim_window o ->
    calc_climatology agg agg_std o ser = Err EValue.
Proof. exact climatology_bad_window. Qed.
Print Assumptions C10_window_out_of_range.

Example C10_hypotheses_met :
  k_freq ex_opts <> FOther /\ k_wrap ex_opts = true /\ plain ex_opts /\
  (1 <= clim_window ex_opts <= n_units (k_freq ex_opts)) /\
  time_sorted (map (fun y => (o_jd y, o_val y)) ex_ser) /\
  mapR (map c_clim) (calc_climatology mean_agg (fun _ => None) ex_opts ex_ser) =
  Ok [Some (24 # 4)%Q; None; None; None; None; None; None; None; None; None; None; Some (24 # 4)%Q].
Proof.
  split; [discriminate|]. split; [reflexivity|]. split; [split; reflexivity|]. split; [cbn; lia|].
  split; [repeat constructor; cbn; unfold Qle; cbn; lia|]. vm_compute. reflexivity.
Qed.

(* ---- C11 ---- *)
(* with leap years ignored in both functions *)
Theorem C11_same_day_matching_options_partial :
  forall (o : clim_opts) (clim : list cell) (ser : list obs) i x,
    k_freq o = FDay -> k_respect o = false ->
    List.length clim = 366%nat -> nth_error ser i = Some x -> valid_date (o_date x) ->
    exists k c, nth_error clim (Z.to_nat (k - 1)) = Some c /\ 1 <= k /\
      nth_error (calc_anomaly_clim false clim ser) i = Some (cell_sub (o_val x) c) /\
      forall y, valid_date y -> (unit_of o y = k <-> same_calendar_day y (o_date x)).
Proof. exact anomaly_same_day. Qed.
Print Assumptions C11_same_day_matching_options_partial.

(* with the default options: right in leap years and in January/February, always wrong otherwise *)
Theorem C11_default_options_partial :
  forall (o : clim_opts) (clim : list cell) (ser : list obs) i x,
    k_freq o = FDay -> k_respect o = default_clim_respect ->
    List.length clim = 366%nat -> nth_error ser i = Some x -> valid_date (o_date x) ->
    exists k c, nth_error clim (Z.to_nat (k - 1)) = Some c /\ 1 <= k /\
      nth_error (calc_anomaly_clim default_anomaly_respect clim ser) i = Some (cell_sub (o_val x) c) /\
      (leap (dy (o_date x)) = true \/ dm (o_date x) <= 2 ->
       forall y, valid_date y -> (unit_of o y = k <-> same_calendar_day y (o_date x))) /\
      (leap (dy (o_date x)) = false -> 2 < dm (o_date x) ->
       forall y, valid_date y -> unit_of o y = k -> ~ same_calendar_day y (o_date x)).
Proof. exact anomaly_same_day_defaults. Qed.
Print Assumptions C11_default_options_partial.

(* end to end: the climatology of 1 March is exactly the observed value, but the anomaly of that
   observation is computed against 29 February and is missing *)
Definition c11_opts : clim_opts :=
  mkClim 1 (Some 1%nat) false None true default_clim_respect false true 1 1 FDay.
Definition c11_ser : list obs :=
  [mkObs (mkDate 2021 2 28) 0 (Some 10%Q); mkObs (mkDate 2021 3 1) 1 (Some 20%Q)].
Theorem C11_default_options_refuted :
  exists (o : clim_opts) (ser : list obs) (clim : list crow) (i : nat) (x : obs),
    k_respect o = default_clim_respect /\
    calc_climatology mean_agg (fun _ => None) o ser = Ok clim /\
    nth_error ser i = Some x /\ valid_date (o_date x) /\
    (* the climatology of the calendar day of x exists and equals the value of x *)
    ceq (nth (Z.to_nat (unit_of o (o_date x) - 1)) (map c_clim clim) None) (o_val x) /\
    o_val x <> None /\
    nth_error (calc_anomaly_clim default_anomaly_respect (map c_clim clim) ser) i = Some None.
Proof.
  exists c11_opts, c11_ser.
  destruct (calc_climatology mean_agg (fun _ => None) c11_opts c11_ser) as [clim|] eqn:E;
    [|vm_compute in E; discriminate].
  exists clim, 1%nat, (mkObs (mkDate 2021 3 1) 1 (Some 20%Q)).
  assert (E' : match calc_climatology mean_agg (fun _ => None) c11_opts c11_ser with Ok c => c | Err _ => [] end = clim)
    by (rewrite E; reflexivity).
  rewrite <- E'. clear E E'.
  split; [reflexivity|]. split; [vm_compute; reflexivity|]. split; [reflexivity|].
  split; [split; cbn; lia|]. split; [vm_compute; reflexivity|]. split; [discriminate|].
  vm_compute. reflexivity.
Qed.
Print Assumptions C11_default_options_refuted.

Example C11_hypotheses_met :
  valid_date (mkDate 2021 3 1) /\ leap 2021 = false /\ valid_date (mkDate 2020 2 29) /\
  anomaly_key default_anomaly_respect (mkDate 2021 3 1) = 60 /\ unit_of c11_opts (mkDate 2020 2 29) = 60 /\
  unit_of c11_opts (mkDate 2021 3 1) = 61.
Proof. unfold valid_date; cbn. repeat split; lia. Qed.

(* ---- C12 ---- *)
Theorem C12_leapday_without_std :
  forall (agg agg_std : list Q -> cell) (o : clim_opts) (ser : list obs) (plain_out : list crow),
    k_freq o = FDay -> k_interp o = true -> k_std o = false -> k_fill o = None ->
    calc_climatology agg agg_std (without_interp o) ser = Ok plain_out ->
    exists out, calc_climatology agg agg_std o ser = Ok out /\
      List.length out = 366%nat /\ List.length plain_out = 366%nat /\
      let '(t, a, b) := if k_respect o then (366, 365, 1) else (60, 59, 61) in
      ceq (clim_at out t) (mean2 (clim_at plain_out a) (clim_at plain_out b)) /\
      forall k, 1 <= k -> k <> t -> clim_at out k = clim_at plain_out k.
Proof. exact leapday_interp. Qed.
Print Assumptions C12_leapday_without_std.

(* sample standard deviation of constant data (two or more equal values have standard deviation 0) *)
Definition const_std (l : list Q) : cell :=
  match l with
  | a :: b :: r => if forallb (Qeq_bool a) (b :: r) then Some 0%Q else None
  | _ => None
  end.
Definition c12_opts (std : bool) : clim_opts :=
  mkClim 1 (Some 1%nat) std None true false true true 1 1 FDay.
Definition c12_ser : list obs :=
  [mkObs (mkDate 2021 2 28) 0 (Some 10%Q); mkObs (mkDate 2021 3 1) 1 (Some 10%Q);
   mkObs (mkDate 2022 2 28) 365 (Some 10%Q); mkObs (mkDate 2022 3 1) 366 (Some 10%Q)].

Theorem C12_leapday_with_std_refuted :
  exists (o : clim_opts) (ser : list obs) (out : list crow),
    k_interp o = true /\ k_std o = true /\ k_respect o = false /\
    calc_climatology mean_agg const_std o ser = Ok out /\
    ~ ceq (clim_at out 60) (mean2 (clim_at out 59) (clim_at out 61)).
Proof.
  exists (c12_opts true), c12_ser.
  destruct (calc_climatology mean_agg const_std (c12_opts true) c12_ser) as [out|] eqn:E;
    [|vm_compute in E; discriminate].
  exists out.
  assert (E' : match calc_climatology mean_agg const_std (c12_opts true) c12_ser with Ok c => c | Err _ => [] end = out)
    by (rewrite E; reflexivity).
  rewrite <- E'. clear E E'. repeat split. vm_compute. discriminate.
Qed.
Print Assumptions C12_leapday_with_std_refuted.

Example C12_hypotheses_met :
  k_interp (c12_opts false) = true /\
  match calc_climatology mean_agg const_std (without_interp (c12_opts false)) c12_ser,
        calc_climatology mean_agg const_std (c12_opts false) c12_ser with
  | Ok p, Ok out => clim_at p 60 = None /\ ceq (clim_at out 60) (Some 10%Q)
  | _, _ => False
  end.
Proof. split; [reflexivity|]. vm_compute. split; reflexivity. Qed.
