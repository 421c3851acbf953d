(* C93: moving averages, climatologies and anomalies follow the unit of the data and of the time axis. *)
From Verif Require Import Base Calendar FiltersModel AnomalyModel UnitSpec UnitProofs FilterUnitProofs.
From Coq Require Import Lqa Qabs.
Open Scope Q_scope.

(* a value that is not the number that stands for a missing value *)
Definition not_the_marker (nan : Q) (c : cell) : Prop := match c with Some v => ~ v == nan | None => True end.
(* the same series on another time axis, in another unit *)
Definition same_series (a b k s : Q) : list (Q * cell) -> list (Q * cell) -> Prop :=
  Forall2 (fun p p' => fst p' == k * fst p + s /\ cell_in_unit a b (snd p) (snd p')).

Lemma same_prel nan a b k s ser ser' : same_series a b k s ser ser' -> Forall (fun p => not_the_marker nan (snd p)) ser -> Forall (fun p => not_the_marker nan (snd p)) ser' ->
  Forall2 (prel nan a b k s) ser ser'.
Proof.
  induction 1 as [|p p' l l' (T & C) F IH]; intros G G'; [constructor|]. inversion G; inversion G'; subst. constructor; [|apply IH; assumption]. repeat split; assumption.
Qed.
(* The boxcar filter, with times in another unit (days, seconds) and another epoch; the unit of the values
   may also be reversed (a < 0). *)
Theorem C93_boxcar nan a b k s window fillna min_obs ser ser' : 0 < k -> same_series a b k s ser ser' ->
  Forall (fun p => not_the_marker nan (snd p)) ser -> Forall (fun p => not_the_marker nan (snd p)) ser' ->
  Forall2 (cell_in_unit a b) (boxcar_filter nan window fillna min_obs ser) (boxcar_filter nan (k * window) fillna min_obs ser').
Proof. intros K F G G'. exact (boxcar_rel nan a b k s K window fillna min_obs ser ser' (same_prel nan a b k s ser ser' F G G')). Qed.
Print Assumptions C93_boxcar.

(* Anomalies from a moving average are differences: the zero point drops out. *)
Theorem C93_anomaly_moving_average a b s window ser ser' : same_series a b 1 s ser ser' ->
  Forall (fun p => not_the_marker default_nan (snd p)) ser -> Forall (fun p => not_the_marker default_nan (snd p)) ser' ->
  same_series a 0 1 s (calc_anomaly_ma ser window) (calc_anomaly_ma ser' window).
Proof.
  intros F G G'. assert (B := boxcar_rel_eq default_nan a b 1 s one_pos window window false 1 ser ser' ltac:(ring) (same_prel default_nan a b 1 s ser ser' F G G')).
  unfold calc_anomaly_ma, moving_average. revert B. generalize (boxcar_filter default_nan window false 1 ser), (boxcar_filter default_nan window false 1 ser'). intros m m' B. clear G G'.
  revert m m' B. induction F as [|p p' l l' (T & C) F IH]; intros m m' B; cbn [map2]; [constructor|]. destruct B as [|x x' m m' X B]; cbn [map2]; [constructor|].
  constructor; [|apply IH, B]. cbn [fst snd]. split; [exact T|]. exact (cell_sub_rel a b _ _ _ _ C X).
Qed.
Print Assumptions C93_anomaly_moving_average.

(* The number -999999 is taken for a missing value, whatever the unit: for values that reach it the
   moving average depends on the unit. *)
Theorem C93_marker_refuted : exists ser ser' : list (Q * cell), same_series 1 (-1000000) 1 0 ser ser' /\
  map (fun p => option_map Qred (snd p)) (moving_average ser 3 false 1) = [Some 2; Some 2] /\
  map (fun p => option_map Qred (snd p)) (moving_average ser' 3 false 1) = [None; Some (-999997)].
Proof.
  exists [(1, Some 1); (2, Some 3)], [(1, Some (-999999)); (2, Some (-999997))]. split; [repeat (constructor; [split; reflexivity|]); constructor|].
  split; reflexivity.
Qed.
Print Assumptions C93_marker_refuted.

(* observations on the same dates *)
Definition same_observations (a b : Q) : list obs -> list obs -> Prop :=
  Forall2 (fun o o' => o_date o' = o_date o /\ o_jd o' = o_jd o /\ cell_in_unit a b (o_val o) (o_val o')).
Definition above_marker (ser : list obs) : Prop := Forall (fun o => match o_val o with Some v => -999999 < v | None => True end) ser.
(* an average of values: follows their unit and lies in their range; a spread: follows the factor *)
Definition average (agg : list Q -> cell) : Prop :=
  (forall a b l l', 0 < a -> Forall2 (in_unit a b) l l' -> cell_in_unit a b (agg l) (agg l')) /\
  (forall m l, Forall (fun v => m < v) l -> match agg l with Some v => m < v | None => True end).
Definition spread (agg : list Q -> cell) : Prop :=
  forall a b l l', 0 < a -> Forall2 (in_unit a b) l l' -> cell_in_unit a 0 (agg l) (agg l').
Theorem C93_mean_is_average : average mean_agg.
Proof. split; [exact mean_agg_units|exact mean_agg_range]. Qed.

(* rows of a climatology: the average in the unit of the data, the standard deviation in its factor *)
Definition same_climatology (a b : Q) : list crow -> list crow -> Prop :=
  Forall2 (fun r r' => cell_in_unit a b (c_clim r) (c_clim r') /\
                       match c_std r, c_std r' with Some x, Some y => cell_in_unit a 0 x y | None, None => True | _, _ => False end).
(* the options with another fill value *)
Definition with_fill (o : clim_opts) (fill : cell) : clim_opts :=
  mkClim (k_ma_orig o) (k_ma_clim o) (k_std o) fill (k_wrap o) (k_respect o) (k_interp o) (k_fillna o) (k_min_orig o) (k_min_clim o) (k_freq o).
Theorem C93_climatology_partial agg agg_std a b o fill ser ser' : average agg -> spread agg_std -> 0 < a ->
  same_observations a b ser ser' -> above_marker ser -> above_marker ser' -> cell_in_unit a b (k_fill o) fill ->
  (k_std o = true -> k_interp o = false /\ k_fill o = None) ->
  same_outcome (same_climatology a b) (calc_climatology agg agg_std o ser) (calc_climatology agg agg_std (with_fill o fill) ser').
Proof. intros [AU AR] SP A F G G' FI ST. exact (clim_rel a b A agg agg_std AU AR SP o fill ser ser' F G G' FI ST). Qed.
Print Assumptions C93_climatology_partial.
(* The standard deviations are filled with the fill value of the climatology, so their unit matters. *)
Theorem C93_filled_spread_refuted : exists o o' ser ser' r r', o' = with_fill o (Some 32) /\ cell_in_unit (9 # 5) 32 (k_fill o) (Some 32) /\ same_observations (9 # 5) 32 ser ser' /\
  calc_climatology mean_agg (fun _ => None) o ser = Ok r /\ calc_climatology mean_agg (fun _ => None) o' ser' = Ok r' /\
  option_map c_std (nth_error r 0) = Some (Some (Some 0)) /\ option_map c_std (nth_error r' 0) = Some (Some (Some 32)).
Proof.
  exists (mkClim 1 (Some 1%nat) true (Some 0) true false false false 1 1 FMonth). eexists. exists [mkObs (mkDate 2000 1 1) 1 (Some 10)], [mkObs (mkDate 2000 1 1) 1 (Some 50)].
  eexists. eexists. split; [reflexivity|]. split; [reflexivity|]. split; [repeat constructor; reflexivity|]. split; [vm_compute; reflexivity|]. split; [vm_compute; reflexivity|]. split; reflexivity.
Qed.
Print Assumptions C93_filled_spread_refuted.
(* Anomalies from a climatology in the same unit are differences. *)
Theorem C93_anomaly_climatology a b respect clim clim' ser ser' : Forall2 (cell_in_unit a b) clim clim' -> same_observations a b ser ser' ->
  Forall2 (cell_in_unit a 0) (calc_anomaly_clim respect clim ser) (calc_anomaly_clim respect clim' ser').
Proof. exact (anomaly_rel a b respect clim clim' ser ser'). Qed.
Print Assumptions C93_anomaly_climatology.

(* two Januaries and a July, in degrees Celsius and Fahrenheit *)
Definition celsius_obs := [mkObs (mkDate 2000 1 1) 1 (Some 10); mkObs (mkDate 2000 7 2) 184 (Some 30); mkObs (mkDate 2001 1 5) 371 (Some 15)].
Definition fahrenheit_obs := [mkObs (mkDate 2000 1 1) 1 (Some 50); mkObs (mkDate 2000 7 2) 184 (Some 86); mkObs (mkDate 2001 1 5) 371 (Some 59)].
Example C93_ex : let o := mkClim 1 (Some 1%nat) false (Some 0) true false false false 1 1 FMonth in
  same_observations (9 # 5) 32 celsius_obs fahrenheit_obs /\ above_marker celsius_obs /\ above_marker fahrenheit_obs /\ cell_in_unit (9 # 5) 32 (k_fill o) (Some 32) /\
  (exists r, calc_climatology mean_agg (fun _ => None) o celsius_obs = Ok r /\ option_map (fun r => option_map Qred (c_clim r)) (nth_error r 0) = Some (Some (25 # 2))) /\
  (exists r, calc_climatology mean_agg (fun _ => None) (with_fill o (Some 32)) fahrenheit_obs = Ok r /\ option_map (fun r => option_map Qred (c_clim r)) (nth_error r 0) = Some (Some (109 # 2))).
Proof.
  cbv zeta. split; [repeat (constructor; [repeat split; reflexivity|]); constructor|]. split; [repeat constructor|]. split; [repeat constructor|]. split; [reflexivity|].
  split; eexists; (split; [vm_compute; reflexivity|vm_compute; reflexivity]).
Qed.
