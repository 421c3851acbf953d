(* Independent specification of the climatology. *)
From Verif Require Import Base Calendar FiltersModel FiltersSpec AnomalyModel.

(* value of day/month k (any integer, counted around the circle) of a yearly cycle *)
Definition circular (cycle : list cell) (k : Z) : cell :=
  nth (Z.to_nat ((k - 1) mod Z.of_nat (List.length cycle))) cycle None.

(* the values at circular distance at most window/2 from k *)
Definition circular_window (cycle : list cell) (window : Z) (k : Z) : list cell :=
  map (circular cycle) (zrange (k - window / 2) (Z.to_nat (2 * (window / 2) + 1))).

(* valid values: not NaN and not the sentinel -999999 of the filters *)
Definition valid_only (l : list cell) : list Q :=
  filter (fun v => negb (Qeq_bool v default_nan)) (vals l).

(* what a user expects as smoothed climatology of day/month k *)
Definition circular_average (cycle : list cell) (window min_obs k : Z) : cell :=
  let v := valid_only (circular_window cycle window k) in
  if min_obs <=? Z.of_nat (List.length v) then Some (qmean v) else None.

(* two dates fall on the same calendar day *)
Definition same_calendar_day (a b : date) : Prop := dm a = dm b /\ dd a = dd b.

(* options: no interpolation of the leap day, no filling *)
Definition plain (o : clim_opts) : Prop := k_interp o = false /\ k_fill o = None.

(* values of the series (with the smoothed values sm) falling on calendar unit k *)
Definition on_unit (unit : date -> Z) (k : Z) (ser : list obs) (sm : list cell) : list Q :=
  vals (map snd (filter (fun p => unit (o_date (fst p)) =? k) (combine ser sm))).

(* sm is the centred moving average of the series at each of its times *)
Definition smoothed (window : Q) (fillna : bool) (min_obs : Z) (ser : list obs) (sm : list cell) : Prop :=
  List.length sm = List.length ser /\
  forall i x c, nth_error ser i = Some x -> nth_error sm i = Some c ->
    (missing default_nan (o_val x) /\ fillna = false -> c = None) /\
    (~ missing default_nan (o_val x) \/ fillna = true ->
     ceq c (average_at default_nan window min_obs (map (fun y => (o_jd y, o_val y)) ser) (o_jd x))).

(* calendar unit of a date: month, day counted in a leap year, or day counted in its own year *)
Definition unit_of (o : clim_opts) (d : date) : Z :=
  match k_freq o with
  | FMonth => dm d
  | _ => if k_respect o then doy_year (dm d) (dd d) (dy d) else doy (dm d) (dd d)
  end.

Definition clim_window (o : clim_opts) : Z :=
  match k_ma_clim o with
  | Some m => Z.of_nat m
  | None => match k_freq o with FMonth => 3 | _ => 35 end
  end.

Definition without_interp (o : clim_opts) : clim_opts :=
  mkClim (k_ma_orig o) (k_ma_clim o) (k_std o) (k_fill o) (k_wrap o) (k_respect o) false
         (k_fillna o) (k_min_orig o) (k_min_clim o) (k_freq o).

(* a / b average of two cells, missing if one is missing *)
Definition mean2 (a b : cell) : cell :=
  match a, b with Some x, Some y => Some ((x + y) / 2)%Q | _, _ => None end.
