(* Model of src/pytesmo/time_series/filters.pyx and filtering.py.
   A time series is a list of (time, value); times are Julian dates.
   Simplification: exact numbers instead of float/double. *)
From Verif Require Export Base.
From Coq Require Export Qabs.
#[global] Open Scope Z_scope.
From Coq Require Import Reals.

(* ------------------------------------------------------------------ *)
(* boxcar_filter, filters.pyx:116-176                                   *)

Notation point := (Q * cell)%type.

(* filters.pyx:149 etc.: is_nan = (in_data[i] == nan) or isnan(in_data[i]) *)
Definition valid_value (nan : Q) (c : cell) : option Q :=
  match c with
  | None => None
  | Some v => if Qeq_bool v nan then None else Some v
  end.

(* filters.pyx:153-161 (outward scan to the right, starting at i) and
   filters.pyx:163-172 (to the left, starting at i-1): missing values are skipped, the scan
   stops at the first valid value farther than limit *)
Fixpoint box_scan (nan limit ti : Q) (pts : list point) (acc : Q * Z) : Q * Z :=
  match pts with
  | [] => acc
  | (t, c) :: r =>
    match valid_value nan c with
    | None => box_scan nan limit ti r acc
    | Some v =>
      if Qle_bool (Qabs (t - ti)) limit
      then box_scan nan limit ti r ((fst acc + v)%Q, snd acc + 1)
      else acc
    end
  end.

(* filters.pyx:148-174, body for position i; [before] are the points i-1, i-2, ... 0.
   sum / nobs with nobs = 0 is 0/0 = NaN (cdivision). *)
Definition box_point (nan limit : Q) (fillna : bool) (min_obs : Z)
    (before after : list point) (ti : Q) (c : cell) : cell :=
  if notna (valid_value nan c) || fillna then
    let '(s, n) := box_scan nan limit ti before (box_scan nan limit ti after (0%Q, 0)) in
    if min_obs <=? n then (if n =? 0 then None else Some (s / inject_Z n)%Q) else None
  else None.

Fixpoint box_loop (nan limit : Q) (fillna : bool) (min_obs : Z)
    (before after : list point) : list cell :=
  match after with
  | [] => []
  | (ti, c) :: r =>
      box_point nan limit fillna min_obs before after ti c
      :: box_loop nan limit fillna min_obs ((ti, c) :: before) r
  end.

Definition boxcar_filter (nan window : Q) (fillna : bool) (min_obs : Z) (pts : list point)
  : list cell :=
  box_loop nan (window / 2)%Q fillna min_obs [] pts.

(* filters.pyx:122: default value of the nan argument *)
Definition default_nan : Q := (-999999)%Q.

(* moving_average, filtering.py:40-85: boxcar_filter with the default nan; the index of the
   series is kept. The conversion of a DatetimeIndex to Julian dates (to seconds) is the
   identity here: the index is already a Julian date. *)
Definition moving_average (ser : list point) (window_size : Q) (fillna : bool) (min_obs : Z)
  : list point :=
  map2 (fun p c => (fst p, c)) ser (boxcar_filter default_nan window_size fillna min_obs ser).

(* calc_anomaly without climatology, anomaly.py:89-91: Ser - moving_average(Ser) *)
Definition cell_sub (a b : cell) : cell :=
  match a, b with Some x, Some y => Some (x - y)%Q | _, _ => None end.
Definition calc_anomaly_ma (ser : list point) (window_size : Q) : list point :=
  map2 (fun p q => (fst p, cell_sub (snd p) (snd q))) ser
       (moving_average ser window_size false 1).

(* ------------------------------------------------------------------ *)
(* exp_filter, filters.pyx:50-110, over the reals                       *)
Local Open Scope R_scope.

Notation rpoint := (R * option R)%type.

Definition rvalid (nan : R) (c : option R) : option R :=
  match c with
  | None => None
  | Some v => if Req_EM_T v nan then None else Some v
  end.

(* filters.pyx:95-107: loop after the first valid value; state is
   (last_jd_var, last_filtered_var, gain) *)
Fixpoint exp_loop (nan : R) (ctime : Z) (last_jd last gain : R) (pts : list rpoint)
  : list (option R) :=
  match pts with
  | [] => []
  | (t, c) :: r =>
    match rvalid nan c with
    | None => None :: exp_loop nan ctime last_jd last gain r
    | Some x =>
      let tdiff := t - last_jd in
      let ef := exp (- tdiff / IZR ctime) in
      let gain' := gain / (gain + ef) in
      let f := last + gain' * (x - last) in
      Some f :: exp_loop nan ctime t f gain' r
    end
  end.

(* filters.pyx:80-93: search for the first valid value *)
Fixpoint exp_filter (nan : R) (ctime : Z) (pts : list rpoint) : list (option R) :=
  match pts with
  | [] => []
  | (t, c) :: r =>
    match rvalid nan c with
    | None => None :: exp_filter nan ctime r
    | Some x => Some x :: exp_loop nan ctime t x 1 r
    end
  end.
