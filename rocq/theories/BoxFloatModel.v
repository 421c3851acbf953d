(* boxcar_filter (/repo/src/pytesmo/time_series/filters.pyx 116-176) and moving_average (filtering.py 40-85) in IEEE 754
   arithmetic.

   Data, dates and results are doubles (moving_average converts both to double; for single precision data the array for the
   results has the wrong type and the call is refused); `window` is a single precision variable.  nobs is a C int: the
   series are shorter than 2^31.  The Julian dates are given (cadati.julday is external). *)
From Coq Require Import ZArith List Bool.
From Flocq Require Import Core IEEE754.BinarySingleNaN.
From Verif Require Import FloatModel TypedModel ExpFloatModel.
Import ListNotations.
Open Scope Z_scope.

Notation zero64 := (f0 53 1024).

Section Box.
Variable nan : double.

(* filters.pyx 152-160 (to the right from i) and 162-171 (to the left from i-1): missing values are skipped; the scan stops
   at the first value farther away than limit.  The accumulator is (sum, nobs). *)
Fixpoint f_scan (limit ti : double) (pts : list (double * double)) (acc : double * Z) : double * Z :=
  match pts with
  | [] => acc
  | (t, x) :: r =>
    if f_missing nan x then f_scan limit ti r acc
    else if Bleb (Babs (sub64 t ti)) limit then f_scan limit ti r (add64 (fst acc) x, snd acc + 1)
    else acc
  end.

(* filters.pyx 147-174: position i; [before] are the points i-1, i-2, ..., 0, [after] the points i, i+1, ...;
   sum / nobs is a division of doubles, 0 / 0 is NaN (cdivision) *)
Definition f_box_point (limit : double) (fillna : bool) (min_obs : Z) (before after : list (double * double)) (ti x : double) : double :=
  if negb (f_missing nan x) || fillna then
    let acc := f_scan limit ti before (f_scan limit ti after (zero64, 0)) in
    if min_obs <=? snd acc then div64 (fst acc) (z64 (snd acc)) else B754_nan
  else B754_nan.

Fixpoint f_box_loop (limit : double) (fillna : bool) (min_obs : Z) (before after : list (double * double)) : list double :=
  match after with
  | [] => []
  | (ti, x) :: r => f_box_point limit fillna min_obs before after ti x :: f_box_loop limit fillna min_obs ((ti, x) :: before) r
  end.

(* filters.pyx 142: limit = window / 2.0, the quotient of a float and a double *)
Definition f_limit (window : single) : double := div64 (to_double window) (z64 2).
Definition f_boxcar (window : single) (fillna : bool) (min_obs : Z) (pts : list (double * double)) : list double :=
  f_box_loop (f_limit window) fillna min_obs [] pts.
End Box.

(* filtering.py 40-85: the default nan of boxcar_filter; the python float window_size becomes a C float *)
Definition f_moving_average (window_size : double) (fillna : bool) (min_obs : Z) (pts : list (double * double)) : list double :=
  f_boxcar (z64 (-999999)) (to_single window_size) fillna min_obs pts.
