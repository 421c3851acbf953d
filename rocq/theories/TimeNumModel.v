(* Time stamps in result files: how the results manager turns them into "days since 1900-01-01 00:00:00" in double
   precision and back.  /repo/src/pytesmo/validation_framework/results_manager.py 155-176, 223, 359. *)
From Coq Require Import ZArith List.
From Flocq Require Import Core IEEE754.BinarySingleNaN.
From Verif Require Import FloatModel.
Import ListNotations.
Open Scope Z_scope.

(* A time stamp is the number of nanoseconds since 1900-01-01 00:00:00, the resolution of pandas. *)

(* results_manager.py 174-175: DatetimeIndex.to_pydatetime (external): python's datetime counts microseconds, the
   nanoseconds are dropped *)
Definition to_pydatetime (ns : Z) : Z := ns / 1000.
Definition us_per_day : Z := 86400 * 10 ^ 6.

Section TimeNum.
Variables prec emax : Z.
Context (Hp : Prec_gt_0 prec) (He : Prec_lt_emax prec emax).
Notation double := (binary_float prec emax).
Variables xprec xemax : Z.                       (* numpy's long double *)
Context (Xp : Prec_gt_0 xprec) (Xe : Prec_lt_emax xprec xemax).
Notation long := (binary_float xprec xemax).

(* results_manager.py 172-176 _date2num: date2num (external) divides the difference to the reference date by one day,
   which python does on whole numbers of microseconds and rounds once.  Numbers of microseconds up to 2^53 (285 years)
   are doubles, so that this is the division of doubles; larger ones are not modelled.  If all time stamps are at
   midnight date2num returns integers, which the variable of doubles holds as the same numbers. *)
Definition date2num (us : Z) : double := FloatModel.fdiv prec emax Hp He (FloatModel.of_z prec emax Hp He us) (FloatModel.of_z prec emax Hp He us_per_day).

(* the same number as a long double *)
Definition to_long (f : double) : long :=
  match f with
  | B754_finite s m e _ => binary_normalize xprec xemax Xp Xe mode_NE (cond_Zopp s (Zpos m)) e false
  | B754_zero s => B754_zero s
  | B754_infinity s => B754_infinity s
  | B754_nan => B754_nan
  end.
(* results_manager.py 155-170 _num2date: num2date (external) multiplies with the number of microseconds of a day in
   long double and takes the nearest whole number *)
Definition num2date (f : double) : Z :=
  Btrunc (Bnearbyint mode_NE (FloatModel.fmul xprec xemax Xp Xe (to_long f) (FloatModel.of_z xprec xemax Xp Xe us_per_day))).

(* results_manager.py 223: the numbers written; 359 the index of the frame read, in nanoseconds again *)
Definition written (times : list Z) : list double := map (fun t => date2num (to_pydatetime t)) times.
Definition read_back (nums : list double) : list Z := map (fun f => num2date f * 1000) nums.
End TimeNum.
