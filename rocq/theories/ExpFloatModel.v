(* exp_filter (/repo/src/pytesmo/time_series/filters.pyx 47-110) in IEEE 754 arithmetic.

   Data, dates and results are doubles (single precision data are refused: the array for the results is one of doubles); `ef`
   and `gain` are single precision variables.  The C library's exp is a parameter. *)
From Coq Require Import ZArith List.
From Flocq Require Import Core IEEE754.BinarySingleNaN.
From Verif Require Import FloatModel TypedModel.
Import ListNotations.
Open Scope Z_scope.

Notation add64 := (fadd 53 1024 p53 e1024).
Notation sub64 := (fsub 53 1024 p53 e1024).
Notation mul64 := (fmul 53 1024 p53 e1024).
Notation div64 := (fdiv 53 1024 p53 e1024).
Notation z64 := (of_z 53 1024 p53 e1024).
Notation add32 := (fadd 24 128 p24 e128).
Notation div32 := (fdiv 24 128 p24 e128).

(* filters.pyx 82, 97: (in_data[i] == nan) or isnan(in_data[i]) *)
Definition f_missing (nan x : double) : bool := (Beqb x nan || BinarySingleNaN.is_nan x)%bool.

Section Exp.
Variable exp64 : double -> double.
Variable nan : double.
Variable ctime : Z.

(* filters.pyx 100-101: ef = exp(-tdiff / ctime), stored in single precision *)
Definition f_ef (last_jd t : double) : single := to_single (exp64 (div64 (Bopp (sub64 t last_jd)) (z64 ctime))).
(* 102: gain = gain / (gain + ef) *)
Definition f_gain (gain ef : single) : single := div32 gain (add32 gain ef).
(* 103-106: the new value; the product of a float and a double is a double *)
Definition f_update (last : double) (gain : single) (x : double) : double := add64 last (mul64 (to_double gain) (sub64 x last)).

(* 95-108: the loop after the first valid value; the state is (last_jd_var, last_filtered_var, gain) *)
Fixpoint f_exp_loop (last_jd last : double) (gain : single) (pts : list (double * double)) : list double :=
  match pts with
  | [] => []
  | (t, x) :: r =>
    if f_missing nan x then B754_nan :: f_exp_loop last_jd last gain r
    else let g := f_gain gain (f_ef last_jd t) in
         let y := f_update last g x in
         y :: f_exp_loop t y g r
  end.
(* 78-93: search for the first valid value; gain = 1 *)
Fixpoint f_exp_filter (pts : list (double * double)) : list double :=
  match pts with
  | [] => []
  | (t, x) :: r => if f_missing nan x then B754_nan :: f_exp_filter r else x :: f_exp_loop t x (f1 24 128 p24 e128) r
  end.
End Exp.
