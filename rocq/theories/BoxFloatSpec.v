(* What a moving average in floating point is compared with. *)
From Coq Require Import ZArith Reals List.
From Flocq Require Import Core IEEE754.BinarySingleNaN.
From Verif Require Import FloatSpec TypedModel ExpFloatSpec.
Import ListNotations.
Open Scope R_scope.

(* the date and the value of sample k *)
Definition time_of (ser : list (double * double)) (k : nat) : double := fst (nth k ser (B754_nan, B754_nan)).
Definition value_of (ser : list (double * double)) (k : nat) : double := snd (nth k ser (B754_nan, B754_nan)).
(* a value that is not NaN and not the number that stands for missing *)
Definition present (nan x : double) : Prop := is_nan x = false /\ Beqb x nan = false.

(* values that are present are numbers up to 2^900 *)
Definition moderate (nan : double) (ser : list (double * double)) : Prop :=
  forall k, (k < length ser)%nat -> present nan (value_of ser k) -> is_finite (value_of ser k) = true /\ Rabs (B2R (value_of ser k)) <= bpow radix2 900.

(* a double that is the mean of the values up to rounding: n + 1 operations *)
Definition close_to_mean (r : double) (l : list double) : Prop :=
  let n := INR (length l) in
  is_finite r = true /\ Rabs (B2R r - exact_sum B2R l / n) <= 2 * (n + 1) * eps * (exact_sum (fun x => Rabs (B2R x)) l / n) + bpow radix2 (-1075).
