(* What is assumed of the C library's exp, and what a chronological series is. *)
From Coq Require Import ZArith Reals List.
From Flocq Require Import Core IEEE754.BinarySingleNaN.
From Verif Require Import TypedModel.
Import ListNotations.
Open Scope R_scope.

(* exp of a number that is not positive is between 0 and 1 *)
Definition exp_ok (exp64 : double -> double) : Prop := forall y, is_finite y = true -> B2R y <= 0 -> is_finite (exp64 y) = true /\ 0 <= B2R (exp64 y) <= 1.
(* exp exceeds 2^128 from 89 on, is between 2^-149 and 2^127 from -100 to 88, below 2^-150 up to -105
   (ln 2^128 = 88.72..., ln 2^127 = 88.03..., ln 2^-149 = -103.28..., ln 2^-150 = -103.97...) *)
Definition exp_grows (exp64 : double -> double) : Prop :=
  (forall y, is_finite y = true -> 89 <= B2R y -> exp64 y = B754_infinity false \/ is_finite (exp64 y) = true /\ bpow radix2 128 <= B2R (exp64 y)) /\
  (forall y, is_finite y = true -> -100 <= B2R y <= 88 -> is_finite (exp64 y) = true /\ bpow radix2 (-149) <= B2R (exp64 y) <= bpow radix2 127) /\
  (forall y, is_finite y = true -> B2R y <= -105 -> is_finite (exp64 y) = true /\ 0 <= B2R (exp64 y) < bpow radix2 (-150)).

(* a date that is a number (not larger than 2^1000) *)
Definition good_time (t : double) : Prop := is_finite t = true /\ Rabs (B2R t) <= bpow radix2 1000.
(* dates do not go back *)
Definition chronological (pts : list (double * double)) : Prop :=
  (forall t x, In (t, x) pts -> good_time t) /\
  (forall i j p q, (i < j)%nat -> nth_error pts i = Some p -> nth_error pts j = Some q -> B2R (fst p) <= B2R (fst q)).
(* the largest relative error of one operation in double precision *)
Definition eps : R := / 9007199254740992.
