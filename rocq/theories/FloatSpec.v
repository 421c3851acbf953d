(* What the results of the metrics in IEEE 754 arithmetic are compared with: real numbers. *)
From Coq Require Import ZArith Reals List.
From Flocq Require Import Core IEEE754.BinarySingleNaN.
Import ListNotations.
Open Scope R_scope.

Section FloatSpec.
Variables prec emax : Z.
Notation float := (binary_float prec emax).

(* a value from -1 to 1, or NaN *)
Definition correlation_or_nan (r : float) : Prop :=
  is_nan r = true \/ (is_finite r = true /\ -1 <= B2R r <= 1).

(* a value that is not negative (plus infinity included), or NaN *)
Definition nonneg_or_nan (a : float) : Prop :=
  match a with B754_nan => True | B754_infinity s => s = false | _ => 0 <= B2R a end.

(* b is -a; the sign of a zero does not count *)
Definition opposite (a b : float) : Prop :=
  b = Bopp a \/ (is_finite a = true /\ is_finite b = true /\ B2R a = 0 /\ B2R b = 0).

(* the pairs with the roles of the series exchanged *)
Definition exchanged (d : list (float * float)) : list (float * float) := map (fun p => (snd p, fst p)) d.

Definition all_finite (d : list (float * float)) : Prop :=
  Forall (fun p => is_finite (fst p) = true /\ is_finite (snd p) = true) d.

(* sums over the pairs, in exact arithmetic *)
Fixpoint exact_sum {A : Type} (f : A -> R) (l : list A) : R :=
  match l with [] => 0 | a :: r => f a + exact_sum f r end.
Definition diff_of (p : float * float) : R := B2R (fst p) - B2R (snd p).

(* unit roundoff, and half the smallest positive number *)
Definition unit_roundoff : R := / 2 * bpow radix2 (1 - prec).
Definition tiny : R := / 2 * bpow radix2 (3 - emax - prec).
End FloatSpec.
