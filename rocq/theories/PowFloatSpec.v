(* C137: data in units that differ by a power of two. *)
From Coq Require Import ZArith Reals List.
From Flocq Require Import Core IEEE754.BinarySingleNaN.
From Verif Require Import TypedModel.
Import ListNotations.
Open Scope R_scope.

(* the double y is 2^k times the double x *)
Definition times_power (k : Z) (x y : double) : Prop :=
  is_finite x = true /\ is_finite y = true /\ B2R y = B2R x * bpow radix2 k.
Definition pairs_times_power (k : Z) (d d' : list (double * double)) : Prop :=
  Forall2 (fun p q => times_power k (fst p) (fst q) /\ times_power k (snd p) (snd q)) d d'.
