(* C134: data that are whole multiples of a power of two, e.g. whole numbers or multiples of 1/128. *)
From Coq Require Import ZArith Reals List.
From Flocq Require Import Core IEEE754.BinarySingleNaN.
From Verif Require Import TypedModel.
Import ListNotations.
Open Scope R_scope.

(* the double x is z times 2^e *)
Definition on_grid (e z : Z) (x : double) : Prop := is_finite x = true /\ B2R x = IZR z * bpow radix2 e.
(* the double nearest to a real number, ties to even *)
Definition nearest_double (x : R) : R := round radix2 (FLT_exp (-1074) 53) ZnearestE x.
(* the double y is the correctly rounded real number x *)
Definition rounded_once (x : R) (y : double) : Prop := is_finite y = true /\ B2R y = nearest_double x.
Definition z_sum (l : list Z) : Z := fold_right Z.add 0%Z l.
Definition z_size (l : list Z) : Z := fold_right (fun z s => (Z.abs z + s)%Z) 0%Z l.
(* pairs of observations as numbers on the grid *)
Definition pairs_on_grid (e : Z) (m : list (Z * Z)) (d : list (double * double)) : Prop :=
  Forall2 (fun q p => on_grid e (fst q) (fst p) /\ on_grid e (snd q) (snd p)) m d.
Definition differences (m : list (Z * Z)) : list Z := map (fun q => (fst q - snd q)%Z) m.
Definition squares (l : list Z) : list Z := map (fun z => (z * z)%Z) l.
