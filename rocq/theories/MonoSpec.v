(* C133: what it means that one series is nowhere above another. *)
From Coq Require Import ZArith List.
From Flocq Require Import Core IEEE754.BinarySingleNaN.
From Verif Require Import Base FloatModel TypedModel ExpFloatModel FiltersModel AnomalyModel.

(* results in IEEE 754 arithmetic: both not a number, or both numbers and the first not above the second *)
Definition not_above {prec emax} (u v : binary_float prec emax) : Prop :=
  BinarySingleNaN.is_nan u = BinarySingleNaN.is_nan v /\ (BinarySingleNaN.is_nan u = false -> Bleb u v = true).
(* observations: both missing, or both finite and the first not above the second *)
Definition datum_not_above {prec emax} (u v : binary_float prec emax) : Prop :=
  (BinarySingleNaN.is_nan u = true /\ BinarySingleNaN.is_nan v = true) \/ (is_finite u = true /\ is_finite v = true /\ Bleb u v = true).
(* observations with times, for a filter with the number [nan] as mark of missing values *)
Definition point_not_above (nan : double) (p q : double * double) : Prop :=
  fst p = fst q /\ ((f_missing nan (snd p) = true /\ f_missing nan (snd q) = true) \/
                    (f_missing nan (snd p) = false /\ f_missing nan (snd q) = false /\ is_finite (snd p) = true /\ is_finite (snd q) = true /\ Bleb (snd p) (snd q) = true)).

(* exact numbers: both missing, or both there and the first not above the second *)
Definition cell_not_above (c d : cell) : Prop :=
  match c, d with None, None => True | Some x, Some y => (x <= y)%Q | _, _ => False end.
(* above the number that marks missing values in moving averages, -999999 *)
Definition above_marker (c : cell) : Prop := match c with Some x => (-999999 < x)%Q | None => True end.
