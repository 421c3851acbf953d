(* What collocation by means should return: for every reference time the mean of the values in the closed window. *)
From Coq Require Import ZArith List Bool.
From Flocq Require Import Core IEEE754.BinarySingleNaN.
From Verif Require Import Calendar FloatModel FloatProps JdModel JdSpec.
Import ListNotations.
Open Scope Z_scope.

(* the values observed at most w nanoseconds before or after the time a *)
Definition in_window {A} (a : stamp) (w : Z) (other : list stamp) (values : list A) : list A :=
  map snd (filter (fun p => Z.abs (ns_time (fst p) - ns_time a) <=? w) (combine other values)).
(* the values that are not missing *)
Definition present (l : list double) : list double := filter (fun x => negb (BinarySingleNaN.is_nan x)) l.
(* their mean: added one after the other and divided by their number; NaN if there is none *)
Definition mean_of (l : list double) : double :=
  match present l with
  | [] => B754_nan
  | v => FloatModel.fdiv 53 1024 p53 e1024 (fold_left (FloatModel.fadd 53 1024 p53 e1024) v (f0 53 1024)) (of_z 53 1024 p53 e1024 (Z.of_nat (List.length v)))
  end.
