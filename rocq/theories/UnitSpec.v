(* The same data in another unit: v' is a * v + b. *)
From Verif Require Import Base.
Open Scope Q_scope.

Definition in_unit (a b v v' : Q) : Prop := v' == a * v + b.
(* the same for cells: missing values stay missing *)
Definition cell_in_unit (a b : Q) (c c' : cell) : Prop :=
  match c, c' with Some v, Some v' => in_unit a b v v' | None, None => True | _, _ => False end.
(* the same exception, or related results *)
Definition same_outcome {A B} (R : A -> B -> Prop) (x : res A) (y : res B) : Prop :=
  match x, y with Ok a, Ok b => R a b | Err e, Err e' => e = e' | _, _ => False end.
