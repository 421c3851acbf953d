(* Specification vocabulary for scaling repeatedly. *)
From Verif Require Import Base.
Open Scope Q_scope.

(* the same value, or missing in both *)
Definition same_cell (c c' : cell) : Prop := match c, c' with Some v, Some v' => v == v' | None, None => True | _, _ => False end.
Definition same_data : list cell -> list cell -> Prop := Forall2 same_cell.
(* values of an array without missing values *)
Definition values_of (out : list cell) (l : list Q) : Prop := out = map Some l.
