(* What an array of a numpy type can hold (C100). *)
From Coq Require Import ZArith String.
From Verif Require Import Base TypedModel.
Open Scope Z_scope.

(* the items an array of a type can hold *)
Definition has_type (d : dtype) (x : item) : Prop :=
  match d, x with
  | Int32, NpInt z => - 2 ^ 31 <= z < 2 ^ 31
  | Float32, F32 _ => True
  | Float64, F64 _ => True
  | Text n, Str s => (String.length s <= n)%nat
  | Time, Stamp _ => True
  | _, _ => False
  end.

