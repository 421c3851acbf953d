(* The same observations in other units. *)
From Verif Require Import Base NamesModel TcolModel DfMetricsModel EcolSpec.
From Coq Require Import Reals Qreals.
Open Scope R_scope.

(* column i of g holds u i * q + t i where column i of f holds q, and nothing where f holds nothing *)
Definition in_units (u t : nat -> Q) (f g : frame) : Prop :=
  map fst g = map fst f /\ forall i, col g i = map (omap (fun q => (u i * q + t i)%Q)) (col f i).
(* the known error covariance in the new units *)
Definition known_in_units (u : nat -> Q) (ec : option (nat * nat * R)) : option (nat * nat * R) :=
  match ec with None => None | Some (a, b, v) => Some (a, b, Q2R (u a) * Q2R (u b) * v) end.
(* an entry that may be absent or not finite, times a factor *)
Definition times (a : R) (x : option (option R)) : option (option R) := option_map (omap (Rmult a)) x.
Definition sign_of (x : R) : R := if Rlt_dec 0 x then 1 else -1.
