(* Specification: frequencies of slow waves. *)
From Verif Require Import Base RStats MetricsModel DctModel.

(* the wave with the frequencies k (k half periods per axis) takes more than six positions per period along every axis *)
Definition slow (shape k : list nat) : Prop := Forall2 (fun n k0 => (3 * k0 < n)%nat) shape k.
(* an array of integers *)
Definition integers (shape : list nat) (data : list nat -> option R) : Prop := forall i, In i (indices shape) -> exists v, data i = Some (IZR v).
(* how strongly the wave with the frequencies k is penalised *)
Fixpoint stiffness (shape k : list nat) : R :=
  match shape, k with
  | n :: rest, k0 :: ks => ((2 - 2 * cos (PI * INR k0 / INR n)) + stiffness rest ks)%R
  | _, _ => 0%R
  end.
