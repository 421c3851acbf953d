(* Specification vocabulary for the subset adapters. *)
From Coq Require Import Reals List.
From Verif Require Import Base GroupingModel.
From Verif Require Export GroupingSpec.
From Verif Require Import CalcModel SubsetModel.
Open Scope list_scope.

(* [g] holds exactly the rows of [f] whose time satisfies [P], in the same order, under the same columns *)
Definition rows_where (P : ts -> Prop) (f g : frame) : Prop :=
  f_cols g = f_cols f /\ subsequence (fun r : frow => P (fst r)) (f_rows f) (f_rows g).

(* names that keep their own name: the location and the metadata *)
Definition location_or_metadata (meta : metadata) (k : key) : Prop :=
  exists s, k = [s] /\ (In s ["gpi"; "lon"; "lat"]%string \/ exists m, meta = Some m /\ In s (map fst m)).

(* the calculator answers every frame with a dictionary: distinct, nonempty keys *)
Definition is_dict (ds : dataset) : Prop := NoDup (map fst ds) /\ ~ In [] (map fst ds).

(* the character "|" does not occur *)
Definition no_bar (s : string) : Prop := forall a b, s <> (a ++ "|" ++ b)%string.
