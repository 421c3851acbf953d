(* Vocabulary for the anomaly adapters. *)
From Verif Require Export AdaptersSpec AnomalySpec ClimAdapterModel.
Open Scope Z_scope.

Definition climatology_name (n : string) : string := (n ++ "_climatology")%string.
(* the observations of a column *)
Definition observations (t : tab stamp) (n : string) : list obs :=
  map (fun r => mkObs (fst (fst r)) (snd (fst r)) (value (tcols t) (snd r) n)) (trows t).
Definition points (t : tab stamp) (n : string) : list (Q * cell) := map (fun r => (snd (fst r), value (tcols t) (snd r) n)) (trows t).
