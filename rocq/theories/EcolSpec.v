(* What the dictionary of the extended collocation should hold. *)
From Verif Require Export Base.
From Verif Require Import NamesModel TcolModel DfMetricsModel.
From Coq Require Import Reals Qreals.
Open Scope R_scope.

(* the name of column i, and pairs of columns by name *)
Definition name (cols : list string) (i : nat) : string := nth i cols ""%string.
Definition named (cols : list string) (co : list (nat * nat)) : list (string * string) :=
  map (fun p => (name cols (fst p), name cols (snd p))) co.
Definition named_known (cols : list string) (ec : option (nat * nat * R)) : option (string * string * R) :=
  match ec with None => None | Some (a, b, v) => Some (name cols a, name cols b, v) end.
Definition columns_of (n : nat) (co : list (nat * nat)) : Prop := forall p, In p co -> (fst p < n)%nat /\ (snd p < n)%nat.
Definition known_of (n : nat) (ec : option (nat * nat * R)) : Prop :=
  match ec with None => True | Some (a, b, _) => (a < n)%nat /\ (b < n)%nat end.

(* the keys of a pair *)
Definition cov_key (p : string * string) : string := ("err_cov_" ++ fst p ++ "_" ++ snd p)%string.
Definition corr_key (p : string * string) : string := ("err_corr_" ++ fst p ++ "_" ++ snd p)%string.
(* the error variance of a column gets a key of its own *)
Definition own_key (c : string) (correlated : list (string * string)) : Prop :=
  forall p, In p correlated -> ("err_" ++ c)%string <> cov_key p /\ ("err_" ++ c)%string <> corr_key p.
(* the k-th pair has a name of its own: "a_b" and "c" are joined like "a" and "b_c" *)
Definition own_pair (correlated : list (string * string)) (k : nat) : Prop :=
  forall j q p, nth_error correlated k = Some p -> nth_error correlated j = Some q -> j <> k -> cov_key q <> cov_key p.

(* all columns of a frame have the same length; the cells of row t; the rows without a missing value *)
Definition rectangular (f : frame) : Prop := forall c, In c f -> List.length (snd c) = List.length (snd (hd (""%string, []) f)).
Definition cells (f : frame) (t : nat) : list cell := map (fun c => nth t (snd c) None) f.
Definition complete_rows (f : frame) : list (list cell) :=
  filter (forallb notna) (map (cells f) (seq 0 (List.length (snd (hd (""%string, []) f))))).
(* a row as numbers *)
Definition row_of (r : list cell) : nat -> R := fun j => match nth j r None with Some q => Q2R q | None => 0 end.
