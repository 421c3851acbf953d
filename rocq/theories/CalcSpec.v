(* Independent statements of what a metric calculator promises. *)
From Coq Require Import Reals Qreals List.
From Verif Require Import Base RStats MetricsModel CalcModel.
Open Scope string_scope.

(* the result holds exactly one number under this key *)
Definition holds (d : dataset) (k : key) (v : rcell) : Prop := ds_get d k = Some (Arr [v]).

(* the location is the one that was passed in *)
Definition identified (d : dataset) (i : gpi_info) : Prop :=
  holds d ["gpi"] (RInt (i_gpi i)) /\ holds d ["lon"] (RNum (Some (i_lon i))) /\ holds d ["lat"] (RNum (Some (i_lat i))).
(* and so are the metadata *)
Definition meta_copied (d : dataset) (meta : metadata) (i : gpi_info) : Prop :=
  forall m given k v, meta = Some m -> i_meta i = Some given -> In k (map fst m) -> meta_get given k = Some v -> holds d [k] v.

Definition location_keys : list string := ["gpi"; "lon"; "lat"].
(* too few observations: status 1, every metric at its default in the template *)
Definition insufficient (d template : dataset) (meta : metadata) : Prop :=
  holds d ["status"] (RInt 1) /\
  forall k, (forall s, k = [s] -> ~ In s (location_keys ++ ["status"; "n_obs"]) /\
                       (forall m, meta = Some m -> ~ In s (map fst m))) ->
    ds_get d k = ds_get template k.
(* success: status 0 and the number of observations used *)
Definition succeeded (d : dataset) (n : nat) : Prop :=
  holds d ["status"] (RInt 0) /\ holds d ["n_obs"] (RInt (Z.of_nat n)).

(* metadata fields are distinct, do not clash with the names the calculator uses, and are provided *)
Definition good_meta (meta : metadata) (i : gpi_info) (used : list string) : Prop :=
  forall m, meta = Some m -> NoDup (map fst m) /\
    (forall k, In k (map fst m) -> ~ In k (location_keys ++ ["status"] ++ used)%list) /\
    exists given, i_meta i = Some given /\ forall k, In k (map fst m) -> exists v, meta_get given k = Some v.

(* the four freeze/thaw classes of an observation with flag s and temperature t *)
Definition frozen_flag (flag : Q) (s : cell) : Prop := exists q, s = Some q /\ (q == flag)%Q.
Definition below_zero (t : cell) : Prop := exists q, t = Some q /\ (q < 0)%Q.
Definition not_below_zero (t : cell) : Prop := exists q, t = Some q /\ (0 <= q)%Q.

(* exactly n natural numbers satisfy P *)
Definition counted (P : nat -> Prop) (n : nat) : Prop :=
  exists l : list nat, NoDup l /\ List.length l = n /\ forall i, In i l <-> P i.

(* every row has one value per column *)
Definition wf_frame (f : frame) : Prop := forall r, In r (f_rows f) -> List.length (snd r) = List.length (f_cols f).

(* the values of columns i and j in the rows in which no column misses its value *)
Definition row_pair (i j : nat) (vs : list cell) : pairs :=
  if forallb notna vs then
    match nth_error vs i, nth_error vs j with Some (Some a), Some (Some b) => [(Q2R a, Q2R b)] | _, _ => [] end
  else [].
Definition observations (f : frame) (i j : nat) : pairs := flat_map (fun r => row_pair i j (snd r)) (f_rows f).
