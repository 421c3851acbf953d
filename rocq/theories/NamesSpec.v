(* Specification vocabulary for result names. *)
From Verif Require Export NamesModel.

Definition str_lt (a b : string) : Prop := str_leb a b = true /\ a <> b.

(* a selection of columns of [n] different datasets, listed by dataset name *)
Definition selection (d : ds_dict) (n : nat) (c : list dscol) : Prop :=
  List.length c = n /\ StronglySorted str_lt (map fst c) /\
  forall ds col, In (ds, col) c -> exists cols, In (ds, cols) d /\ In col cols.

Definition wf_dict (d : ds_dict) : Prop :=
  NoDup (map fst d) /\ forall ds cols, In (ds, cols) d -> NoDup cols.

(* positions at which no array is missing *)
Definition complete_at (arrs : list (list cell)) (i : nat) : bool :=
  forallb (fun a => match nth i a None with Some _ => true | None => false end) arrs.
Definition keep_complete (arrs : list (list cell)) (n : nat) (a : list cell) : list cell :=
  map (fun i => nth i a None) (filter (complete_at arrs) (seq 0 n)).
