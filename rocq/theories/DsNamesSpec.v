(* Specification vocabulary for the order of the datasets. *)
From Verif Require Export NamesSpec DsNamesModel.

Definition has_columns (d : ds_dict) : Prop := forall ds cols, In (ds, cols) d -> cols <> [].

(* the reference and the first n - 1 of the other datasets in alphabetical order, all of them in
   alphabetical order *)
Definition first_datasets (d : ds_dict) (ref : string) (n : nat) (l : list string) : Prop :=
  List.length l = n /\ StronglySorted str_lt l /\ In ref l /\ (forall x, In x l -> In x (map fst d)) /\
  forall x o, In x l -> x <> ref -> In o (map fst d) -> ~ In o l -> str_lt x o.

(* how many of the names come before [x] in alphabetical order *)
Definition names_before (x : string) (l : list string) : nat :=
  List.length (filter (fun y => str_leb y x && negb (String.eqb y x)) l).
