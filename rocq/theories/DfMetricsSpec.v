(* Complete cases of column combinations. *)
From Verif Require Export Base.
Local Open Scope nat_scope.

(* the columns of a frame have nrows values each and different names *)
Definition well_formed (f : list (string * list cell)) (nrows : nat) : Prop :=
  NoDup (map fst f) /\ (forall c, In c f -> List.length (snd c) = nrows).

(* rows at which all columns of a combination have a value *)
Definition complete_row (f : list (string * list cell)) (comb : list nat) (r : nat) : bool :=
  forallb (fun i => notna (nth r (nth i (map snd f) []) None)) comb.
Definition complete_rows (f : list (string * list cell)) (nrows : nat) (comb : list nat) : list nat :=
  filter (complete_row f comb) (seq 0 nrows).
(* the arguments a metric should get: for every column its values in those rows *)
Definition complete_cases (f : list (string * list cell)) (nrows : nat) (comb : list nat) : list (list cell) :=
  map (fun i => map (fun r => nth r (nth i (map snd f) []) None) (complete_rows f nrows comb)) comb.

(* order preserving selections *)
Inductive selection {A} : list A -> list A -> Prop :=
| sel_nil l : selection [] l
| sel_take x c l : selection c l -> selection (x :: c) (x :: l)
| sel_skip x c l : selection c l -> selection c (x :: l).

(* the q-th value to be reported for a combination: missing without complete rows *)
Definition value_of {V} (f : list (string * list cell)) (nrows : nat) (method : list (list cell) -> res (list V)) (q : nat) (comb : list nat) : option V :=
  match complete_rows f nrows comb with
  | [] => None
  | _ => match method (complete_cases f nrows comb) with Ok c => nth_error c q | Err _ => None end
  end.

(* the method works on all complete cases and always returns nres values *)
Definition total_method {V} (f : list (string * list cell)) (nrows : nat) (method : list (list cell) -> res (list V)) (nres : nat) (combs : list (list nat)) : Prop :=
  forall comb, In comb combs -> complete_rows f nrows comb <> [] -> exists c, method (complete_cases f nrows comb) = Ok c /\ List.length c = nres.
