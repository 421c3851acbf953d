(* Specification of parallel validation and of histories with crashes. *)
From Verif Require Export StartModel ResultsSpec TemporalModel.

(* storing the results one after the other, up to the first exception *)
Fixpoint sequential {D R} (store : D -> R -> D * option err) (d : D) (rs : list R) : D * option err :=
  match rs with
  | [] => (d, None)
  | r :: rest => match store d r with (d', None) => sequential store d' rest | (d', Some e) => (d', Some e) end
  end.
(* how often the i-th job has failed in a schedule *)
Definition failures_of (i : nat) (l : list event) : nat :=
  List.length (filter (fun e => match e with Fail j => Nat.eqb i j | _ => false end) l).

(* one result of a job: the file it goes to and the call made on that file *)
Definition calls_to (n : string) (l : list (string * call)) : list call := map snd (filter (fun c => String.eqb n (fst c)) l).

(* a history of calls on one file, each complete or killed after some assignments; after a crash the
   file is opened again and the history goes on *)
Record attempt := mkAttempt { a_killed : option nat; a_lons : list Q; a_lats : list Q; a_results : list (field * list cell) }.
Definition do_attempt (s : ncfile) (a : attempt) : res ncfile :=
  match a_killed a with
  | None => mapR fst (add_metrics_results s (a_lons a) (a_lats a) (a_results a))
  | Some k => add_metrics_killed k s (a_lons a) (a_lats a) (a_results a)
  end.
Definition do_attempts (s : ncfile) (l : list attempt) : res ncfile :=
  fold_left (fun acc a => bindR acc (fun s => do_attempt s a)) l (Ok s).
(* the number of places an attempt takes in the file *)
Definition places (a : attempt) : nat := match a_killed a with Some O => 0 | _ => List.length (a_lons a) end.
Definition taken (l : list attempt) : nat := list_sum (map places l).
(* the variables of the first call *)
Definition names_of (results : list (field * list cell)) : list string := map (fun r => var_name (fst r)) results.
Definition fits (names : list string) (a : attempt) : Prop :=
  a_lons a <> [] /\ List.length (a_lats a) = List.length (a_lons a) /\
  (forall n l, In (n, l) (a_results a) -> List.length l = List.length (a_lons a)) /\
  NoDup (names_of (a_results a)) /\ (forall n, In n (names_of (a_results a)) -> In n names /\ ~ In n reserved).
