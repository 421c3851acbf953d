(* Specification of the results file: histories of calls and the table they should produce. *)
From Verif Require Export ResultsModel TemporalModel.

(* calls on one file *)
Inductive call :=
| AddMetrics (lons lats : list Q) (results : list (field * list cell))
| AddTs (idx : nat) (times : list Q) (results : list (string * list cell)).

Definition exec (s : ncfile) (c : call) : res ncfile :=
  match c with
  | AddMetrics lons lats results => mapR fst (add_metrics_results s lons lats results)
  | AddTs idx times results => add_ts_results s idx times results
  end.
Definition exec_all (s : ncfile) (h : list call) : res ncfile := fold_left (fun acc c => bindR acc (fun s => exec s c)) h (Ok s).

(* what a history stores: for each location its coordinates and values by variable name, and its
   time series; and the names of the variables *)
Record table := mkTable {
  t_locs : list ((Q * Q) * (string -> cell));
  t_series : list (list Q * (string -> option (list cell)));
  t_lnames : list string;
  t_tnames : list string
}.
Definition empty_table : table := mkTable [] [] [] [].

Definition named (results : list (field * list cell)) : list (string * list cell) := map (fun r => (var_name (fst r), snd r)) results.
Definition new_names (known : list string) (results : list (string * list cell)) : list string :=
  known ++ filter (fun n => negb (existsb (String.eqb n) known)) (map fst results).
(* the k-th location of a call *)
Definition point (lons lats : list Q) (results : list (string * list cell)) (k : nat) : (Q * Q) * (string -> cell) :=
  ((nth k lons 0%Q, nth k lats 0%Q), fun n => match dict_get results n with Some l => nth k l None | None => None end).
Definition apply_call (t : table) (c : call) : table :=
  match c with
  | AddMetrics lons lats results =>
      mkTable (t_locs t ++ map (point lons lats (named results)) (seq 0 (List.length lons)))
              (t_series t ++ repeat ([], fun _ => None) (List.length lons))
              (new_names (t_lnames t) (named results)) (t_tnames t)
  | AddTs idx times results =>
      mkTable (t_locs t)
              (firstn idx (t_series t) ++ (times, fun n => dict_get results n) :: skipn (S idx) (t_series t))
              (t_lnames t) (new_names (t_tnames t) results)
  end.

Definition reserved : list string := ["lon"; "lat"; "idx"; "_row_size"; "time"]%string.
Definition ok_names (results : list (string * list cell)) (others : list string) : Prop :=
  NoDup (map fst results) /\ forall n, In n (map fst results) -> ~ In n reserved /\ ~ In n others.
(* a call as the class expects it: arrays of one length, distinct names, locations for the time
   series present and not followed by stored time series; [late] variables, that appear only after
   data have been stored, are excluded *)
Definition ok_call (t : table) (c : call) : Prop :=
  match c with
  | AddMetrics lons lats results =>
      lons <> [] /\ List.length lats = List.length lons /\
      (forall n l, In (n, l) (named results) -> List.length l = List.length lons) /\
      ok_names (named results) (t_tnames t) /\
      (forall n, In n (map fst (named results)) -> In n (t_lnames t) \/ t_locs t = [])
  | AddTs idx times results =>
      (idx < List.length (t_series t))%nat /\
      (forall e, In e (skipn idx (t_series t)) -> fst e = []) /\
      (forall n l, In (n, l) results -> List.length l = List.length times) /\
      ok_names results (t_lnames t) /\
      (forall n, In n (map fst results) -> In n (t_tnames t) \/ forall e, In e (t_series t) -> fst e = [])
  end.
Fixpoint ok_history (t : table) (h : list call) : Prop :=
  match h with
  | [] => True
  | c :: r => ok_call t c /\ ok_history (apply_call t c) r
  end.
Definition stored (h : list call) : table := fold_left apply_call h empty_table.

(* the values of a time series variable at a location: missing for every time stamp if the call
   that stored the time stamps did not give any *)
Definition series_values (e : list Q * (string -> option (list cell))) (n : string) : list cell :=
  match snd e n with Some l => l | None => repeat None (List.length (fst e)) end.
