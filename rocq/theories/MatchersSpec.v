(* Specification vocabulary for the temporal matchers. *)
From Verif Require Export NamesSpec MatchersModel TemporalModel TemporalSpec.

(* the row of a frame at a time, the first one in case of duplicates *)
Definition first_row (f : frame) (t : Z) (r : row) : Prop :=
  find (fun o => fst o =? t) (frows f) = Some (t, r).

(* the reference row at time t next to the nearest rows (within w) of the other frames *)
Definition matched_row (reference : frame) (others : list frame) (w t : Z) (r : row) : Prop :=
  exists rr rs, first_row reference t rr /\
    Forall2 (fun o row => nearest_row (frows o) (List.length (fcols o)) t w row) others rs /\
    r = rr ++ List.concat rs.

(* a frame that can be collocated: rectangular, with times in ascending or descending order *)
Definition usable (f : frame) : Prop :=
  wf_frame f /\ monotone_times (findex (mkFrame (fcols f) (dedup_first fst (frows f)))).

(* the datasets of the dictionary named in s, in the order of the dictionary *)
Definition pick (dfs : df_dict) (s : list string) : df_dict :=
  filter (fun e => existsb (String.eqb (fst e)) s) dfs.

(* an (n)-subset of the names other than ref, listed in alphabetical order *)
Definition name_subset (dfs : df_dict) (ref : string) (n : nat) (s : list string) : Prop :=
  List.length s = n /\ StronglySorted str_lt s /\ forall x, In x s -> In x (map fst dfs) /\ x <> ref.

(* columns named (dataset, column) *)
Definition columns_named (e : string * frame) : list string := map (tup (fst e)) (fcols (snd e)).
