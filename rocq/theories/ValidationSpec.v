(* Specification vocabulary for the validation driver. *)
From Verif Require Export NamesSpec ValidationModel TemporalModel TemporalSpec.

Section Spec.
Context {G V : Type}.
Notation metrics := (list (field * fval V)).
Variable code : Z -> V.

(* the dataset combinations that are reported: one column each of k different datasets, for the
   group size k of some metric calculator, including the reference if that is asked for *)
Definition reported (c : @config G V) (only_ref : bool) (n k : nat) (calculator : frame -> G -> res metrics) (key : list dscol) : Prop :=
  In ((n, k), calculator) (c_calcs c) /\ selection (c_ds c) k key /\
  (only_ref = true -> In (c_ref c) (map fst key)).

(* a sensible configuration: distinct names, group sizes at least one and all different *)
Definition wf_config (c : @config G V) : Prop :=
  wf_dict (c_ds c) /\ (forall n k f, In ((n, k), f) (c_calcs c) -> (1 <= k)%nat) /\
  NoDup (map (fun e => snd (fst e)) (c_calcs c)).

(* no reference series is masked away completely *)
Definition reference_left (c : @config G V) (g : G) : Prop :=
  forall mds gm dfs ref masked, c_mask c = Some (mds, gm) -> c_get c g = Ok dfs ->
    dict_get dfs (c_tref c) = Some ref -> mask_dataset c mds gm ref g = Ok masked -> frows masked <> [].

(* the metrics of a grid point for one combination *)
Definition gpi_metrics (c : @config G V) (ignore rename only_ref : bool) (g : G) (key : list dscol) (m : metrics) : Prop :=
  exists r, validate_gpi code c ignore rename only_ref g = VOk r /\ In (key, [m]) r.

(* the metrics of a calculator without data *)
Definition template (c : @config G V) (g : G) (key : list dscol) (m : metrics) : Prop :=
  exists n k calculator, In ((n, k), calculator) (c_calcs c) /\ List.length key = k /\
    calculator (mkFrame (map fst key) []) g = Ok m.

(* the field "status", or the field (group, "status") *)
Definition status_field (k : field) : Prop :=
  k = FName "status" \/ exists s r, k = FTuple (s :: "status"%string :: r).
(* m' is m with the value v as status, and otherwise unchanged *)
Definition with_status (v : V) (m m' : metrics) : Prop :=
  Forall2 (fun e e' => fst e' = fst e /\
    (status_field (fst e) -> exists a r, snd e = Arr (a :: r) /\ snd e' = Arr (v :: r)) /\
    (~ status_field (fst e) -> snd e' = snd e)) m m'.

(* the columns of all datasets, given to the temporal matching *)
Definition data_columns (c : @config G V) (dfs data : df_dict) : Prop :=
  Forall2 (fun e d => fst d = fst e /\ exists cs, columns_of (c_ds c) (fst e) = Some cs /\ select_columns cs (snd e) = Ok (snd d)) dfs data.

(* the datasets of a grid point after masking *)
Definition masked_data (c : @config G V) (g : G) (dfs dfs' : df_dict) : Prop :=
  match c_mask c with
  | None => dfs' = dfs
  | Some (mds, gm) => exists ref masked, dict_get dfs (c_tref c) = Some ref /\ mask_dataset c mds gm ref g = Ok masked /\
                      frows masked <> [] /\ dfs' = dict_set String.eqb dfs (c_tref c) masked
  end.

(* the data that reach the temporal matching *)
Definition matching_input (c : @config G V) (g : G) (data : df_dict) : Prop :=
  exists dfs dfs', c_get c g = Ok dfs /\ dfs <> [] /\ masked_data c g dfs dfs' /\ data_columns c dfs' data.

(* the data d of a combination scaled to the scaling reference, which is dropped afterwards unless
   it belongs to the combination *)
Definition scaled_data (c : @config G V) (g : G) (key : list dscol) (d s : frame) : Prop :=
  match c_scale c with
  | None => s = drop_multiindex d
  | Some scale => exists i sc, col_pos (c_sref c) (fcols (drop_multiindex d)) = Some i /\
      scale (drop_multiindex d) i g = Ok sc /\
      s = if existsb (String.eqb (c_sref c)) (map fst key) then sc else drop_column (c_sref c) sc
  end.

(* what went wrong at a grid point, by stage *)
Definition stage_failed (c : @config G V) (g : G) (s : Z) : Prop :=
  (s = DATA_MANAGER_FAILED /\ exists e, c_get c g = Err e) \/
  (s = NO_GPI_DATA /\ c_get c g = Ok []) \/
  (s = TEMPORAL_MATCHING_FAILED /\ exists data n k f e, matching_input c g data /\
     In ((n, k), f) (c_calcs c) /\ c_match c data (c_tref c) n = Err e) \/
  (s = NO_TEMP_MATCHED_DATA /\ exists data n k f, matching_input c g data /\
     In ((n, k), f) (c_calcs c) /\ c_match c data (c_tref c) n = Ok []) \/
  (s = SCALING_FAILED /\ exists scale data i e, c_scale c = Some scale /\ scale data i g = Err e).

(* the data of one combination: the requested columns of complete rows of a matched set.
   [rt] lists (dataset, column) *)
Definition complete_rows (f : frame) (rt : list dscol) (d : frame) : Prop :=
  fcols d = map enc rt /\
  exists ps, Forall2 (fun x i => col_pos (enc x) (fcols f) = Some i) rt ps /\
    frows d = filter (fun tr => forallb notna (snd tr))
                (map (fun tr => (fst tr, map (fun i => nth i (snd tr) None) ps)) (frows f)).

(* a calculator that always fills the fields F (which include the status), and that accepts
   empty data *)
Definition fills (F : list field) (m : metrics) : Prop :=
  map fst m = F /\ (forall k x, In (k, x) m -> exists a r, x = Arr (a :: r)).
Definition regular (F : list field) (calculator : frame -> G -> res metrics) : Prop :=
  NoDup F /\ In (FName "status") F /\ (forall l, In (FTuple l) F -> (2 <= List.length l)%nat) /\
  (forall d g, frows d = [] -> exists m, calculator d g = Ok m) /\
  (forall d g m, calculator d g = Ok m -> fills F m).
End Spec.
