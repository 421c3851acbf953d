(* Model of src/pytesmo/validation_framework/validation.py and error_handling.py.
   Reading, temporal matching, scaling and the metric calculators are parameters; frames are those
   of TemporalModel with columns (dataset, column) encoded by [tup]. *)
From Coq Require Import DecimalString.
From Verif Require Export MatchersModel TemporalModel.

(* error_handling.py:11-38 *)
Definition UNCAUGHT := -1.
Definition OK := 0.
Definition INSUFFICIENT_DATA := 1.
Definition METRICS_CALCULATION_FAILED := 2.
Definition TEMPORAL_MATCHING_FAILED := 3.
Definition NO_TEMP_MATCHED_DATA := 4.
Definition SCALING_FAILED := 5.
Definition VALIDATION_FAILED := 6.
Definition NO_GPI_DATA := 7.
Definition DATA_MANAGER_FAILED := 8.

(* an exception: a ValidationError with its return_code (error_handling.py:41-76), or any other *)
Inductive exn := VError (return_code : Z) | PError (e : err).
Inductive vres (A : Type) := VOk (a : A) | VErr (x : exn).
Arguments VOk {A} a.
Arguments VErr {A} x.
Definition bindV {A B} (x : vres A) (f : A -> vres B) : vres B :=
  match x with VOk a => f a | VErr e => VErr e end.
Definition liftR {A} (x : res A) : vres A := match x with Ok a => VOk a | Err e => VErr (PError e) end.
(* try: ... except Exception: raise <ValidationError with code c> *)
Definition raise_as {A} (c : Z) (x : res A) : vres A := match x with Ok a => VOk a | Err _ => VErr (VError c) end.
Fixpoint foldV {A S} (f : S -> A -> vres S) (s : S) (l : list A) : vres S :=
  match l with [] => VOk s | a :: r => bindV (f s a) (fun s' => foldV f s' r) end.
Fixpoint mapV {A B} (f : A -> vres B) (l : list A) : vres (list B) :=
  match l with [] => VOk [] | a :: r => bindV (f a) (fun b => bindV (mapV f r) (fun bs => VOk (b :: bs))) end.

(* a metric name is a string or a tuple of strings *)
Inductive field := FName (s : string) | FTuple (l : list string).
Definition field_eqb (a b : field) : bool :=
  match a, b with
  | FName s, FName t => String.eqb s t
  | FTuple l, FTuple m => key_eqb l m
  | _, _ => false
  end.
(* a metric value is a numpy array, or (by accident) a bare number *)
Inductive fval (V : Type) := Arr (l : list V) | Scal (v : V).
Arguments Arr {V} l.
Arguments Scal {V} v.

Definition decimal (n : nat) : string := NilZero.string_of_uint (Nat.to_uint n).

(* data[[x for x in cols]]: KeyError if a column does not exist *)
Fixpoint positions (cols have : list string) : res (list nat) :=
  match cols with
  | [] => Ok []
  | c :: r => match col_pos c have with
              | None => Err EKey
              | Some i => mapR (cons i) (positions r have)
              end
  end.
Definition select_columns (cols : list string) (f : frame) : res frame :=
  mapR (fun ps => mkFrame cols (map (fun tr => (fst tr, map (fun i => nth i (snd tr) None) ps)) (frows f)))
       (positions cols (fcols f)).
(* data.drop(columns=[c]) *)
Definition drop_column (c : string) (f : frame) : frame :=
  let m := map (fun x => negb (String.eqb x c)) (fcols f) in
  mkFrame (mask_select m (fcols f)) (map (fun tr => (fst tr, mask_select m (snd tr))) (frows f)).
Definition set_columns (cols : list string) (f : frame) : frame := mkFrame cols (frows f).

(* the first component of an encoded pair *)
Fixpoint untup (s : string) : string :=
  match s with
  | String "1" (String c r) => String c (untup r)
  | _ => EmptyString
  end.
Definition enc (p : dscol) : string := tup (fst p) (snd p).

(* validation.py:666-733 get_data_for_result_tuple.  [None] is the empty list. *)
Definition get_data_for_result_tuple (temporal_ref : string) (matched : list (list string * frame))
    (result_tuple : list dscol) : res (option frame) :=
  let dskey := map fst result_tuple in
  match matched with
  | [] => Err EIndex
  | (first_key, _) :: _ =>
      bindR
        (if Nat.eqb (List.length first_key) (List.length dskey) then
           let dskey' := match find (fun e => key_eqb (s_sort str_leb dskey) (s_sort str_leb (fst e))) matched with
                         | Some (key, _) => key
                         | None => dskey
                         end in
           Ok (option_map snd (find (fun e => key_eqb (fst e) dskey') matched))
         else
           (* the inner "continue" has no effect: the last key with this first name wins *)
           match rev (filter (fun e => match fst e with x :: _ => String.eqb temporal_ref x | [] => false end) matched) with
           | [] => Err EKey
           | (_, f) :: _ => Ok (Some f)
           end)
        (fun o => match o with
                  | None => Ok None
                  | Some f => mapR (fun d => Some (dropna_any d)) (select_columns (map enc result_tuple) f)
                  end)
  end.

Definition frame_len (o : option frame) : nat := match o with None => 0 | Some f => List.length (frows f) end.

(* a dictionary of lists: d[k] = d.get(k, []) + [v] *)
Fixpoint dict_append {K V} (eqb : K -> K -> bool) (d : list (K * list V)) (k : K) (v : list V) : list (K * list V) :=
  match d with
  | [] => [(k, v)]
  | (k', l) :: r => if eqb k' k then (k', l ++ v) :: r else (k', l) :: dict_append eqb r k v
  end.

Section Validation.
(* grid point information and metric values *)
Context {G V : Type}.
(* a status code as a metric value *)
Variable code : Z -> V.
Notation metrics := (list (field * fval V)).

Record config := mkCfg {
  c_ds : ds_dict;                         (* datasets and their columns *)
  c_ref : string;                         (* data_manager.reference_name *)
  c_tref : string;                        (* temporal_ref *)
  c_sref : string;                        (* scaling_ref *)
  c_get : G -> res df_dict;               (* data_manager.get_data *)
  (* temp_matching(df_dict, ref, n=n): both matchers of temporal_matchers.py ignore k *)
  c_match : df_dict -> string -> nat -> res (list (list string * frame));
  c_scale : option (frame -> nat -> G -> res frame);
  c_calcs : list ((nat * nat) * (frame -> G -> res metrics));
  (* masking_dm: ds_dict including "_reference", and get_other_data *)
  c_mask : option (ds_dict * (G -> res df_dict))
}.

(* validation.py:123-186 __init__: the check of the metric calculators *)
Definition init_check (c : config) : res unit :=
  if existsb (fun e => Nat.ltb (fst (fst e)) (List.length (c_ds c))) (c_calcs c) then Err EValue else Ok tt.

Definition columns (c : config) (ds : string) : res (list string) :=
  match columns_of (c_ds c) ds with Some cs => Ok cs | None => Err EKey end.

(* validation.py:619-664 k_datasets_from: the datasets extracted for one result name *)
Definition extract (c : config) (with_sref : bool) (matched : list (list string * frame)) (result : list dscol)
  : res (option frame) :=
  bindR (match c_scale c with
         | Some _ => if with_sref then
             bindR (columns c (c_sref c)) (fun cs =>
             match cs with
             | [] => Err EIndex
             | col :: _ => let s := (c_sref c, col) in
                 Ok (if existsb (pair_eqb s) result then result else result ++ [s])
             end) else Ok result
         | None => Ok result
         end)
        (get_data_for_result_tuple (c_tref c) matched).

(* validation.py:565-591 temporal_match_masking_data *)
Definition match_masking (c : config) (get_masks : G -> res df_dict) (ref_df : frame) (g : G)
  : res (list (list string * frame)) :=
  bindR (get_masks g) (fun masks => c_match c (dict_set String.eqb masks "_reference"%string ref_df) "_reference"%string 2).

(* validation.py:549-560: one column of choose_all.  [data[key] is False] compares a Series with
   the object False: it is False for every row, so every time in data is not chosen, and all other
   times are filled with True.  (Duplicate times in data would raise; the matchers remove them.) *)
Definition choose_column (data : frame) (ref_df : frame) : list bool :=
  map (fun tr => negb (existsb (Z.eqb (fst tr)) (findex data))) (frows ref_df).

(* validation.py:521-563 mask_dataset; choose_all is a dictionary: a masking column that is paired
   with several reference columns keeps the last pairing *)
Definition mask_dataset (c : config) (mask_ds : ds_dict) (get_masks : G -> res df_dict) (ref_df : frame) (g : G)
  : res frame :=
  bindR (match_masking c get_masks ref_df g) (fun matched =>
  bindR (get_result_names mask_ds "_reference" 2) (fun names =>
  bindR (seqR (map (fun result => mapR (fun d => (d, result)) (extract c false matched result)) names)) (fun datas =>
  let cols := fold_left (fun d (kb : dscol * list bool) => dict_set pair_eqb d (fst kb) (snd kb)) (flat_map (fun dr =>
      match fst dr with
      | None => []
      | Some data =>
          if Nat.eqb (List.length (frows data)) 0 then []
          else flat_map (fun key : dscol => if String.eqb (fst key) "_reference" then [] else [(key, choose_column data ref_df)]) (snd dr)
      end) datas) [] in
  let choosing := fold_right (map2 andb) (map (fun _ => true) (frows ref_df)) (map snd cols) in
  Ok (mkFrame (fcols ref_df) (mask_select choosing (frows ref_df)))))).

(* data.rename(columns=lambda x: x[0]) *)
Definition drop_multiindex (f : frame) : frame := set_columns (map untup (fcols f)) f.
(* f"k{i}" if i > 0 else "ref" *)
Definition short_name (i : nat) : string := if Nat.eqb i 0 then "ref" else ("k" ++ decimal i).
Definition rename_columns (result : list dscol) (f : frame) : frame :=
  let d := fold_left (fun d (ir : nat * dscol) => dict_set String.eqb d (fst (snd ir)) (short_name (fst ir)))
             (combine (seq 0 (List.length result)) result) [] in
  set_columns (map (fun x => match dict_get d x with Some y => y | None => x end) (fcols f)) f.

(* metrics["status"][0] = v *)
Definition set_first (v : V) (x : fval V) : res (fval V) :=
  match x with Arr (_ :: r) => Ok (Arr (v :: r)) | Arr [] => Err EIndex | Scal _ => Err EType end.
Fixpoint set_status_name (v : V) (m : metrics) : res metrics :=
  match m with
  | [] => Err EKey
  | (k, x) :: r => if field_eqb k (FName "status") then mapR (fun x' => (k, x') :: r) (set_first v x)
                   else mapR (cons (k, x)) (set_status_name v r)
  end.

(* pd.DataFrame([], columns=result_ds_names) *)
Definition empty_frame (result : list dscol) : frame := mkFrame (map fst result) [].

(* list.index *)
Definition index_of (x : string) (l : list string) : res nat :=
  match col_pos x l with Some i => Ok i | None => Err EValue end.

Definition skip_key (c : config) (only_ref : bool) (result : list dscol) : bool :=
  only_ref && negb (existsb (String.eqb (c_ref c)) (map fst result)).

(* validation.py:428-485: the body of the loop over result names; [None]: skipped *)
Definition validate_key (c : config) (ignore rename only_ref : bool) (g : G)
    (calc : frame -> G -> res metrics) (matched : list (list string * frame)) (result : list dscol)
  : vres (option metrics) :=
  bindV (liftR (extract c true matched result)) (fun data =>
  if skip_key c only_ref result then VOk None else
  let dummy s := bindV (liftR (calc (empty_frame result) g)) (fun m => liftR (mapR Some (set_status_name (code s) m))) in
  match data with
  | None => if ignore then dummy NO_TEMP_MATCHED_DATA else VErr (VError NO_TEMP_MATCHED_DATA)
  | Some data =>
    if Nat.eqb (List.length (frows data)) 0 then
      if ignore then dummy NO_TEMP_MATCHED_DATA else VErr (VError NO_TEMP_MATCHED_DATA)
    else
      let data := drop_multiindex data in
      bindV (match c_scale c with
             | None => VOk data
             | Some scale =>
                 bindV (liftR (index_of (c_sref c) (fcols data))) (fun i =>
                 bindV (raise_as SCALING_FAILED (scale data i g)) (fun scaled =>
                 VOk (if existsb (String.eqb (c_sref c)) (map fst result) then scaled
                      else drop_column (c_sref c) scaled)))
             end) (fun data =>
      let data := if rename then rename_columns result data else data in
      match calc data g with
      | Ok m => VOk (Some m)
      | Err _ => if ignore then dummy METRICS_CALCULATION_FAILED else VErr (VError METRICS_CALCULATION_FAILED)
      end)
  end).

Notation results := (list (list dscol * list metrics)).
Definition add_result (r : results) (k : list dscol) (m : list metrics) : results := dict_append combo_eqb r k m.

(* validation.py:321-487 perform_validation: the results dictionary *)
Definition perform_validation (c : config) (ignore rename only_ref : bool) (g : G) (dfs : df_dict) : vres results :=
  bindV (match c_mask c with
         | None => VOk (Some dfs)
         | Some (mds, gm) =>
             match dict_get dfs (c_tref c) with
             | None => VErr (PError EKey)
             | Some ref_df =>
                 bindV (liftR (mask_dataset c mds gm ref_df g)) (fun masked =>
                 VOk (if Nat.eqb (List.length (frows masked)) 0 then None
                      else Some (dict_set String.eqb dfs (c_tref c) masked)))
             end
         end) (fun o =>
  match o with
  | None => VOk []
  | Some dfs =>
    bindV (mapV (fun e => bindV (liftR (columns c (fst e))) (fun cs =>
                          bindV (liftR (select_columns cs (snd e))) (fun f => VOk (fst e, f)))) dfs) (fun data_dfs =>
    bindV (raise_as TEMPORAL_MATCHING_FAILED
             (seqR (map (fun e => c_match c data_dfs (c_tref c) (fst (fst e))) (c_calcs c)))) (fun matched_n =>
    foldV (fun res em =>
        let '(((n, k), calc), matched) := em in
        if Nat.eqb (List.length matched) 0 then VErr (VError NO_TEMP_MATCHED_DATA) else
        bindV (liftR (get_result_combinations (c_ds c) k)) (fun names =>
        foldV (fun res result =>
            bindV (validate_key c ignore rename only_ref g calc matched result) (fun o =>
            VOk (match o with None => res | Some m => add_result res result [m] end))) res names))
      [] (combine (c_calcs c) matched_n)))
  end).

(* validation.py:489-519 dummy_validation_result *)
Definition dummy_validation_result (c : config) (only_ref : bool) (g : G) : vres results :=
  foldV (fun res e =>
      let '((n, k), calc) := e in
      bindV (liftR (get_result_combinations (c_ds c) k)) (fun names =>
      foldV (fun res result =>
          if skip_key c only_ref result then VOk res else
          bindV (liftR (calc (empty_frame result) g)) (fun m => VOk (add_result res result [m]))) res names))
    [] (c_calcs c).

(* validation.py:288-293: is this a status field?  k[1] of a short tuple is an IndexError *)
Definition is_status (k : field) : res bool :=
  match k with
  | FName s => Ok (String.eqb s "status")
  | FTuple l => match nth_error l 1 with Some s => Ok (String.eqb s "status") | None => Err EIndex end
  end.
Fixpoint set_all_status (v : V) (m : metrics) : res metrics :=
  match m with
  | [] => Ok []
  | (k, x) :: r =>
      bindR (is_status k) (fun b =>
      bindR (if b then set_first v x else Ok x) (fun x' =>
      mapR (cons (k, x')) (set_all_status v r)))
  end.
(* result[key][0]: only the first entry of each key *)
Definition set_codes (v : V) (r : results) : vres results :=
  mapV (fun e => match snd e with
                 | [] => VErr (PError EIndex)
                 | m :: ms => bindV (liftR (set_all_status v m)) (fun m' => VOk (fst e, m' :: ms))
                 end) r.

Definition return_code (x : exn) : Z := match x with VError c => c | PError _ => VALIDATION_FAILED end.

(* validation.py:251-265: reading and validation of one grid point *)
Definition attempt (c : config) (ignore rename only_ref : bool) (g : G) : vres results :=
  bindV (raise_as DATA_MANAGER_FAILED (c_get c g)) (fun dfs =>
  if Nat.eqb (List.length dfs) 0 then VErr (VError NO_GPI_DATA)
  else perform_validation c ignore rename only_ref g dfs).

(* validation.py:249-293: one grid point with error handling *)
Definition validate_gpi (c : config) (ignore rename only_ref : bool) (g : G) : vres results :=
  match attempt c ignore rename only_ref g with
  | VOk r => VOk r
  | VErr x => if ignore then
                bindV (dummy_validation_result c only_ref g) (fun r => set_codes (code (return_code x)) r)
              else VErr x
  end.

(* result[field_name][0] *)
Definition field_get (m : metrics) (k : field) : res V :=
  match find (fun e => field_eqb (fst e) k) m with
  | None => Err EKey
  | Some (_, Arr (v :: _)) => Ok v
  | Some (_, Arr []) => Err EIndex
  | Some (_, Scal _) => Err EType
  end.

(* validation.py:306-317: the lists of dictionaries become dictionaries of arrays.  (The arrays
   are cast to the dtype of the first entry; not modelled.) *)
Definition compact_key (ms : list metrics) : res (list (field * list V)) :=
  match ms with
  | [] => Err EIndex
  | m :: _ => seqR (map (fun k => mapR (fun vs => (k, vs)) (seqR (map (fun r => field_get r k) ms))) (map fst m))
  end.

(* validation.py:188-319 calc for equally long lists of grid points, longitudes, ... *)
Definition calc (c : config) (ignore rename only_ref : bool) (gpis : list G)
  : vres (list (list dscol * list (field * list V))) :=
  bindV (foldV (fun res g =>
           bindV (validate_gpi c ignore rename only_ref g) (fun r =>
           VOk (fold_left (fun res e => add_result res (fst e) (snd e)) r res))) [] gpis) (fun results =>
  mapV (fun e => bindV (liftR (compact_key (snd e))) (fun d => VOk (fst e, d))) results).
End Validation.

(* ------------------------------------------------------- processing jobs *)

(* a grid of pygeogrids: active points with lon/lat, and, for a CellGrid, their cells *)
Inductive grid := CellGrid (points : list (Z * (Z * Q * Q))) | BasicGrid (points : list (Z * Q * Q)).
Definition point_arrays (l : list (Z * Q * Q)) : list Z * list Q * list Q :=
  (map (fun p => fst (fst p)) l, map (fun p => snd (fst p)) l, map snd l).
(* what [jobs] holds: job triples, or the three arrays of one job *)
Inductive job := JobTriple (t : list Z * list Q * list Q) | JobInts (l : list Z) | JobFloats (l : list Q).
(* validation.py:735-765 get_processing_jobs; get_cells() gives the sorted distinct cells,
   grid_points_for_cell the active points of a cell *)
Definition get_processing_jobs (g : option grid) : list job :=
  match g with
  | None => []
  | Some (CellGrid pts) =>
      map (fun cell => JobTriple (point_arrays (map snd (filter (fun p => fst p =? cell) pts))))
          (z_unique (map fst pts))
  | Some (BasicGrid pts) =>
      let '(gpis, lons, lats) := point_arrays pts in [JobInts gpis; JobFloats lons; JobFloats lats]
  end.
