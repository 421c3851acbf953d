(* Model of src/pytesmo/validation_framework/data_scalers.py: CDFStoreParamsScaler.
   A frame is a list of named columns with distinct names.  The parameter files (pynetcf
   GriddedPointData) are a map from grid point to the stored dictionary: reading a point that was
   never written gives None, reading a written point gives what was written (trusted base).
   numpy dtypes are not modelled. *)
From Verif Require Export GroupingModel CdfModel.
Open Scope Z_scope.

Notation columns := (list (string * list cell)).
Notation params := (list (string * cdf_table)).
Notation store := (list (Z * params)).

Definition str_get {V} (d : list (string * V)) (k : string) : option V :=
  option_map snd (find (fun e => String.eqb (fst e) k) d).
Definition gp_get {V} (d : list (Z * V)) (k : Z) : option V :=
  option_map snd (find (fun e => Z.eqb (fst e) k) d).

(* data_scalers.py:101-117 __init__: the options of every CDFMatching object *)
Record scaler_opts := mkScaler {
  so_percentiles : list Q; so_minobs : option Z; so_linear_edges : bool; so_combine : bool }.
Definition matcher_opts (o : scaler_opts) : cdf_opts :=
  mkCdf (List.length (so_percentiles o) - 1) (Some (so_percentiles o)) (so_minobs o) (so_linear_edges o) (so_combine o).

(* data_scalers.py:148,182,189: f"{column}_{refname}" *)
Definition param_key (column refname : string) : string := (column ++ "_" ++ refname)%string.

(* data_scalers.py:159-191 calc_parameters *)
Definition calc_parameters (o : scaler_opts) (data : columns) (reference_index : Z) : res params :=
  bindR (py_index data reference_index) (fun ref =>
  let others := filter (fun c => negb (String.eqb (fst c) (fst ref))) data in
  bindR (seqR (map (fun c => mapR (fun t => (param_key (fst c) (fst ref), t))
                                  (cdf_fit (matcher_opts o) (snd c) (snd ref))) others)) (fun l =>
  Ok (fold_left (fun d e => dict_set String.eqb d (fst e) (snd e)) l []))).

(* data_scalers.py:232-257 store_parameters: np.core.records.fromarrays of an empty list fails *)
Definition store_parameters (st : store) (gpi : Z) (p : params) : res store :=
  match p with
  | [] => Err EIndex
  | _ => Ok (dict_set Z.eqb st gpi p)
  end.

(* data_scalers.py:193-217 get_parameters: the store afterwards and the parameters *)
Definition get_parameters (o : scaler_opts) (st : store) (data : columns) (reference_index gpi : Z) : res (store * params) :=
  match gp_get st gpi with
  | Some p => Ok (st, p)
  | None => bindR (calc_parameters o data reference_index) (fun p =>
            mapR (fun st' => (st', p)) (store_parameters st gpi p))
  end.

(* data_scalers.py:143-157: the loop of scale *)
Definition scale_columns (p : params) (data : columns) (reference_index : Z) : res columns :=
  bindR (py_index data reference_index) (fun ref =>
  seqR (map (fun c => if String.eqb (fst c) (fst ref) then Ok c
                      else match str_get p (param_key (fst c) (fst ref)) with
                           | None => Err EKey
                           | Some t => Ok (fst c, cdf_predict t (snd c))
                           end) data)).

(* data_scalers.py:119-157 scale: the store afterwards and the scaled frame or the exception *)
Definition stored_scale (o : scaler_opts) (st : store) (data : columns) (reference_index gpi : Z) : store * res columns :=
  match get_parameters o st data reference_index gpi with
  | Err e => (st, Err e)
  | Ok (st', p) => (st', scale_columns p data reference_index)
  end.

(* a run: calls of scale one after the other on the same scaler (or on scalers with the same path) *)
Record scale_call := mkScaleCall { sc_data : columns; sc_ref : Z; sc_gpi : Z }.
Fixpoint scale_run (o : scaler_opts) (st : store) (calls : list scale_call) : store * list (res columns) :=
  match calls with
  | [] => (st, [])
  | c :: r => let '(st1, x) := stored_scale o st (sc_data c) (sc_ref c) (sc_gpi c) in
              let '(st2, xs) := scale_run o st1 r in (st2, x :: xs)
  end.

(* data_scalers.py:39-78 DefaultScaler.scale is scaling.scale (ScalingModel) *)
