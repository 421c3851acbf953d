(* Model of src/pytesmo/validation_framework/adapters.py.
   A frame has an index of any type and rows of cells; column names are distinct.  Times are
   instants, so dropping the time zone (adapters.py:96-104, conversion to UTC) is the identity.
   Extracting the frame from a reader's object (adapters.py:87-94) is not modelled. *)
From Verif Require Export GroupingModel.
Open Scope Z_scope.

Record tab (I : Type) := mkTab { tcols : list string; trows : list (I * list cell) }.
Arguments mkTab {I}. Arguments tcols {I}. Arguments trows {I}.

Fixpoint position (n : string) (l : list string) : option nat :=
  match l with
  | [] => None
  | x :: r => if String.eqb x n then Some O else option_map S (position n r)
  end.
(* data[column] *)
Definition column {I} (t : tab I) (n : string) : res (list cell) :=
  match position n (tcols t) with
  | None => Err EKey
  | Some k => Ok (map (fun r => nth k (snd r) None) (trows t))
  end.
(* data[mask] for a boolean array *)
Definition keep_rows {I} (mask : list bool) (t : tab I) : tab I := mkTab (tcols t) (mask_select mask (trows t)).

(* adapters.py:40-47 _op_lookup, on floats: a comparison with NaN is false, "!=" is true *)
Definition cmp (f : Q -> Q -> bool) (nan : bool) (a b : cell) : bool :=
  match a, b with Some x, Some y => f x y | _, _ => nan end.
Definition op_lookup (s : string) : option (cell -> cell -> bool) :=
  match s with
  | "<"%string => Some (cmp (fun x y => negb (Qle_bool y x)) false)
  | "<="%string => Some (cmp Qle_bool false)
  | "=="%string => Some (cmp Qeq_bool false)
  | "!="%string => Some (cmp (fun x y => negb (Qeq_bool x y)) true)
  | ">="%string => Some (cmp (fun x y => Qle_bool y x) false)
  | ">"%string => Some (cmp (fun x y => negb (Qle_bool x y)) false)
  | _ => None
  end.
(* the [op] argument: a name or a function (applied to each value) *)
Inductive op := OpName (s : string) | OpFun (f : cell -> cell -> bool).
Definition resolve (o : op) : res (cell -> cell -> bool) :=
  match o with
  | OpFun f => Ok f
  | OpName s => match op_lookup s with Some f => Ok f | None => Err EValue end
  end.

(* adapters.py:106-109 BasicAdapter._adapt: None becomes an empty frame *)
Definition basic {I} (data : option (tab I)) : tab I := match data with Some t => t | None => mkTab [] [] end.

(* adapters.py:172-193 MaskingAdapter: __init__ and _adapt; the result is a boolean frame *)
Definition masking_adapter {I} (o : op) (threshold : cell) (column_name : option string) (data : option (tab I))
  : res (list string * list (I * list bool)) :=
  bindR (resolve o) (fun f =>
  let t := basic data in
  match column_name with
  | None => Ok (tcols t, map (fun r => (fst r, map (fun c => f c threshold) (snd r))) (trows t))
  | Some n => mapR (fun v => ([n], combine (map fst (trows t)) (map (fun c => [f c threshold]) v))) (column t n)
  end).

(* adapters.py:231-251 SelfMaskingAdapter: __init__ and _adapt *)
Definition self_masking {I} (o : op) (threshold : cell) (column_name : string) (data : option (tab I)) : res (tab I) :=
  bindR (resolve o) (fun f =>
  bindR (column (basic data) column_name) (fun v =>
  Ok (keep_rows (map (fun c => f c threshold) v) (basic data)))).

(* adapters.py:303-327 AdvancedMaskingAdapter._adapt; data[None] for an empty list is a KeyError *)
Definition filter_mask {I} (ignore_nans : bool) (t : tab I) (flt : string * op * cell) : res (list bool) :=
  let '(n, o, threshold) := flt in
  bindR (resolve o) (fun f =>
  bindR (column t n) (fun v =>
  Ok (map (fun c => if ignore_nans then f c threshold || is_nan c else f c threshold) v))).
Definition advanced_masking {I} (filters : list (string * op * cell)) (ignore_nans : bool) (data : option (tab I)) : res (tab I) :=
  let t := basic data in
  bindR (fold_left (fun acc flt => bindR acc (fun mask =>
           mapR (fun new => Some (match mask with None => new | Some m => map2 andb m new end))
                (filter_mask ignore_nans t flt))) filters (Ok None)) (fun mask =>
  match mask with
  | None => Err EKey
  | Some m => let k := keep_rows m t in
              Ok (mkTab (tcols k) (filter (fun r => existsb notna (snd r)) (trows k)))
  end).

(* ---- column assignment: data[name] = values *)
Fixpoint set_cell (k : nat) (v : cell) (r : list cell) : list cell :=
  match r, k with
  | [], _ => [v]
  | _ :: r', O => v :: r'
  | x :: r', S k' => x :: set_cell k' v r'
  end.
Definition assign {I} (t : tab I) (n : string) (values : list cell) : tab I :=
  match position n (tcols t) with
  | Some k => mkTab (tcols t) (map2 (fun r v => (fst r, set_cell k v (snd r))) (trows t) values)
  | None => mkTab (tcols t ++ [n]) (map2 (fun r v => (fst r, snd r ++ [v])) (trows t) values)
  end.

Section Anomaly.
Context {I : Type}.
(* calc_anomaly(series, window_size=...) *)
Variable anomaly : list (I * cell) -> list cell.
Definition series (t : tab I) (v : list cell) : list (I * cell) := combine (map fst (trows t)) v.
(* adapters.py:369-378 AnomalyAdapter._adapt *)
Definition anomaly_adapter (columns : option (list string)) (data : option (tab I)) : res (tab I) :=
  let t := basic data in
  fold_left (fun acc n => bindR acc (fun t => bindR (column t n) (fun v => Ok (assign t n (anomaly (series t v))))))
    (match columns with None => tcols t | Some l => l end) (Ok t).
(* calc_climatology(series, kwargs) followed by calc_anomaly(series, climatology): anomaly and
   climatology per time step *)
Variable anomaly_clim : list (I * cell) -> list cell * list cell.
(* adapters.py:429-446 AnomalyClimAdapter._adapt *)
Definition anomaly_clim_adapter (columns : option (list string)) (return_clim : bool) (data : option (tab I)) : res (tab I) :=
  let t := basic data in
  fold_left (fun acc n => bindR acc (fun t => bindR (column t n) (fun v =>
      let '(a, c) := anomaly_clim (series t v) in
      Ok (if return_clim then assign (assign t n a) (n ++ "_climatology")%string c else assign t n a))))
    (match columns with None => tcols t | Some l => l end) (Ok t).
End Anomaly.

(* adapters.py:509-522 ColumnCombineAdapter._adapt; func is applied to each row of the columns.
   A frame without rows or columns gets an empty column *)
Definition combine_adapter {I} (func : list cell -> cell) (columns : option (list string)) (new_name : string) (data : option (tab I)) : res (tab I) :=
  let t := basic data in
  match tcols t, trows t with
  | [], _ | _, [] => Ok (assign t new_name (map (fun _ => None) (trows t)))
  | _, _ =>
      bindR (seqR (map (column t) (match columns with None => tcols t | Some l => l end))) (fun vs =>
      Ok (assign t new_name (map (fun k => func (map (fun v => nth k v None) vs)) (seq 0 (List.length (trows t))))))
  end.

(* ---------------------------------------------------------- timestamps *)
(* Times are numbers of nanoseconds; an index or column of dates holds such numbers, NaT is None. *)

(* numpy units that pandas can convert; months and years cannot *)
Definition unit_ns (u : string) : option Z :=
  match u with
  | "W"%string => Some 604800000000000
  | "D"%string => Some 86400000000000
  | "h"%string => Some 3600000000000
  | "m"%string => Some 60000000000
  | "s"%string => Some 1000000000
  | "ms"%string => Some 1000000
  | "us"%string => Some 1000
  | "ns"%string => Some 1
  | _ => None
  end.
Definition unit_of (u : string) : res Z := match unit_ns u with Some k => Ok k | None => Err EValue end.
(* int(x): towards zero *)
Definition trunc (x : Q) : Z := Z.quot (Qnum x) (Zpos (Qden x)).
Definition second_ns : Z := 1000000000.

Record ts_opts := mkTs {
  to_fields : option (list string); to_units : list string; to_base : option string;
  to_reference : option Z; to_base_units : string; to_replace : bool; to_output : string; to_drop : bool }.

(* adapters.py:629-637 convert_generic *)
Definition convert_generic (reference : Z) (unit : Z) (v : list Q) : list Q :=
  map (fun x => inject_Z (reference + trunc x * unit)) v.

(* adapters.py:639-649 add_offset_cumulative: the sum is kept in whole seconds, so each addend is
   cast (rounded down) to seconds *)
Definition add_offset {I} (fields units : list string) (t : tab I) : res (list Z) :=
  fold_left (fun acc fu => bindR acc (fun total =>
      bindR (column t (fst fu)) (fun v =>
      bindR (unit_of (snd fu)) (fun k =>
      Ok (map2 (fun s c => (s * second_ns + match c with Some x => trunc x * k | None => 0 end) / second_ns) total v)))))
    (combine fields units) (Ok (map (fun _ => 0) (trows t))).

(* data.drop(columns=[...]) *)
Fixpoint drop_at {A} (k : nat) (l : list A) : list A :=
  match l, k with
  | [], _ => []
  | _ :: r, O => r
  | x :: r, S k' => x :: drop_at k' r
  end.
Definition drop_column {I} (t : tab I) (n : string) : tab I :=
  match position n (tcols t) with
  | None => t
  | Some k => mkTab (drop_at k (tcols t)) (map (fun r => (fst r, drop_at k (snd r))) (trows t))
  end.
Definition drop_columns {I} (t : tab I) (l : list string) : res (tab I) :=
  if forallb (fun n => existsb (String.eqb n) (tcols t)) l then Ok (fold_left drop_column l t) else Err EKey.

Definition cell_eqb (a b : cell) : bool :=
  match a, b with Some x, Some y => Qeq_bool x y | None, None => true | _, _ => false end.
(* data.loc[data.index.dropna()]: for each label all rows with this label *)
Definition loc_index (t : tab cell) : tab cell :=
  mkTab (tcols t) (flat_map (fun l => filter (fun r => cell_eqb (fst r) l) (trows t)) (filter notna (map fst (trows t)))).

(* adapters.py:651-709 _adapt *)
Definition timestamp_adapter (o : ts_opts) (data : option (tab cell)) : res (tab cell) :=
  let original := basic data in
  bindR (match to_base o with
         | Some f => column original f
         | None => Ok (map fst (trows original))
         end) (fun base_time =>
  let t := keep_rows (map notna base_time) original in
  let values := vals base_time in
  if match trows t with [] => true | _ => false end || match tcols t with [] => true | _ => false end then Ok original
  else
    bindR (match to_reference o with
           | None => Ok values
           | Some r => mapR (fun k => convert_generic r k values) (unit_of (to_base_units o))
           end) (fun base =>
    bindR (match to_fields o with
           | None => Ok base
           | Some fields => mapR (fun off => map2 (fun b s => (b + inject_Z (s * second_ns))%Q) base off)
                                 (add_offset fields (to_units o) t)
           end) (fun exact =>
    let t1 := if to_replace o
              then mkTab (tcols t) (map2 (fun r e => (Some e, snd r)) (trows t) exact)
              else assign t (to_output o) (map Some exact) in
    bindR (if to_drop o
           then bindR (match to_fields o with None => Ok t1 | Some l => drop_columns t1 l end) (fun t2 =>
                Ok (match to_base o with None => t2 | Some f => drop_column t2 f end))
           else Ok t1) (fun t3 =>
    Ok (loc_index t3))))).
