(* Model of src/pytesmo/time_series/anomaly.py (climatology and climatology based anomalies).
   A series is a list of (date, Julian date, value). The aggregation functions median and
   standard deviation of pandas are parameters [agg], [agg_std]: list of values -> value.
   moving_avg_clim is a non-negative integer (a float raises TypeError in iloc). *)
From Verif Require Export Base Calendar FiltersModel.

Record obs := mkObs { o_date : date; o_jd : Q; o_val : cell }.

Inductive freq := FDay | FMonth | FOther.

(* _index_units, anomaly.py:96-112 *)
Definition index_unit (u : freq) (respect : bool) (d : date) : Z :=
  match u with
  | FMonth => dm d
  | _ => if respect then doy_year (dm d) (dd d) (dy d) else doy (dm d) (dd d)
  end.
Definition n_units (u : freq) : Z := match u with FMonth => 12 | _ => 366 end.

Definition zrange (a : Z) (n : nat) : list Z := map (fun j => a + Z.of_nat j) (seq 0 n).

(* Series.groupby('unit').<agg>() at one unit, followed by reindex(1..n): the aggregate of the
   non-missing values of the unit, NaN if the unit does not occur *)
Definition unit_values (u : freq) (respect : bool) (ser : list obs) (k : Z) : list Q :=
  vals (map o_val (filter (fun o => index_unit u respect (o_date o) =? k) ser)).

Definition mean_agg (l : list Q) : cell := match l with [] => None | _ => Some (qmean l) end.

(* one row of the climatology frame: climatology and (if requested) std *)
Record crow := mkCrow { c_clim : cell; c_std : option cell }.

Definition set_clim (r : crow) (c : cell) : crow := mkCrow c (c_std r).

(* np.mean over all entries of two rows (anomaly.py:273-277), NaN if any entry is NaN *)
Definition strict_mean (l : list cell) : cell :=
  if forallb notna l then nanmean l else None.
Definition row_cells (r : crow) : list cell :=
  c_clim r :: match c_std r with Some s => [s] | None => [] end.
Definition fill_row (r : crow) (c : cell) : crow :=
  mkCrow c (match c_std r with Some _ => Some c | None => None end).

Fixpoint set_nth {A} (n : nat) (x : A) (l : list A) : list A :=
  match l, n with
  | [], _ => []
  | _ :: r, O => x :: r
  | a :: r, S k => a :: set_nth k x r
  end.

(* anomaly.py:272-277; units are 1-based positions *)
Definition interp_row (rows : list crow) (target a b : Z) : list crow :=
  let ra := nth (Z.to_nat (a - 1)) rows (mkCrow None None) in
  let rb := nth (Z.to_nat (b - 1)) rows (mkCrow None None) in
  let rt := nth (Z.to_nat (target - 1)) rows (mkCrow None None) in
  set_nth (Z.to_nat (target - 1)) (fill_row rt (strict_mean (row_cells ra ++ row_cells rb))) rows.

Definition fillna_cell (fill : cell) (c : cell) : cell := match c with None => fill | _ => c end.

Record clim_opts := mkClim {
  k_ma_orig : Q; k_ma_clim : option nat; k_std : bool; k_fill : cell;
  k_wrap : bool; k_respect : bool; k_interp : bool; k_fillna : bool;
  k_min_orig : Z; k_min_clim : Z; k_freq : freq }.

(* anomaly.py:250-269: circular extension, moving average, removal of the extension.
   moving_average of the column over the (integer) index. The index of the extended frame is
   contiguous: n-mac+1..n (left mirror), n+1..2n, 2n+1..2n+mac (right mirror). With mac = 0
   iloc[0:-0] is empty and assigning the old index raises ValueError; with mac > n the trimmed
   frame has the wrong length, which raises as well. *)
Definition smooth_rows (n : Z) (mac : nat) (wrap fillna : bool) (min_clim : Z) (rows : list crow)
  : res (list crow) :=
  if wrap then
    if Nat.eqb mac 0 then Err EValue else
    let left := skipn (List.length rows - mac) rows in
    let ext := left ++ rows ++ firstn mac rows in
    let index := map inject_Z (zrange (n - Z.of_nat (List.length left) + 1) (List.length ext)) in
    let sm := boxcar_filter default_nan (inject_Z (Z.of_nat mac)) fillna min_clim
                (combine index (map c_clim ext)) in
    let ext' := map2 set_clim ext sm in
    (* iloc[mac:-mac] *)
    let body := firstn (List.length ext' - 2 * mac) (skipn mac ext') in
    if Nat.eqb (List.length body) (List.length rows) then Ok body else Err EValue
  else
    let index := map inject_Z (zrange 1 (List.length rows)) in
    let sm := boxcar_filter default_nan (inject_Z (Z.of_nat mac)) fillna min_clim
                (combine index (map c_clim rows)) in
    Ok (map2 set_clim rows sm).

Section Climatology.
Variable agg : list Q -> cell.       (* mean or median *)
Variable agg_std : list Q -> cell.   (* sample standard deviation *)

(* anomaly.py:200-247, timespan=None: rows of the reindexed frame 1..n *)
Definition unit_rows (o : clim_opts) (ser : list obs) : list crow :=
  let u := k_freq o in
  let respect := match u with FDay => k_respect o | _ => false end in
  let sm := boxcar_filter default_nan (k_ma_orig o) (k_fillna o) (k_min_orig o)
              (map (fun x => (o_jd x, o_val x)) ser) in
  let ser' := map2 (fun x c => mkObs (o_date x) (o_jd x) c) ser sm in
  map (fun k => mkCrow (agg (unit_values u respect ser' k))
                       (if k_std o then Some (agg_std (unit_values u respect ser' k)) else None))
      (zrange 1 (Z.to_nat (n_units u))).

(* calc_climatology, anomaly.py:115-284 *)
Definition calc_climatology (o : clim_opts) (ser : list obs) : res (list crow) :=
  match k_freq o with
  | FOther => match k_ma_clim o with None => Err EKey | Some _ => Err EValue end
  | u =>
    let mac := match k_ma_clim o with
               | Some m => m
               | None => match u with FMonth => 3%nat | _ => 35%nat end
               end in
    let respect := match u with FDay => k_respect o | _ => false end in
    let interp := match u with FDay => k_interp o | _ => false end in
    mapR (fun rows =>
            let rows := if interp then
                          (if respect then interp_row rows 366 365 1 else interp_row rows 60 59 61)
                        else rows in
            map (fun r => mkCrow (fillna_cell (k_fill o) (c_clim r))
                            (match c_std r with Some s => Some (fillna_cell (k_fill o) s) | None => None end))
                rows)
      (smooth_rows (n_units u) mac (k_wrap o) (k_fillna o) (k_min_clim o) (unit_rows o ser))
  end.
End Climatology.

(* calc_anomaly with a climatology (index 1..366 in order), anomaly.py:56-87 *)
Definition clim_lookup (clim : list cell) (k : Z) : cell :=
  if (1 <=? k) && (k <=? Z.of_nat (List.length clim)) then nth (Z.to_nat (k - 1)) clim None else None.
Definition anomaly_key (respect : bool) (d : date) : Z :=
  if respect then doy_year (dm d) (dd d) (dy d) else doy (dm d) (dd d).
Definition calc_anomaly_clim (respect : bool) (clim : list cell) (ser : list obs) : list cell :=
  map (fun o => cell_sub (o_val o) (clim_lookup clim (anomaly_key respect (o_date o)))) ser.

(* default arguments: calc_climatology respect_leap_years=False (anomaly.py:123),
   calc_anomaly respect_leap_years=True (anomaly.py:16); AnomalyClimAdapter (adapters.py:381-446)
   calls both without changing them *)
Definition default_clim_respect : bool := false.
Definition default_anomaly_respect : bool := true.
