(* Model of src/pytesmo/temporal_matching.py
   Times are Z ticks.  A frame is a list of column names and a list of rows
   (timestamp, cells); an index without data is a list of timestamps.
   Simplifications: warnings are dropped; a pd.Series is a one-column frame. *)
From Verif Require Export Base.

Definition row := list cell.
Record frame := mkFrame { fcols : list string; frows : list (Z * row) }.

Definition findex (f : frame) : list Z := map fst (frows f).
Definition ncols (f : frame) : nat := List.length (fcols f).
Definition nan_row (n : nat) : row := repeat None n.

(* ------------------------------------------------------------------ *)
(* resample_mean, temporal_matching.py:512-568                         *)

(* temporal_matching.py:544-550: for j in range(lower, n_orig + 1): lower = j;
   if lower == n_orig or times[j] >= lo: break.
   [suffix] is times[j:], so [suffix = []] is [j == n_orig]. *)
Fixpoint adv_lower (lo : Z) (suffix : list Z) (j : nat) : nat :=
  match suffix with
  | [] => j
  | x :: r => if lo <=? x then j else adv_lower lo r (S j)
  end.

(* temporal_matching.py:553-556: for j in range(max(0, upper), n_orig):
   upper = j - 1; if times[j] > hi: break.
   [upper] is the value before the iteration (kept if the range is empty). *)
Fixpoint adv_upper (hi : Z) (suffix : list Z) (j : Z) (upper : Z) : Z :=
  match suffix with
  | [] => upper
  | x :: r => if hi <? x then j - 1 else adv_upper hi r (j + 1) (j - 1)
  end.

(* the body of the loop over targets, temporal_matching.py:543-568.
   [half] is half_window; [oob] is what times[n_orig-1] reads when n_orig = 0
   (an out-of-bounds read in the compiled code). *)
Definition rm_last (oob : Z) (times : list Z) : Z := last times oob.

Definition rm_step (oob : Z) (times : list Z) (values : list cell) (half : Z)
    (st : nat * Z) (t : Z) : (nat * Z) * cell :=
  let '(lower, upper) := st in
  let lower' := adv_lower (t - half) (skipn lower times) lower in
  let upper' :=
    if t + half <? rm_last oob times
    then adv_upper (t + half) (skipn (Z.to_nat (Z.max 0 upper)) times) (Z.max 0 upper) upper
    else Z.of_nat (List.length times) - 1 in
  let nobs := Z.max (upper' - Z.of_nat lower' + 1) 0 in
  let out :=
    if nobs =? 0 then None
    else nanmean (firstn (Z.to_nat (upper' + 1 - Z.of_nat lower')) (skipn lower' values)) in
  ((lower', upper'), out).

Fixpoint rm_loop (oob : Z) (times : list Z) (values : list cell) (half : Z)
    (st : nat * Z) (targets : list Z) : list cell :=
  match targets with
  | [] => []
  | t :: r => let (st', out) := rm_step oob times values half st t in
              out :: rm_loop oob times values half st' r
  end.

(* guvectorize signature (n),(n),(m),()->(m), temporal_matching.py:512-519:
   times and values must have the same length, otherwise numpy raises ValueError *)
Definition resample_mean (oob : Z) (times : list Z) (values : list cell)
    (targets : list Z) (half : Z) : res (list cell) :=
  if Nat.eqb (List.length times) (List.length values)
  then Ok (rm_loop oob times values half (0%nat, 0) targets)
  else Err EValue.

(* ------------------------------------------------------------------ *)
(* pandas DataFrame.reindex(target, method="nearest", tolerance=window) *)
(* used at temporal_matching.py:327-328.                               *)

Fixpoint increasing (l : list Z) : bool :=
  match l with
  | [] => true
  | x :: r => match r with [] => true | y :: _ => (x <=? y) && increasing r end
  end.
Fixpoint decreasing (l : list Z) : bool :=
  match l with
  | [] => true
  | x :: r => match r with [] => true | y :: _ => (y <=? x) && decreasing r end
  end.

(* Index._get_fill_indexer(target, "pad" / "backfill") on a monotone index:
   the neighbour before/after the label in index order, -1 if there is none *)
Definition pad_pos (inc : bool) (times : list Z) (t : Z) : Z :=
  Z.of_nat (countb (fun s => if inc then s <=? t else t <=? s) times) - 1.
Definition backfill_pos (inc : bool) (times : list Z) (t : Z) : Z :=
  let k := countb (fun s => if inc then s <? t else t <? s) times in
  if Nat.eqb k (List.length times) then -1 else Z.of_nat k.

(* python indexing self[i] with i = -1 meaning the last element *)
Definition at_pos (times : list Z) (i : Z) : Z :=
  if i =? -1 then last times 0 else nth (Z.to_nat i) times 0.

(* Index._get_nearest_indexer with tolerance: for an increasing index the left
   neighbour is taken iff strictly closer (operator.lt), for a decreasing one iff
   closer or equal (operator.le); then -1 where |self[indexer]-t| > tolerance.
   Empty index: everything -1. *)
Definition nearest_pos (inc : bool) (times : list Z) (tol t : Z) : Z :=
  match times with
  | [] => -1
  | _ =>
    let left := pad_pos inc times t in
    let right := backfill_pos inc times t in
    let dl := Z.abs (at_pos times left - t) in
    let dr := Z.abs (at_pos times right - t) in
    let i := if (if inc then dl <? dr else dl <=? dr) || (right =? -1)
             then left else right in
    if Z.abs (at_pos times i - t) <=? tol then i else -1
  end.

(* DataFrame.reindex: take rows by position, missing rows are NaN *)
Definition take_row (n : nat) (rows : list (Z * row)) (i : Z) : row :=
  if i =? -1 then nan_row n
  else match nth_error rows (Z.to_nat i) with Some (_, r) => r | None => nan_row n end.

(* The index has no duplicates here (duplicates are removed before). A non-monotone
   index raises ValueError("index must be monotonic increasing or decreasing");
   with an empty target pandas returns before that check. *)
Definition reindex_nearest (f : frame) (targets : list Z) (tol : Z) : res frame :=
  let times := findex f in
  let inc := increasing times in
  match targets with
  | [] => Ok (mkFrame (fcols f) [])
  | _ =>
    if inc || decreasing times then
      Ok (mkFrame (fcols f)
            (map (fun t => (t, take_row (ncols f) (frows f) (nearest_pos inc times tol t))) targets))
    else Err EValue
  end.

(* ------------------------------------------------------------------ *)
(* temporal_collocation, temporal_matching.py:184-380                   *)

Inductive method := MNearest | MMean | MOther.
Inductive flag_arg := NoFlag | FlagArr (l : list bool) | FlagCol (c : string).

(* other[flag].values, KeyError if the column does not exist *)
Fixpoint col_pos (c : string) (cols : list string) : option nat :=
  match cols with
  | [] => None
  | x :: r => if String.eqb c x then Some 0%nat
              else match col_pos c r with Some n => Some (S n) | None => None end
  end.
(* ndarray.astype(bool): nonzero, NaN is True *)
Definition cell_true (c : cell) : bool :=
  match c with None => true | Some q => negb (Qeq_bool q 0) end.
Definition col_values (f : frame) (i : nat) : list cell :=
  map (fun tr => nth i (snd tr) None) (frows f).

(* temporal_matching.py:273-281 *)
Definition eval_flag (fl : flag_arg) (other : frame) (nref : nat) : res (option (list bool)) :=
  match fl with
  | NoFlag => Ok None
  | FlagArr l => if Nat.eqb (List.length l) nref then Ok (Some l) else Err EValue
  | FlagCol c =>
      match col_pos c (fcols other) with
      | None => Err EKey
      | Some i =>
          let l := map cell_true (col_values other i) in
          if Nat.eqb (List.length l) nref then Ok (Some l) else Err EValue
      end
  end.

Definition has_invalid (fl : option (list bool)) : bool :=
  match fl with None => false | Some l => existsb (fun b => b) l end.

(* other[boolean array]: ValueError("Item wrong length ...") on length mismatch *)
Definition bool_index (m : list bool) (f : frame) : res frame :=
  if Nat.eqb (List.length m) (List.length (frows f))
  then Ok (mkFrame (fcols f) (mask_select m (frows f)))
  else Err EValue.

(* DataFrame.combine_first for two frames with equal index and columns *)
Definition combine_first_cell (a b : cell) : cell := match a with None => b | _ => a end.
Definition combine_first (a b : frame) : frame :=
  mkFrame (fcols a)
    (map2 (fun ra rb => (fst ra, map2 combine_first_cell (snd ra) (snd rb))) (frows a) (frows b)).

(* DataFrame.dropna(how="all") *)
Definition dropna_all (f : frame) : frame :=
  mkFrame (fcols f) (filter (fun tr => existsb notna (snd tr)) (frows f)).
(* DataFrame.dropna(how="any") *)
Definition dropna_any (f : frame) : frame :=
  mkFrame (fcols f) (filter (fun tr => forallb notna (snd tr)) (frows f)).

(* temporal_matching.py:319-325: other.assign(index_other=..., distance_other=0);
   time stamps are stored as numbers *)
Definition add_index_cols (ri rd : bool) (f : frame) : frame :=
  if ri || rd then
    mkFrame (fcols f ++ ["index_other"%string] ++ (if rd then ["distance_other"%string] else []))
      (map (fun tr => (fst tr, snd tr ++ [Some (inject_Z (fst tr))] ++ (if rd then [Some 0%Q] else [])))
           (frows f))
  else f.

(* temporal_matching.py:338-340: distance_other = index_other - index
   (the last column is distance_other, the last but one index_other) *)
Definition set_distance (rd : bool) (f : frame) : frame :=
  if rd then
    let n := List.length (fcols f) in
    mkFrame (fcols f)
      (map (fun tr => (fst tr,
         firstn (n - 1) (snd tr) ++
         [match nth (n - 2) (snd tr) None with
          | Some i => Some (i - inject_Z (fst tr))%Q | None => None end]))
        (frows f))
  else f.

(* transpose of the per-column results, data.T at temporal_matching.py:364 *)
Definition rows_of_columns (index : list Z) (columns : list (list cell)) : list (Z * row) :=
  map (fun k => (nth k index 0, map (fun c => nth k c None) columns))
      (seq 0 (List.length index)).

Record tc_opts := mkOpts {
  o_method : method; o_return_index : bool; o_return_distance : bool;
  o_dropduplicates : bool; o_dropna : bool; o_flag : flag_arg; o_use_invalid : bool }.

Section Collocation.
(* conversion when a float is stored in an array with the dtype of the first
   column of [other] (temporal_matching.py:355-361): identity for float columns,
   truncation for integer columns *)
Variable store : cell -> cell.
Variable oob : Z.

(* temporal_matching.py:342-367 *)
Definition collocate_mean (ref : list Z) (other : frame) (window : Z)
    (flagged : option (list bool)) (use_invalid : bool) : res frame :=
  let times := findex other in
  let mask :=
    if negb (has_invalid flagged) || use_invalid then map (fun _ => true) times
    else match flagged with Some l => map negb l | None => [] end in
  if Nat.eqb (ncols other) 0 then Err EIndex else
  if Nat.eqb (List.length mask) (List.length times) then
    mapR (fun columns => mkFrame (fcols other) (rows_of_columns ref columns))
      (seqR (map (fun i =>
          mapR (map store)
            (resample_mean oob times (mask_select mask (col_values other i)) ref window))
        (seq 0 (ncols other))))
  else Err EIndex.

(* temporal_matching.py:316-340 *)
Definition collocate_nearest (ref : list Z) (other : frame) (window : Z)
    (flagged : option (list bool)) (use_invalid ri rd : bool) : res frame :=
  let other := add_index_cols ri rd other in
  let collocated :=
    match flagged with
    | Some l =>
      if has_invalid flagged then
        bindR (bool_index (map negb l) other) (fun fv =>
        bindR (reindex_nearest fv ref window) (fun cv =>
          if use_invalid then
            bindR (bool_index l other) (fun fi =>
            bindR (reindex_nearest fi ref window) (fun ci => Ok (combine_first cv ci)))
          else Ok cv))
      else reindex_nearest other ref window
    | None => reindex_nearest other ref window
    end in
  mapR (set_distance rd) collocated.

(* temporal_matching.py:184-380 (inputs already in a common time zone) *)
Definition temporal_collocation (ref : list Z) (other : frame) (window : Z) (o : tc_opts)
  : res frame :=
  bindR (eval_flag (o_flag o) other (List.length ref)) (fun flagged =>
  let dd := match o_method o with MNearest => true | _ => o_dropduplicates o end in
  let other := if dd then mkFrame (fcols other) (dedup_first fst (frows other)) else other in
  let ref := if dd then dedup_first (fun t => t) ref else ref in
  let collocated :=
    match o_method o with
    | MNearest => collocate_nearest ref other window flagged (o_use_invalid o)
                    (o_return_index o) (o_return_distance o)
    | MMean => collocate_mean ref other window flagged (o_use_invalid o)
    | MOther => Err ENotImpl
    end in
  mapR (fun f => if o_dropna o then dropna_all f else f) collocated).

(* ------------------------------------------------------------------ *)
(* combined_temporal_collocation, temporal_matching.py:383-509          *)

Inductive combined_dropna := CDFalse | CDTrue | CDAny | CDAll.

(* sorted union of indices, as pd.concat(axis=1) builds it for DatetimeIndex *)
Fixpoint insert_z (x : Z) (l : list Z) : list Z :=
  match l with
  | [] => [x]
  | y :: r => if x =? y then l else if x <? y then x :: l else y :: insert_z x r
  end.
Definition sort_union (l : list Z) : list Z := fold_right insert_z [] l.

Definition lookup_row (f : frame) (t : Z) : row :=
  match find (fun tr => fst tr =? t) (frows f) with
  | Some (_, r) => r
  | None => nan_row (ncols f)
  end.

Fixpoint list_eqb_z (a b : list Z) : bool :=
  match a, b with
  | [], [] => true
  | x :: a', y :: b' => (x =? y) && list_eqb_z a' b'
  | _, _ => false
  end.
Fixpoint nodupb_z (l : list Z) : bool :=
  match l with [] => true | x :: r => negb (existsb (Z.eqb x) r) && nodupb_z r end.

(* pd.concat(dfs, axis=1): no frames -> ValueError; equal indices are kept as they are
   (row by row); otherwise outer join on the sorted union, duplicates raise *)
Definition concat_axis1 (dfs : list frame) : res frame :=
  match dfs with
  | [] => Err EValue
  | f0 :: rest =>
    let cols := flat_map fcols dfs in
    if forallb (fun f => list_eqb_z (findex f) (findex f0)) rest then
      Ok (mkFrame cols
        (map (fun k => (nth k (findex f0) 0,
                        flat_map (fun f => nth k (map snd (frows f)) []) dfs))
             (seq 0 (List.length (frows f0)))))
    else if forallb (fun f => nodupb_z (findex f)) dfs then
      Ok (mkFrame cols
        (map (fun t => (t, flat_map (fun f => lookup_row f t) dfs))
             (sort_union (flat_map findex dfs))))
    else Err EOther
  end.

Definition combined_temporal_collocation (reference : frame) (others : list frame)
    (window : Z) (o : tc_opts) (cd : combined_dropna) (add_ref_data : bool) : res frame :=
  let o' := mkOpts (o_method o) false false (o_dropduplicates o) (o_dropna o) (o_flag o)
                   (o_use_invalid o) in
  bindR (seqR (map (fun f => temporal_collocation (findex reference) f window o') others))
  (fun dfs =>
   let dfs :=
     if add_ref_data
     then (if o_dropduplicates o
           then mkFrame (fcols reference) (dedup_first fst (frows reference)) else reference) :: dfs
     else dfs in
   mapR (fun merged => match cd with
                       | CDFalse => merged
                       | CDTrue | CDAny => dropna_any merged
                       | CDAll => dropna_all merged
                       end)
        (concat_axis1 dfs)).
End Collocation.

(* Assigning a float64 to an element of an integer array (temporal_matching.py:355-361 when the
   first column of other has an integer dtype): truncation towards zero; NaN becomes an
   unspecified integer [nanint]. *)
Definition int_store (nanint : Z) (c : cell) : cell :=
  match c with
  | Some q => Some (inject_Z (Z.quot (Qnum q) (Zpos (Qden q))))
  | None => Some (inject_Z nanint)
  end.
