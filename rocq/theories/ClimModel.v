(* More of src/pytesmo/time_series/anomaly.py: the timespan of calc_climatology, the median and the frame returned by
   calc_anomaly with return_clim. *)
From Verif Require Export AnomalyModel.

(* DataFrame.truncate as used in anomaly.py:199-200: the index must be sorted in one of the two directions, the bounds in
   order; then a label slice from the first to the last position inside the bounds *)
Definition qle_opt (a b : option Q) : bool := match a, b with Some x, Some y => Qle_bool x y | _, _ => true end.
Fixpoint monotonic (le : Q -> Q -> bool) (l : list Q) : bool :=
  match l with x :: (y :: _) as r => le x y && monotonic le r | _ => true end.
Fixpoint skip_while {A} (p : A -> bool) (l : list A) : list A := match l with [] => [] | x :: r => if p x then skip_while p r else l end.
Fixpoint take_while {A} (p : A -> bool) (l : list A) : list A := match l with [] => [] | x :: r => if p x then x :: take_while p r else [] end.
Definition truncate (before after : option Q) (ser : list obs) : res (list obs) :=
  let ix := map o_jd ser in
  let up := monotonic Qle_bool ix in
  let down := monotonic (fun x y => Qle_bool y x) ix in
  let early x := negb (qle_opt before (Some (o_jd x))) in
  let late x := negb (qle_opt (Some (o_jd x)) after) in
  if negb (up || down) then Err EValue else
  if negb (qle_opt before after) then Err EValue else
  Ok (if up then take_while (fun x => negb (late x)) (skip_while early ser)
      else take_while (fun x => negb (early x)) (skip_while late ser)).

(* anomaly.py:185-202.  An unknown output frequency raises KeyError before the series is looked at if no window is given,
   ValueError in _index_units otherwise. *)
Definition calc_climatology_span (agg agg_std : list Q -> cell) (o : clim_opts) (span : option (option Q * option Q)) (ser : list obs) : res (list crow) :=
  match span with
  | None => calc_climatology agg agg_std o ser
  | Some (before, after) =>
      match k_freq o, k_ma_clim o with
      | FOther, None => Err EKey
      | _, _ => bindR (truncate before after ser) (calc_climatology agg agg_std o)
      end
  end.

(* groupby(...).median(): the middle of the sorted values *)
Fixpoint q_insert (x : Q) (l : list Q) : list Q :=
  match l with [] => [x] | y :: r => if Qle_bool x y then x :: l else y :: q_insert x r end.
Definition q_sort (l : list Q) : list Q := fold_right q_insert [] l.
Definition median_agg (l : list Q) : cell :=
  let s := q_sort l in
  let n := List.length s in
  if Nat.eqb n 0 then None
  else if Nat.even n then Some ((nth (n / 2 - 1) s 0 + nth (n / 2) s 0) / 2)%Q
  else Some (nth (n / 2) s 0%Q).

(* anomaly.py:56-87 with return_clim: anomaly, climatology and, if the climatology has a column std, its value *)
Definition clim_row (clim : list crow) (k : Z) : crow :=
  if (1 <=? k) && (k <=? Z.of_nat (List.length clim)) then nth (Z.to_nat (k - 1)) clim (mkCrow None None)
  else mkCrow None (match clim with r :: _ => option_map (fun _ => None) (c_std r) | [] => None end).
Record arow := mkArow { a_anomaly : cell; a_clim : cell; a_std : option cell }.
Definition calc_anomaly_frame (respect : bool) (clim : list crow) (ser : list obs) : list arow :=
  map (fun o => let r := clim_row clim (anomaly_key respect (o_date o)) in mkArow (cell_sub (o_val o) (c_clim r)) (c_clim r) (c_std r)) ser.
