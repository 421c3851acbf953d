(* Model of src/pytesmo/time_series/grouping.py and of the month subsets of
   src/pytesmo/validation_framework/metric_calculators_adapters.py. *)
From Verif Require Export Calendar.

(* ------------------------------------------------------------------ dates *)

Definition date_eqb (a b : date) : bool :=
  (dy a =? dy b) && (dm a =? dm b) && (dd a =? dd b).
Definition date_leb (a b : date) : bool := date_ltb a b || date_eqb a b.

(* datetime.date(y, m, d): ValueError for a day outside the month (years are not
   bounded in the model) *)
Definition make_date (y m d : Z) : res date :=
  if (1 <=? m) && (m <=? 12) && (1 <=? d) && (d <=? days_in_month y m)
  then Ok (mkDate y m d) else Err EValue.

(* the day after *)
Definition next_day (d : date) : date :=
  if dd d <? days_in_month (dy d) (dm d) then mkDate (dy d) (dm d) (dd d + 1)
  else if dm d <? 12 then mkDate (dy d) (dm d + 1) 1
  else mkDate (dy d + 1) 1 1.

(* pandas.date_range(start, end, freq='D') for dates; fuel = an upper bound of the
   number of days *)
Fixpoint date_range_fuel (n : nat) (d e : date) : list date :=
  match n with
  | O => []
  | S n' => if date_leb d e then d :: date_range_fuel n' (next_day d) e else []
  end.
Definition date_range (s e : date) : list date :=
  date_range_fuel (Z.to_nat ((dy e - dy s + 1) * 372)) s e.

(* --------------------------------------------------------------- day bins *)

Fixpoint nonincb (l : list Z) : bool :=
  match l with
  | [] => true
  | x :: r => match r with [] => true | y :: _ => (y <=? x) && nonincb r end
  end.

(* numpy.digitize(x, bins) (right=False): bins must be monotone *)
Definition digitize (bins : list Z) (x : Z) : res Z :=
  if sortedb bins then Ok (Z.of_nat (countb (fun b => b <=? x) bins))
  else if nonincb bins then Ok (Z.of_nat (countb (fun b => x <? b) bins))
  else Err EValue.

(* python list indexing, negative indices counted from the end *)
Definition py_index {A} (l : list A) (i : Z) : res A :=
  let n := Z.of_nat (List.length l) in
  let j := if i <? 0 then i + n else i in
  if (0 <=? j) && (j <? n)
  then match nth_error l (Z.to_nat j) with Some a => Ok a | None => Err EIndex end
  else Err EIndex.

(* grouping.py:87-125 grp_to_datetimeindex, one entry of the loop *)
Definition grp_label (bins : list Z) (start : bool) (grp : Z) (el : date) : res date :=
  let offset := if start then 0 else 1 in
  let index_offset := if start then -1 else 0 in
  bindR (py_index bins (grp + index_offset)) (fun b =>
  make_date (dy el) (dm el) (Z.min (b - offset) (days_in_month (dy el) (dm el)))).

(* grouping.py:78-80: label of one index entry, digitize on its day of the month *)
Definition day_bin_label (bins : list Z) (start : bool) (el : date) : res date :=
  bindR (digitize bins (dd el)) (fun g => grp_label bins start g el).

Definition day_bin_index (bins : list Z) (start : bool) (idx : list date) : res (list date) :=
  seqR (map (day_bin_label bins start) idx).

(* sorted distinct labels: the group keys of pandas groupby(level=0) *)
Fixpoint date_insert (d : date) (l : list date) : list date :=
  match l with
  | [] => [d]
  | x :: r => if date_ltb d x then d :: l else if date_eqb d x then l else x :: date_insert d r
  end.
Definition group_keys (labels : list date) : list date := fold_right date_insert [] labels.

(* grouping.py:47-84 group_by_day_bin: the groups (key, rows in their order) *)
Definition group_by_day_bin {A} (bins : list Z) (start : bool) (df : list (date * A))
  (dtindex : option (list date)) : res (list (date * list A)) :=
  bindR (match dtindex with
         | Some l => Ok l
         | None => day_bin_index bins start (map fst df) end) (fun labels =>
  if Nat.eqb (List.length labels) (List.length df)
  then let lab := combine labels (map snd df) in
       Ok (map (fun k => (k, map snd (filter (fun p => date_eqb (fst p) k) lab)))
               (group_keys labels))
  else Err EValue).

(* grouping.py:128-156 grouped_dates_between *)
Definition grouped_dates_between (s e : date) (bins : list Z) (start : bool) : res (list date) :=
  let daily := date_range s e in
  mapR (map fst) (group_by_day_bin bins start (map (fun d => (d, tt)) daily) None).

(* ------------------------------------------------------------- timestamps *)

(* a pandas timestamp: calendar day and nanosecond of the day *)
Record ts := mkTs { t_date : date; t_ns : Z }.
Definition second_ns : Z := 1000000000.
Definition day_ns : Z := 86400 * second_ns.

Definition ts_ltb (a b : ts) : bool :=
  date_ltb (t_date a) (t_date b) || (date_eqb (t_date a) (t_date b) && (t_ns a <? t_ns b)).
Definition ts_eqb (a b : ts) : bool := date_eqb (t_date a) (t_date b) && (t_ns a =? t_ns b).
Definition ts_leb (a b : ts) : bool := ts_ltb a b || ts_eqb a b.

(* ------------------------------------------------------- YearlessDatetime *)

(* grouping.py:159-173 *)
Record yearless := mkYl { yl_month : Z; yl_day : Z; yl_hour : Z; yl_minute : Z; yl_second : Z }.

(* datetime(year, month, day, hour, minute, second) *)
Definition make_datetime (y m d h mi s : Z) : res ts :=
  if (0 <=? h) && (h <? 24) && (0 <=? mi) && (mi <? 60) && (0 <=? s) && (s <? 60)
  then mapR (fun dt => mkTs dt (((h * 60 + mi) * 60 + s) * second_ns)) (make_date y m d)
  else Err EValue.

(* grouping.py:195-201 doy property (cadati doy without a year) *)
Definition yl_doy (y : yearless) : Z := doy (yl_month y) (yl_day y).

(* grouping.py:210-230 to_datetime, for each year: None is skipped *)
Definition yl_in_year (y : yearless) (year : Z) : res (option ts) :=
  if negb (leap year) && (yl_doy y =? 60) then Ok None
  else mapR Some (make_datetime year (yl_month y) (yl_day y) (yl_hour y) (yl_minute y) (yl_second y)).

(* the list of datetimes for a list of years; python unwraps lists of length 0 and 1 *)
Definition yl_to_datetimes (y : yearless) (years : list Z) : res (list ts) :=
  mapR vals (seqR (map (yl_in_year y) years)).

(* grouping.py:175-189 comparisons in the leap year 2400 (comparing None raises TypeError,
   which cannot happen in a leap year) *)
Definition yl_cmp (f : ts -> ts -> bool) (a b : yearless) : res bool :=
  bindR (yl_in_year a 2400) (fun x => bindR (yl_in_year b 2400) (fun y =>
  match x, y with Some s, Some t => Ok (f s t) | _, _ => Err EType end)).
Definition yl_lt := yl_cmp ts_ltb.
Definition yl_le := yl_cmp ts_leb.
Definition yl_gt := yl_cmp (fun a b => ts_ltb b a).
Definition yl_ge := yl_cmp (fun a b => ts_leb b a).

(* grouping.py:203-208 from_datetime: drops the year and what is below a second *)
Definition yl_from_datetime (t : ts) : yearless :=
  let s := t_ns t / second_ns in
  mkYl (dm (t_date t)) (dd (t_date t)) (s / 3600) (s / 60 mod 60) (s mod 60).

(* ---------------------------------------------------------- TsDistributor *)

(* an entry of yearless_dates: the documentation also allows datetime objects, which
   have no method to_datetime *)
Inductive gen_date := GYearless (y : yearless) | GDatetime (t : ts).

(* grouping.py:235-273 *)
Record distributor := mkDistr {
  d_dates : option (list ts);
  d_ranges : option (list (ts * ts));
  d_gen_dates : option (list gen_date);
  d_gen_ranges : option (list (yearless * yearless)) }.

(* columns of the mask frame *)
Inductive mask_key := KDates | KRange (i : nat) | KGenDates | KGenRange (y : Z) (i : nat).
Definition mask_key_eqb (a b : mask_key) : bool :=
  match a, b with
  | KDates, KDates | KGenDates, KGenDates => true
  | KRange i, KRange j => Nat.eqb i j
  | KGenRange y i, KGenRange z j => (y =? z) && Nat.eqb i j
  | _, _ => false
  end.

(* dict/frame item assignment: an existing column is overwritten *)
Fixpoint dict_set {K V} (eqb : K -> K -> bool) (d : list (K * V)) (k : K) (v : V) : list (K * V) :=
  match d with
  | [] => [(k, v)]
  | (k', v') :: r => if eqb k' k then (k, v) :: r else (k', v') :: dict_set eqb r k v
  end.

(* np.unique: sorted distinct values *)
Fixpoint z_insert (x : Z) (l : list Z) : list Z :=
  match l with
  | [] => [x]
  | y :: r => if x <? y then x :: l else if x =? y then l else y :: z_insert x r
  end.
Definition z_unique (l : list Z) : list Z := fold_right z_insert [] l.
Definition years_of (idx : list ts) : list Z := z_unique (map (fun t => dy (t_date t)) idx).

Definition is_in (t : ts) (l : list ts) : bool := existsb (ts_eqb t) l.

(* grouping.py:339-342: column 'dates' *)
Definition dates_col (idx dates : list ts) : list bool := map (fun t => is_in t dates) idx.

(* grouping.py:344-349: one date range, end points in either order *)
Definition range_col (idx : list ts) (r : ts * ts) : list bool :=
  let '(s, e) := if ts_ltb (snd r) (fst r) then (snd r, fst r) else r in
  map (fun t => ts_leb s t && ts_leb t e) idx.

(* grouping.py:351-361: column 'gen_dates' *)
Definition gen_dates_col (idx : list ts) (l : list gen_date) : res (list bool) :=
  bindR (seqR (map (fun g => match g with
                             | GYearless y => yl_to_datetimes y (years_of idx)
                             | GDatetime _ => Err EOther (* AttributeError *)
                             end) l)) (fun arrs =>
  Ok (map (fun t => is_in t (List.concat arrs)) idx)).

(* grouping.py:370-391: one yearless range in one year of the index: the year in the column
   name, and the column.  A start or end that does not exist (None) makes the comparison
   with the index raise TypeError. *)
Definition gen_range_col (idx : list ts) (r : yearless * yearless) (y : Z) : res (Z * list bool) :=
  let start := if negb (leap y) && (yl_doy (fst r) =? 60) then mkYl 3 1 0 0 0 else fst r in
  bindR (yl_in_year start y) (fun start_dt =>
  let end0 := snd r in
  bindR (yl_lt end0 start) (fun wraps =>
  let y' := if wraps then y + 1 else y in
  let end1 := if negb (leap y') && (yl_doy end0 =? 60) then mkYl 2 28 23 59 59 else end0 in
  bindR (yl_in_year end1 y') (fun end_dt =>
  match start_dt, end_dt with
  | Some s, Some e => Ok (y', map (fun t => ts_leb s t && ts_leb t e) idx)
  | _, _ => Err EType
  end))).

(* grouping.py:366-391: the dict cols, filled range by range and year by year *)
Definition gen_range_cols (idx : list ts) (rs : list (yearless * yearless))
  : res (list (mask_key * list bool)) :=
  mapR (fun kcs => fold_left (fun d kc => dict_set mask_key_eqb d (fst kc) (snd kc)) kcs [])
       (seqR (List.concat (map (fun ir : nat * (yearless * yearless) =>
          map (fun y => mapR (fun yc => (KGenRange (fst yc) (fst ir), snd yc))
                             (gen_range_col idx (snd ir) y)) (years_of idx))
          (combine (seq 0 (List.length rs)) rs)))).

Definition opt_cols {A} (o : option A) (f : A -> res (list (mask_key * list bool)))
  : res (list (mask_key * list bool)) :=
  match o with None => Ok [] | Some a => f a end.

(* grouping.py:323-397 filter: the mask is the row-wise any of all columns (no column: no row
   is selected) *)
Definition ts_filter (D : distributor) (idx : list ts) : res (list bool) :=
  bindR (opt_cols (d_dates D) (fun l => Ok [(KDates, dates_col idx l)])) (fun c1 =>
  bindR (opt_cols (d_ranges D) (fun l =>
    Ok (map (fun ir : nat * (ts * ts) => (KRange (fst ir), range_col idx (snd ir)))
            (combine (seq 0 (List.length l)) l)))) (fun c2 =>
  bindR (opt_cols (d_gen_dates D) (fun l =>
    mapR (fun c => [(KGenDates, c)]) (gen_dates_col idx l))) (fun c3 =>
  bindR (opt_cols (d_gen_ranges D) (gen_range_cols idx)) (fun c4 =>
  let cols := c1 ++ c2 ++ c3 ++ c4 in
  Ok (map (fun j => existsb (fun kc => nth j (snd kc) false) cols)
          (seq 0 (List.length idx))))))).

(* a data frame row: timestamp and cells *)
Definition frow := (ts * list cell)%type.

(* grouping.py:284-321 select on a data frame; [set_nan] blanks the other rows *)
Definition ts_select (D : distributor) (df : list frow) (set_nan : bool) : res (list frow) :=
  mapR (fun mask =>
    if set_nan
    then map2 (fun (m : bool) (r : frow) => if m then r else (fst r, map (fun _ => None) (snd r))) mask df
    else mask_select mask df) (ts_filter D (map fst df)).

(* --------------------------------------------------------- month subsets *)

(* metric_calculators_adapters.py:42-46 days_in_month (of a leap year) *)
Definition leap_month_days (m : Z) : Z := days_past (m + 1) - days_past m.

(* metric_calculators_adapters.py:193-199: the distributor of a list of months *)
Definition months_distributor (months : list Z) : distributor :=
  mkDistr None None None
    (Some (map (fun m => (mkYl m 1 0 0 0, mkYl m (leap_month_days m) 23 59 59)) months)).

(* metric_calculators_adapters.py:184-191 *)
Definition default_month_subsets : list (string * list Z) :=
  [("DJF"%string, [12; 1; 2]); ("MAM"%string, [3; 4; 5]); ("JJA"%string, [6; 7; 8]);
   ("SON"%string, [9; 10; 11]); ("ALL"%string, [1; 2; 3; 4; 5; 6; 7; 8; 9; 10; 11; 12])].
