(* Specification vocabulary for grouping: day bins, seasons, subset conditions. *)
From Verif Require Export GroupingModel.

Definition date_le (a b : date) : Prop := a = b \/ date_lt a b.

(* consecutive bin edges around a day: lo <= x < hi *)
Definition in_bin (bins : list Z) (x lo hi : Z) : Prop :=
  (exists pre suf, bins = pre ++ lo :: hi :: suf) /\ lo <= x < hi.

(* bin edges that increase, start at day 1 and reach past day 31 *)
Definition month_bins (bins : list Z) : Prop :=
  StronglySorted Z.lt bins /\ hd 0 bins = 1 /\ 31 < last bins 0.

Definition same_month (a b : date) : Prop := dy a = dy b /\ dm a = dm b.

(* both dates lie in the same bin of the same month *)
Definition same_bin (bins : list Z) (a b : date) : Prop :=
  same_month a b /\ exists lo hi, in_bin bins (dd a) lo hi /\ in_bin bins (dd b) lo hi.

(* [l] is the first (or last) calendar day of the bin of [d] within its month *)
Definition bin_boundary (bins : list Z) (start : bool) (d l : date) : Prop :=
  valid_date l /\ same_bin bins d l /\
  forall d', valid_date d' -> same_bin bins d d' ->
    if start then date_le l d' else date_le d' l.

(* ------------------------------------------------------------ timestamps *)

Definition ts_lt (a b : ts) : Prop :=
  date_lt (t_date a) (t_date b) \/ (t_date a = t_date b /\ t_ns a < t_ns b).
Definition ts_le (a b : ts) : Prop := a = b \/ ts_lt a b.

Definition valid_ts (t : ts) : Prop := valid_date (t_date t) /\ 0 <= t_ns t < day_ns.
Definition whole_second (t : ts) : Prop := exists k, t_ns t = k * second_ns.

(* -------------------------------------------------------- yearless dates *)

Definition valid_yl (y : yearless) : Prop :=
  1 <= yl_month y <= 12 /\ 1 <= yl_day y <= month_len true (yl_month y) /\
  0 <= yl_hour y < 24 /\ 0 <= yl_minute y < 60 /\ 0 <= yl_second y < 60.

Definition yl_is_feb29 (y : yearless) : Prop := yl_month y = 2 /\ yl_day y = 29.

(* time of day of a yearless date in nanoseconds *)
Definition yl_time (y : yearless) : Z :=
  ((yl_hour y * 60 + yl_minute y) * 60 + yl_second y) * second_ns.

(* [t] falls in year [year] on the month, day and time of day of [y] *)
Definition yl_at (y : yearless) (year : Z) (t : ts) : Prop :=
  dy (t_date t) = year /\ dm (t_date t) = yl_month y /\ dd (t_date t) = yl_day y /\ t_ns t = yl_time y.

(* a moment of the year, irrespective of the year: month, day, time of day *)
Record moment := mkMoment { mo_m : Z; mo_d : Z; mo_ns : Z }.
Definition moment_le (a b : moment) : Prop :=
  mo_m a < mo_m b \/ (mo_m a = mo_m b /\ (mo_d a < mo_d b \/ (mo_d a = mo_d b /\ mo_ns a <= mo_ns b))).
Definition moment_of_yl (y : yearless) : moment := mkMoment (yl_month y) (yl_day y) (yl_time y).
Definition moment_of_ts (t : ts) : moment := mkMoment (dm (t_date t)) (dd (t_date t)) (t_ns t).

(* yearless range: a plain range, or one that runs over New Year *)
Definition wraps (r : yearless * yearless) : Prop :=
  ~ moment_le (moment_of_yl (fst r)) (moment_of_yl (snd r)).
Definition in_season (r : yearless * yearless) (t : ts) : Prop :=
  let s := moment_of_yl (fst r) in
  let e := moment_of_yl (snd r) in
  (moment_le s e /\ moment_le s (moment_of_ts t) /\ moment_le (moment_of_ts t) e) \/
  (~ moment_le s e /\ (moment_le s (moment_of_ts t) \/ moment_le (moment_of_ts t) e)).

(* starts and ends on the same 29 February *)
Definition within_feb29 (r : yearless * yearless) : Prop :=
  yl_is_feb29 (fst r) /\ yl_is_feb29 (snd r) /\
  moment_le (moment_of_yl (fst r)) (moment_of_yl (snd r)).

(* ----------------------------------------------- conditions of a subset *)

Definition olist {A} (o : option (list A)) : list A := match o with None => [] | Some l => l end.

(* between two end points given in either order, end points included *)
Definition between (r : ts * ts) (t : ts) : Prop :=
  (ts_le (fst r) t /\ ts_le t (snd r)) \/ (ts_le (snd r) t /\ ts_le t (fst r)).

(* the timestamp satisfies one of the conditions of the subset *)
Definition meets (D : distributor) (t : ts) : Prop :=
  In t (olist (d_dates D)) \/
  (exists r, In r (olist (d_ranges D)) /\ between r t) \/
  (exists y, In (GYearless y) (olist (d_gen_dates D)) /\ yl_at y (dy (t_date t)) t) \/
  (exists r, In r (olist (d_gen_ranges D)) /\ in_season r t).

Definition no_datetime_objects (D : distributor) : Prop :=
  forall g, In g (olist (d_gen_dates D)) -> exists y, g = GYearless y /\ valid_yl y.

(* one flag per index entry, true exactly for the entries satisfying [P] *)
Definition marks {A} (P : A -> Prop) (idx : list A) (mask : list bool) : Prop :=
  Forall2 (fun t b => b = true <-> P t) idx mask.

(* [kept] is the subsequence of [l] of the elements satisfying [P] *)
Inductive subsequence {A} (P : A -> Prop) : list A -> list A -> Prop :=
| ss_nil : subsequence P [] []
| ss_keep : forall a l k, P a -> subsequence P l k -> subsequence P (a :: l) (a :: k)
| ss_drop : forall a l k, ~ P a -> subsequence P l k -> subsequence P (a :: l) k.

(* [out] is [l] with the rows not satisfying [P] blanked *)
Definition blanked (P : ts -> Prop) (l out : list frow) : Prop :=
  Forall2 (fun r o => fst o = fst r /\
     (P (fst r) -> o = r) /\
     (~ P (fst r) -> snd o = repeat None (List.length (snd r)))) l out.

(* the meteorological season of a month *)
Definition season_of (t : ts) : string :=
  let m := dm (t_date t) in
  if (3 <=? m) && (m <=? 5) then "MAM"%string
  else if (6 <=? m) && (m <=? 8) then "JJA"%string
  else if (9 <=? m) && (m <=? 11) then "SON"%string
  else "DJF"%string.
Definition seasons : list string := ["DJF"; "MAM"; "JJA"; "SON"]%string.

(* a yearless range that can be written down: valid end points, not a range inside 29 February *)
Definition usable_range (r : yearless * yearless) : Prop :=
  valid_yl (fst r) /\ valid_yl (snd r) /\ ~ within_feb29 r.

(* the season is reached: the whole range for plain ranges; for ranges over New Year the part of
   the starting year, or the part of the following year if the index has data of the starting year *)
Definition season_reached (idx : list ts) (r : yearless * yearless) (t : ts) : Prop :=
  ~ wraps r \/ moment_le (moment_of_yl (fst r)) (moment_of_ts t) \/
  exists t', In t' idx /\ dy (t_date t') = dy (t_date t) - 1.
