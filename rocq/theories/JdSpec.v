(* Points in time as numbers of nanoseconds, and windows of the rolling metrics. *)
From Coq Require Import ZArith List.
From Verif Require Import Calendar JdModel.
Import ListNotations.
Open Scope Z_scope.

(* number of a day (python's date.toordinal): the days of the years before, and the day of the year *)
Definition ordinal (d : date) : Z :=
  365 * (dy d - 1) + (dy d - 1) / 4 - (dy d - 1) / 100 + (dy d - 1) / 400 + doy_year (dm d) (dd d) (dy d).
(* nanoseconds since midnight, and the point in time *)
Definition ns_of_day (s : stamp) : Z := ((st_h s * 60 + st_mi s) * 60 + st_s s) * 10 ^ 9 + st_us s * 1000 + st_ns s.
Definition ns_time (s : stamp) : Z := ordinal (st_date s) * (24 * 60 * 60 * 10 ^ 9) + ns_of_day s.

(* a time stamp pandas can represent (full years of its range) *)
Definition valid_stamp (s : stamp) : Prop :=
  valid_date (st_date s) /\ 1678 <= dy (st_date s) <= 2261 /\
  0 <= st_h s < 24 /\ 0 <= st_mi s < 60 /\ 0 <= st_s s < 60 /\ 0 <= st_us s < 10 ^ 6 /\ 0 <= st_ns s < 1000.

(* chronological order *)
Definition in_order (l : list stamp) : Prop :=
  forall i j a b, (i <= j)%nat -> nth_error l i = Some a -> nth_error l j = Some b -> ns_time a <= ns_time b.

(* the samples in the window (of w nanoseconds) of the sample number i: centred, those at most w away; otherwise those up to number i
   that are less than w older *)
Definition time_at (l : list stamp) (i : nat) : Z := match nth_error l i with Some s => ns_time s | None => 0 end.
Definition window_of {A} (center : bool) (l : list stamp) (w : Z) (d : list A) (i : nat) : list A :=
  if center then map snd (filter (fun p => Z.abs (ns_time (fst p) - time_at l i) <=? w) (combine l d))
  else map snd (filter (fun p => time_at l i - w <? ns_time (fst p)) (firstn (S i) (combine l d))).

(* a time in whole milliseconds *)
Definition in_ms (s : stamp) : Prop := exists m, ns_time s = m * 10 ^ 6.
(* the distance of two time stamps differs clearly (by 200 microseconds) from the window, or both are the same number of whole days, or
   (for times in whole milliseconds) the same number of 128th parts of a day: 12 hours, 6 hours, 3 hours, 90 minutes, 45 minutes, ... *)
Definition clear_of (w : Z) (a b : stamp) : Prop :=
  let dist := Z.abs (ns_time a - ns_time b) in
  200000 <= Z.abs (dist - w) \/
  (dist = w /\ ((exists k, w = k * (24 * 60 * 60 * 10 ^ 9)) \/ (in_ms a /\ in_ms b /\ exists k, w = k * (675 * 10 ^ 9)))).
