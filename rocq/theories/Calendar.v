(* Proleptic Gregorian calendar as used by datetime/pandas and by cadati's doy. *)
From Verif Require Export Base.

(* python calendar.isleap *)
Definition leap (y : Z) : bool :=
  ((y mod 4 =? 0) && negb (y mod 100 =? 0)) || (y mod 400 =? 0).

(* days of a month (1..12) in a leap or common year *)
Definition month_len (lp : bool) (m : Z) : Z :=
  if m =? 2 then (if lp then 29 else 28)
  else if (m =? 4) || (m =? 6) || (m =? 9) || (m =? 11) then 30 else 31.
Definition days_in_month (y m : Z) : Z := month_len (leap y) m.

Record date := mkDate { dy : Z; dm : Z; dd : Z }.
Definition valid_date (d : date) : Prop :=
  1 <= dm d <= 12 /\ 1 <= dd d <= days_in_month (dy d) (dm d).

(* cadati.conv_doy.doy (external): days before each month in a leap year *)
Definition days_past (m : Z) : Z :=
  nth (Z.to_nat (m - 1)) [0; 31; 60; 91; 121; 152; 182; 213; 244; 274; 305; 335; 366] 0.

(* doy(month, day) and doy(month, day, year): with a year, one day less after February
   in common years *)
Definition doy (m d : Z) : Z := days_past m + d.
Definition doy_year (m d y : Z) : Z :=
  if negb (leap y) && (2 <? m) then days_past m + d - 1 else days_past m + d.

(* chronological order of dates *)
Definition date_lt (a b : date) : Prop :=
  dy a < dy b \/ (dy a = dy b /\ (dm a < dm b \/ (dm a = dm b /\ dd a < dd b))).
Definition date_ltb (a b : date) : bool :=
  (dy a <? dy b) || ((dy a =? dy b) && ((dm a <? dm b) || ((dm a =? dm b) && (dd a <? dd b)))).
