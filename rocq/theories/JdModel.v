(* Time stamps of RollingMetrics as Julian dates in double precision:
   /repo/src/pytesmo/validation_framework/metric_calculators.py 1357-1360 (RollingMetrics.calc_metrics). *)
From Coq Require Import ZArith List.
From Flocq Require Import Core IEEE754.BinarySingleNaN.
From Verif Require Import Calendar FloatModel.
Import ListNotations.
Open Scope Z_scope.

(* an entry of the index of the data frame: date, hour, minute, second, microsecond and nanosecond as the attributes of
   a pandas DatetimeIndex return them *)
Record stamp := Stamp { st_date : date; st_h : Z; st_mi : Z; st_s : Z; st_us : Z; st_ns : Z }.

(* pandas.DatetimeIndex.to_julian_date (external), the part of the date without the constant 0.5: for January and
   February month += 12 and year -= 1;
   day + fix((153 * month - 457) / 5) + 365 * year + floor(year / 4) - floor(year / 100) + floor(year / 400) + 1721118.
   All terms are whole numbers (the quotient by 5 is at least 1/5 away from the next larger whole number, so that its
   rounding does not matter), and are kept in Z here. *)
Definition jd_days (d : date) : Z :=
  let m := if dm d <? 3 then dm d + 12 else dm d in
  let y := if dm d <? 3 then dy d - 1 else dy d in
  dd d + (153 * m - 457) / 5 + 365 * y + y / 4 - y / 100 + y / 400 + 1721118.

Definition ns_per_day : Z := 86400 * 10 ^ 9.

Section Jd.
Variables prec emax : Z.
Context (Hp : Prec_gt_0 prec) (He : Prec_lt_emax prec emax).
Notation float := (binary_float prec emax).
Notation fadd := (fadd prec emax Hp He).
Notation fdiv := (fdiv prec emax Hp He).
Notation of_z := (of_z prec emax Hp He).

(* (hour + minute / 60 + second / 3600 + microsecond / 3600 / 10**6 + nanosecond / 3600 / 10**9) / 24 *)
Definition jd_fraction (s : stamp) : float :=
  fdiv (fadd (fadd (fadd (fadd (of_z (st_h s)) (fdiv (of_z (st_mi s)) (of_z 60)))
                         (fdiv (of_z (st_s s)) (of_z 3600)))
                   (fdiv (fdiv (of_z (st_us s)) (of_z 3600)) (of_z (10 ^ 6))))
             (fdiv (fdiv (of_z (st_ns s)) (of_z 3600)) (of_z (10 ^ 9))))
       (of_z 24).
(* the date part ends with 1721118.5; the sum with the fraction is the last operation *)
Definition julian_date (s : stamp) : float := fadd (fdiv (of_z (2 * jd_days (st_date s) + 1)) (of_z 2)) (jd_fraction s).

(* metric_calculators.py 1358-1360: pd.Timedelta(window_size).to_numpy() / np.timedelta64(1, "D"); numpy divides the
   numbers of nanoseconds as doubles *)
Definition window_days (w_ns : Z) : float := fdiv (of_z w_ns) (of_z ns_per_day).

(* metric_calculators.py 1357-1368: the rolling metrics of a data frame *)
Definition rolling_metrics (betainc : float -> float -> float -> float) (index : list stamp) (d : list (float * float))
  (w_ns : Z) (center : bool) (min_periods : Z) : list (float * float * float) :=
  f_rolling prec emax Hp He betainc (map julian_date index) d (window_days w_ns) center min_periods.
End Jd.
