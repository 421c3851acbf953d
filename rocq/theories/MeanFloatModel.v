(* Collocation by means (/repo/src/pytesmo/temporal_matching.py 342-367 and 512-568) in IEEE 754 double arithmetic.

   The times of the reference and of the other frame are compared as Julian dates in double precision.  Modelled: one
   column of floating-point values, no flags; both indices in the same time zone. *)
From Coq Require Import ZArith List Bool.
From Flocq Require Import Core IEEE754.BinarySingleNaN.
From Verif Require Import Calendar FloatModel JdModel.
Import ListNotations.
Open Scope Z_scope.

Section Mean.
Variables prec emax : Z.
Context (Hp : Prec_gt_0 prec) (He : Prec_lt_emax prec emax).
Notation float := (binary_float prec emax).
Notation fadd := (fadd prec emax Hp He).
Notation fsub := (fsub prec emax Hp He).
Notation fdiv := (fdiv prec emax Hp He).
Notation of_z := (of_z prec emax Hp He).

(* np.nanmean as compiled by numba: the sum of the values that are not NaN, from left to right, divided by their number
   (0 / 0 is NaN) *)
Definition f_nanmean (l : list float) : float :=
  let v := filter (fun x => negb (BinarySingleNaN.is_nan x)) l in
  fdiv (fold_left fadd v (f0 prec emax)) (of_z (Z.of_nat (List.length v))).

(* temporal_matching.py:544-550 *)
Fixpoint f_adv_lower (lo : float) (suffix : list float) (j : nat) : nat :=
  match suffix with
  | [] => j
  | x :: r => if Bleb lo x then j else f_adv_lower lo r (S j)
  end.
(* temporal_matching.py:553-556 *)
Fixpoint f_adv_upper (hi : float) (suffix : list float) (j : Z) (upper : Z) : Z :=
  match suffix with
  | [] => upper
  | x :: r => if Bltb hi x then j - 1 else f_adv_upper hi r (j + 1) (j - 1)
  end.
(* temporal_matching.py:543-568: [oob] is what times[-1] reads when there are no times *)
Definition f_rm_step (oob : float) (times values : list float) (half : float) (st : nat * Z) (t : float) : (nat * Z) * float :=
  let '(lower, upper) := st in
  let lower' := f_adv_lower (fsub t half) (skipn lower times) lower in
  let upper' :=
    if Bltb (fadd t half) (last times oob)
    then f_adv_upper (fadd t half) (skipn (Z.to_nat (Z.max 0 upper)) times) (Z.max 0 upper) upper
    else Z.of_nat (List.length times) - 1 in
  let nobs := Z.max (upper' - Z.of_nat lower' + 1) 0 in
  let out := if nobs =? 0 then B754_nan else f_nanmean (firstn (Z.to_nat (upper' + 1 - Z.of_nat lower')) (skipn lower' values)) in
  ((lower', upper'), out).
Fixpoint f_rm_loop (oob : float) (times values : list float) (half : float) (st : nat * Z) (targets : list float) : list float :=
  match targets with
  | [] => []
  | t :: r => let (st', out) := f_rm_step oob times values half st t in out :: f_rm_loop oob times values half st' r
  end.

(* temporal_matching.py:344 and 541: window_days = 2 * window / Timedelta(1, "D"), half_window = window_days / 2.0; the
   window is a number of nanoseconds *)
Definition half_window (w_ns : Z) : float := fdiv (window_days prec emax Hp He (2 * w_ns)) (of_z 2).
(* temporal_matching.py:345, 356-361 *)
Definition f_collocate_mean (oob : float) (ref other : list stamp) (values : list float) (w_ns : Z) : list float :=
  f_rm_loop oob (map (julian_date prec emax Hp He) other) values (half_window w_ns) (0%nat, 0) (map (julian_date prec emax Hp He) ref).
End Mean.
