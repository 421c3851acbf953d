(* Model of mean_std and of linreg with stored parameters in IEEE 754 arithmetic: /repo/src/pytesmo/scaling.py.
   Every operation rounds to nearest even (FloatModel.v).  The summation of numpy is a parameter, because its order depends on the
   number of values: fewer than eight values are added one after another (np_sum), more in blocks. *)
From Coq Require Import ZArith List.
From Flocq Require Import Core IEEE754.BinarySingleNaN.
From Verif Require Import FloatModel.
Import ListNotations.

Section Lin.
Variables prec emax : Z.
Context (Hp : Prec_gt_0 prec) (He : Prec_lt_emax prec emax).
Notation float := (binary_float prec emax).
Notation fadd := (fadd prec emax Hp He).
Notation fsub := (fsub prec emax Hp He).
Notation fmul := (fmul prec emax Hp He).
Notation fdiv := (fdiv prec emax Hp He).

(* the sum of fewer than eight values *)
Definition np_sum (l : list float) : float := fold_left fadd l (f0 prec emax).

Section Sum.
Variable sum : list float -> float.
(* numpy: np.mean is the sum divided by the number of values *)
Definition np_mean (l : list float) : float := fdiv (sum l) (of_n prec emax Hp He (length l)).
(* numpy: np.std is the square root of the mean of the squared deviations from np.mean *)
Definition np_std (l : list float) : float :=
  fsqrt prec emax Hp He (fdiv (sum (map (fun v => fsq prec emax Hp He (fsub v (np_mean l))) l)) (of_n prec emax Hp He (length l))).
(* scaling.py 227-244: mean_std *)
Definition f_mean_std (src ref : list float) : list float :=
  map (fun v => fadd (fmul (fdiv (fsub v (np_mean src)) (np_std src)) (np_std ref)) (np_mean ref)) src.
End Sum.

(* scaling.py 165-183: linreg_stored_params *)
Definition f_linreg_stored (src : list float) (slope intercept : float) : list float :=
  map (fun v => fadd (fmul (Babs slope) v) intercept) src.
End Lin.
