(* Model of the pairwise metrics in IEEE 754 arithmetic: /repo/src/pytesmo/metrics/_fast_pairwise.pyx,
   and of msd, rmsd (metrics/pairwise.py), min_max (scaling.py) and the averages of filters.pyx.

   Every operation rounds to nearest even, including overflow to infinity, underflow, NaN and signed
   zeros (Flocq).  The format is a parameter: `double` data use prec = 53, emax = 1024; all
   intermediate results are in the format of the data (for `float` data the code takes square roots
   in double, which is not covered).  `v ** 2` is v * v and no multiply-add is fused. *)
From Coq Require Import ZArith Reals List.
From Flocq Require Import Core IEEE754.BinarySingleNaN.
Import ListNotations.

Section Float.
Variables prec emax : Z.
Context (Hp : Prec_gt_0 prec) (He : Prec_lt_emax prec emax).
Notation float := (binary_float prec emax).

Definition fadd (a b : float) : float := Bplus mode_NE a b.
Definition fsub (a b : float) : float := Bminus mode_NE a b.
Definition fmul (a b : float) : float := Bmult mode_NE a b.
Definition fdiv (a b : float) : float := Bdiv mode_NE a b.
Definition fsqrt (a : float) : float := Bsqrt mode_NE a.
Definition f0 : float := B754_zero false.
Definition f1 : float := Bone.
Definition fm1 : float := Bopp f1.
(* the conversion of a C integer *)
Definition of_z (z : Z) : float := binary_normalize prec emax Hp He mode_NE z 0 false.
Definition of_n (n : nat) : float := of_z (Z.of_nat n).
Definition fsq (a : float) : float := fmul a a.

Notation fpairs := (list (float * float)).

(* _fast_pairwise.pyx 48-71: bias *)
Definition f_bias (d : fpairs) : float :=
  fdiv (fold_left (fun b p => fadd b (fsub (fst p) (snd p))) d f0) (of_n (length d)).

(* _fast_pairwise.pyx 74-95: RSS *)
Definition f_RSS (d : fpairs) : float :=
  fold_left (fun s p => fadd s (fsq (fsub (fst p) (snd p)))) d f0.

(* pairwise.py 154-189: msd, and 192-223: rmsd with ddof=0 (without data the division raises) *)
Definition f_msd (d : fpairs) : float := fdiv (f_RSS d) (of_n (length d)).
Definition f_rmsd (d : fpairs) : float := fsqrt (f_msd d).

(* _fast_pairwise.pyx 31-43: the state and one step of _moments_welford *)
Record fstate := FS { s_n : float; s_mx : float; s_my : float; s_M2x : float; s_M2y : float; s_C : float }.
Definition fs_init : fstate := FS f0 f0 f0 f0 f0 f0.
Definition fs_step (s : fstate) (p : float * float) : fstate :=
  let n := fadd (s_n s) f1 in
  let mx := fadd (s_mx s) (fdiv (fsub (fst p) (s_mx s)) n) in
  let my := fadd (s_my s) (fdiv (fsub (snd p) (s_my s)) n) in
  FS n mx my
     (fadd (s_M2x s) (fmul (fsub (fst p) mx) (fsub (fst p) (s_mx s))))
     (fadd (s_M2y s) (fmul (fsub (snd p) my) (fsub (snd p) (s_my s))))
     (fadd (s_C s) (fmul (fsub (fst p) mx) (fsub (snd p) (s_my s)))).

(* _fast_pairwise.pyx 13-44: _moments_welford *)
Record fmoments := FM { fm_x : float; fm_y : float; fm_vx : float; fm_vy : float; fm_cov : float }.
Definition f_moments (d : fpairs) : fmoments :=
  let s := fold_left fs_step d fs_init in
  let n := of_n (length d) in
  FM (s_mx s) (s_my s) (fdiv (s_M2x s) n) (fdiv (s_M2y s) n) (fdiv (s_C s) n).

(* max(a, b) and min(a, b) of cython (and of python): the second argument if it is strictly larger
   (smaller), otherwise the first; comparisons with NaN are false *)
Definition py_max (a b : float) : float := if Bltb a b then b else a.
Definition py_min (a b : float) : float := if Bltb b a then b else a.

(* _fast_pairwise.pyx 132-135, 170-173, 209-212 *)
Definition f_mse_corr (m : fmoments) : float :=
  py_max (fsub (fmul (fmul (of_z 2) (fsqrt (fm_vx m))) (fsqrt (fm_vy m))) (fmul (of_z 2) (fm_cov m))) f0.
Definition f_mse_var (m : fmoments) : float := fsq (fsub (fsqrt (fm_vx m)) (fsqrt (fm_vy m))).
Definition f_mse_bias (m : fmoments) : float := fsq (fsub (fm_x m) (fm_y m)).
(* _fast_pairwise.pyx 221-273: (mse, corr, bias, var) *)
Definition f_mse_decomposition (d : fpairs) : float * float * float * float :=
  let m := f_moments d in
  let c := f_mse_corr m in let v := f_mse_var m in let b := f_mse_bias m in
  (fadd (fadd c v) b, c, b, v).

(* _fast_pairwise.pyx 276-320: _ubrmsd *)
Definition f_ubrmsd (d : fpairs) : float :=
  match d with
  | [] => B754_nan
  | _ => let n := of_n (length d) in
         let mx := fdiv (fold_left (fun s p => fadd s (fst p)) d f0) n in
         let my := fdiv (fold_left (fun s p => fadd s (snd p)) d f0) n in
         fsqrt (fdiv (fold_left (fun s p => fadd s (fsq (fsub (fsub (fst p) mx) (fsub (snd p) my)))) d f0) n)
  end.

Section PValue.
(* scipy.special.betainc *)
Variable betainc : float -> float -> float -> float.
Definition half : float := fdiv f1 (of_z 2).

(* _fast_pairwise.pyx 323-341: _pearsonr_from_moments *)
Definition f_pearson (vx vy c : float) (n : Z) : float * float :=
  if (Beqb vx f0 || Beqb vy f0)%bool then (B754_nan, B754_nan) else
  let r := py_max fm1 (py_min (fdiv c (fsqrt (fmul vx vy))) f1) in
  if Beqb (Babs r) f1 then (r, f0) else
  let df := of_z (n - 2) in
  let t2 := fmul (fmul r r) (fdiv df (fmul (fsub f1 r) (fadd f1 r))) in
  let z := py_min (fdiv df (fadd df t2)) f1 in
  (r, betainc (fmul half df) half z).

(* metric_calculators.py 1496, 1668: the correlation of two series *)
Definition f_pearson_of (d : fpairs) : float * float :=
  let m := f_moments d in f_pearson (fm_vx m) (fm_vy m) (fm_cov m) (Z.of_nat (length d)).

(* ---- rolling_pr_rmsd, _fast_pairwise.pyx 347-489; upper is kept as hi = upper + 1 ---- *)
Variable ts : list float.
Variable d : fpairs.
Variable window : float.
Variable center : bool.
Variable min_periods : Z.

Definition n_ts : nat := length ts.
Definition t_at (i : nat) : float := nth i ts f0.
Definition d_at (i : nat) : float * float := nth i d (f0, f0).
(* for j in js: v = j; if stop j: break *)
Fixpoint scan (stop : nat -> bool) (js : list nat) (v : nat) : nat :=
  match js with [] => v | j :: r => if stop j then j else scan stop r j end.
Definition from_to (a b : nat) : list nat := seq a (b - a).
(* 409-414, 436-439 *)
Definition find_lower (i lower : nat) : nat :=
  if center then scan (fun j => Bleb (fsub (t_at i) window) (t_at j)) (from_to lower n_ts) lower
  else scan (fun j => Bltb (fsub (t_at i) window) (t_at j)) (from_to lower n_ts) lower.
(* 416-434, 440 *)
Definition find_hi (i hi : nat) : nat :=
  if center then
    if Bltb (fadd (t_at i) window) (t_at (n_ts - 1)) then
      let hi := if Nat.eqb i 0 then 2%nat else hi in
      scan (fun j => Bltb (fadd (t_at i) window) (t_at j)) (from_to (hi - 1) n_ts) hi
    else n_ts
  else S i.

(* 448-471: add and remove one sample; msd is kept beside the moments *)
Definition froll := (fstate * float)%type.
Definition f_add (s : froll) (p : float * float) : froll :=
  let st := fs_step (fst s) p in
  (st, fadd (snd s) (fdiv (fsub (fsq (fsub (fst p) (snd p))) (snd s)) (s_n st))).
Definition f_remove (s : froll) (p : float * float) : froll :=
  let o := fst s in
  let n := fsub (s_n o) f1 in
  let mx := fsub (s_mx o) (fdiv (fsub (fst p) (s_mx o)) n) in
  let my := fsub (s_my o) (fdiv (fsub (snd p) (s_my o)) n) in
  (FS n mx my
      (fsub (s_M2x o) (fmul (fsub (fst p) (s_mx o)) (fsub (fst p) mx)))
      (fsub (s_M2y o) (fmul (fsub (snd p) (s_my o)) (fsub (snd p) my)))
      (fsub (s_C o) (fmul (fsub (fst p) (s_mx o)) (fsub (snd p) my))),
   fsub (snd s) (fdiv (fsub (fsq (fsub (fst p) (snd p))) (snd s)) n)).

(* 402-487: the main loop: R, p-value and RMSD per time stamp *)
Definition frow := ((float * float) * float)%type.
Definition f_roll_step (s : nat * nat * froll) (i : nat) : (nat * nat * froll) * frow :=
  let '(lold, hold, sums) := s in
  let lower := find_lower i lold in
  let hi := find_hi i hold in
  let added := fold_left f_add (map d_at (from_to hold hi)) sums in
  let sums := fold_left f_remove (map d_at (from_to lold lower)) added in
  let num_obs := (Z.of_nat hi - Z.of_nat lower)%Z in
  let out :=
    if (Z.eqb num_obs 0 || Z.ltb num_obs min_periods)%bool then ((B754_nan, B754_nan), B754_nan)
    else (f_pearson (s_M2x (fst sums)) (s_M2y (fst sums)) (s_C (fst sums)) num_obs, fsqrt (snd sums)) in
  ((lower, hi, sums), out).
Fixpoint f_roll_loop (is : list nat) (s : nat * nat * froll) : list frow :=
  match is with [] => [] | i :: r => let (s', o) := f_roll_step s i in o :: f_roll_loop r s' end.
Definition f_rolling : list frow := f_roll_loop (seq 0 n_ts) (0%nat, 0%nat, (fs_init, f0)).
End PValue.

(* np.min and np.max: a NaN is propagated *)
Definition np_min2 (a b : float) : float := if is_nan a then a else if is_nan b then b else if Bltb b a then b else a.
Definition np_max2 (a b : float) : float := if is_nan a then a else if is_nan b then b else if Bltb a b then b else a.
Definition np_min (x : float) (l : list float) : float := fold_left np_min2 l x.
Definition np_max (x : float) (l : list float) : float := fold_left np_max2 l x.

(* scaling.py 143-162: min_max of the non-empty arrays x :: src and r :: ref *)
Definition f_min_max (x : float) (src : list float) (r : float) (ref : list float) : list float :=
  let smin := np_min x src in let smax := np_max x src in
  let rmin := np_min r ref in let rmax := np_max r ref in
  map (fun v => fadd (fmul (fdiv (fsub v smin) (fsub smax smin)) (fsub rmax rmin)) rmin) (x :: src).

(* filters.pyx 148-176: sum / nobs of the values in the window, in the order in which they are met *)
Definition f_mean (l : list float) : float := fdiv (fold_left fadd l f0) (of_n (length l)).
End Float.
