(* Model of the pairwise metrics: /repo/src/pytesmo/metrics/_fast_pairwise.pyx, pairwise.py,
   _fast.pyx and the moment based functions of deprecated.py.

   Simplifications.  Floating point numbers are idealised as real numbers.  The two equally long input
   arrays are one list of pairs (the compiled loops run over range(len(x)) without a bounds check, so
   different lengths are undefined behaviour and not modelled).  A quotient whose divisor is 0 is inf or
   NaN in C and numpy: it is None here ("no finite value"). *)
From Coq Require Import Reals List.
From Verif Require Export RStats.

(* C / numpy division: finite only for a divisor different from 0 *)
Definition fdiv (a b : R) : option R := if Req_EM_T b 0 then None else Some (a / b).
Definition omap {A B} (f : A -> B) (o : option A) : option B :=
  match o with Some a => Some (f a) | None => None end.
Definition obind {A B} (o : option A) (f : A -> option B) : option B :=
  match o with Some a => f a | None => None end.

(* ---- _fast_pairwise.pyx ---- *)

(* _fast_pairwise.pyx 31-43: the loop state of _moments_welford *)
Record wstate := W { w_n : R; w_mx : R; w_my : R; w_M2x : R; w_M2y : R; w_C : R }.
Definition w_init : wstate := W 0 0 0 0 0 0.

(* _fast_pairwise.pyx 34-42: one iteration *)
Definition w_step (s : wstate) (p : R * R) : wstate :=
  let nobs := w_n s + 1 in
  let mxold := w_mx s in
  let myold := w_my s in
  let mx := w_mx s + (fst p - w_mx s) / nobs in
  let my := w_my s + (snd p - w_my s) / nobs in
  W nobs mx my
    (w_M2x s + (fst p - mx) * (fst p - mxold))
    (w_M2y s + (snd p - my) * (snd p - myold))
    (w_C s + (fst p - mx) * (snd p - myold)).

Record moments := Moments { m_x : R; m_y : R; m_vx : R; m_vy : R; m_cov : R }.

(* _fast_pairwise.pyx 12-43: _moments_welford; for empty arrays the means are 0 and the other results
   0/0, which makes everything derived from them NaN: None *)
Definition moments_welford (d : pairs) : option moments :=
  let s := fold_left w_step d w_init in
  let n := rlen d in
  obind (fdiv (w_M2x s) n) (fun vx =>
  obind (fdiv (w_M2y s) n) (fun vy =>
  obind (fdiv (w_C s) n) (fun c => Some (Moments (w_mx s) (w_my s) vx vy c)))).

(* _fast_pairwise.pyx 48-71: bias *)
Definition bias (d : pairs) : option R :=
  fdiv (fold_left (fun b p => b + (fst p - snd p)) d 0) (rlen d).

(* _fast_pairwise.pyx 74-95: RSS *)
Definition RSS (d : pairs) : R :=
  fold_left (fun s p => s + (fst p - snd p) ^ 2) d 0.

(* _fast_pairwise.pyx 132-135, 170-173, 209-212 *)
Definition mse_corr_from_moments (m : moments) : R :=
  Rmax (2 * sqrt (m_vx m) * sqrt (m_vy m) - 2 * m_cov m) 0.
Definition mse_var_from_moments (m : moments) : R := (sqrt (m_vx m) - sqrt (m_vy m)) ^ 2.
Definition mse_bias_from_moments (m : moments) : R := (m_x m - m_y m) ^ 2.

(* _fast_pairwise.pyx 98-129, 138-167: mse_corr, mse_var; 176-206: mse_bias *)
Definition mse_corr (d : pairs) : option R := omap mse_corr_from_moments (moments_welford d).
Definition mse_var (d : pairs) : option R := omap mse_var_from_moments (moments_welford d).
Definition mse_bias (d : pairs) : option R := omap (fun b => b ^ 2) (bias d).

(* _fast_pairwise.pyx 221-273: mse_decomposition: (mse, corr, bias, var) *)
Definition mse_decomposition (d : pairs) : option (R * R * R * R) :=
  omap (fun m =>
    let c := mse_corr_from_moments m in
    let v := mse_var_from_moments m in
    let b := mse_bias_from_moments m in
    (c + v + b, c, b, v)) (moments_welford d).

(* _fast_pairwise.pyx 276-320: _ubrmsd *)
Definition c_ubrmsd (d : pairs) : option R :=
  obind (fdiv (fold_left (fun s p => s + fst p) d 0) (rlen d)) (fun mx =>
  obind (fdiv (fold_left (fun s p => s + snd p) d 0) (rlen d)) (fun my =>
  omap sqrt (fdiv (fold_left (fun s p => s + ((fst p - mx) - (snd p - my)) ^ 2) d 0) (rlen d)))).

Section PValue.
(* scipy.special.betainc *)
Variable betainc : R -> R -> R -> R.

(* _fast_pairwise.pyx 336-340: the p-value of a correlation with |R| <> 1 *)
Definition p_arg (r df : R) : R :=
  let t2 := r * r * (df / ((1 - r) * (1 + r))) in Rmin (df / (df + t2)) 1.

(* _fast_pairwise.pyx 323-341: _pearsonr_from_moments; (nan, nan) is None *)
Definition pearsonr_from_moments (vx vy c n : R) : option (R * R) :=
  if Req_EM_T vx 0 then None else
  if Req_EM_T vy 0 then None else
  let r := Rmax (-1) (Rmin (c / sqrt (vx * vy)) 1) in
  if Req_EM_T (Rabs r) 1 then Some (r, 0)
  else let df := n - 2 in Some (r, betainc (1 / 2 * df) (1 / 2) (p_arg r df)).

(* metric_calculators.py 1668, 1496: the correlation of two series as the calculators compute it *)
Definition pearson_of (d : pairs) : option (R * R) :=
  obind (moments_welford d) (fun m => pearsonr_from_moments (m_vx m) (m_vy m) (m_cov m) (rlen d)).
End PValue.

(* ---- pairwise.py ---- *)

(* np.mean *)
Definition np_mean (l : list R) : option R := fdiv (rsum l) (rlen l).

(* pairwise.py 116-132: aad *)
Definition aad (d : pairs) : option R := np_mean (map (fun p => Rabs (fst p - snd p)) d).

(* np.median: sort, then the middle element or the mean of the two middle elements *)
Fixpoint r_insert (x : R) (l : list R) : list R :=
  match l with [] => [x] | y :: r => if Rle_dec x y then x :: y :: r else y :: r_insert x r end.
Fixpoint r_sort (l : list R) : list R := match l with [] => [] | x :: r => r_insert x (r_sort r) end.
Definition np_median (l : list R) : option R :=
  match l with
  | [] => None
  | _ => let s := r_sort l in
         let n := List.length l in
         if Nat.even n then Some ((nth (Nat.div2 n - 1) s 0 + nth (Nat.div2 n) s 0) / 2)
         else Some (nth (Nat.div2 n) s 0)
  end.

(* pairwise.py 135-151: mad *)
Definition mad (d : pairs) : option R := np_median (map (fun p => Rabs (fst p - snd p)) d).

(* pairwise.py 154-189: msd *)
Definition msd (d : pairs) : option R := fdiv (RSS d) (rlen d).

(* np.sqrt: NaN for negative arguments *)
Definition np_sqrt (x : R) : option R := if Rlt_dec x 0 then None else Some (sqrt x).

(* pairwise.py 192-223: rmsd *)
Definition rmsd (d : pairs) (ddof : R) : option R :=
  if Req_EM_T ddof 0 then obind (msd d) np_sqrt
  else obind (fdiv (RSS d) (rlen d - ddof)) np_sqrt.

(* np.max / np.min of a non-empty array *)
Fixpoint r_max (x : R) (l : list R) : R := match l with [] => x | y :: r => r_max (Rmax x y) r end.
Fixpoint r_min (x : R) (l : list R) : R := match l with [] => x | y :: r => r_min (Rmin x y) r end.

(* pairwise.py 226-249: nrmsd *)
Definition nrmsd (d : pairs) (ddof : R) : option R :=
  match xs d ++ ys d with
  | [] => None
  | v :: r => obind (rmsd d ddof) (fun e => fdiv e (r_max v r - r_min v r))
  end.

(* pairwise.py 252-294: ubrmsd *)
Definition ubrmsd (d : pairs) (ddof : R) : option R :=
  if Req_EM_T ddof 0 then c_ubrmsd d
  else obind (np_mean (xs d)) (fun mx => obind (np_mean (ys d)) (fun my =>
       obind (fdiv (RSS (map (fun p => (fst p - mx, snd p - my)) d)) (rlen d - ddof)) np_sqrt)).

(* pairwise.py 497-523: index_of_agreement(o, p); a pair is (observation, prediction) *)
Definition index_of_agreement (d : pairs) : option R :=
  obind (np_mean (xs d)) (fun mo =>
  let denom := rsum (map (fun q => (Rabs (snd q - mo) + Rabs (fst q - mo)) ^ 2) d) in
  omap (fun v => 1 - v) (fdiv (RSS d) denom)).

(* pairwise.py 526-542: nash_sutcliffe(o, p) *)
Definition nash_sutcliffe (d : pairs) : option R :=
  obind (np_mean (xs d)) (fun mo =>
  omap (fun v => 1 - v) (fdiv (rsum (map (fun q => (fst q - snd q) ^ 2) d))
                              (rsum (map (fun q => (fst q - mo) ^ 2) d)))).

(* ---- deprecated.py ---- *)

(* deprecated.py 279-336: the parameters of pearsonr_recursive *)
Record prec := Prec { p_n : R; p_xy : R; p_sx : R; p_sy : R; p_x2 : R; p_y2 : R }.
Definition prec0 : prec := Prec 0 0 0 0 0 0.

(* deprecated.py 323-336: pearsonr_recursive; the square root of a negative number would be NaN *)
Definition pearsonr_recursive (s : prec) (d : pairs) : option R * prec :=
  let n := p_n s + rlen d in
  let sxy := p_xy s + rsum (map (fun p => fst p * snd p) d) in
  let sx := p_sx s + rsum (xs d) in
  let sy := p_sy s + rsum (ys d) in
  let sx2 := p_x2 s + rsum (map (fun x => x ^ 2) (xs d)) in
  let sy2 := p_y2 s + rsum (map (fun y => y ^ 2) (ys d)) in
  (obind (np_sqrt (n * sx2 - sx ^ 2)) (fun a =>
   obind (np_sqrt (n * sy2 - sy ^ 2)) (fun b => fdiv (n * sxy - sx * sy) (a * b))),
   Prec n sxy sx sy sx2 sy2).

(* repeated calls `r, params = pearsonr_recursive(x, y, *params)`: the last r and parameters *)
Definition pearsonr_chunks (chunks : list pairs) : option R * prec :=
  fold_left (fun rs d => pearsonr_recursive (snd rs) d) chunks (None, prec0).

(* deprecated.py 199-246: mse(x, y, ddof); np.std(ddof), scipy.stats.pearsonr written out *)
Definition np_std (l : list R) (ddof : R) : option R :=
  obind (np_mean l) (fun m =>
  obind (fdiv (rsum (map (fun x => (x - m) ^ 2) l)) (rlen l - ddof)) np_sqrt).
Definition sp_pearsonr (d : pairs) : option R :=
  obind (np_mean (xs d)) (fun mx => obind (np_mean (ys d)) (fun my =>
  omap (fun r => Rmax (-1) (Rmin r 1))
    (fdiv (rsum (map (fun p => (fst p - mx) * (snd p - my)) d))
          (sqrt (rsum (map (fun x => (x - mx) ^ 2) (xs d)))
           * sqrt (rsum (map (fun y => (y - my) ^ 2) (ys d))))))).
Definition old_mse (d : pairs) (ddof : R) : option (R * R * R * R) :=
  obind (np_std (xs d) ddof) (fun sx => obind (np_std (ys d) ddof) (fun sy =>
  obind (sp_pearsonr d) (fun r => omap (fun b =>
    let c := 2 * sx * sy * (1 - r) in
    let bb := b ^ 2 in
    let v := (sx - sy) ^ 2 in
    (c + bb + v, c, bb, v)) (bias d)))).

(* ---- _fast.pyx ---- *)

(* arrays as functions of the index; np.zeros *)
Definition upd (f : nat -> R) (j : nat) (v : R) : nat -> R := fun i => if Nat.eqb i j then v else f i.
Definition upd2 (f : nat -> nat -> R) (j k : nat) (v : R) : nat -> nat -> R :=
  fun a b => if andb (Nat.eqb a j) (Nat.eqb b k) then v else f a b.

Record ndstate := ND { nd_n : R; nd_mean : nat -> R; nd_C : nat -> nat -> R }.
Definition nd_init : ndstate := ND 0 (fun _ => 0) (fun _ _ => 0).

(* _fast.pyx 49-50: for k in range(j, d): C[j, k] += ... *)
Definition nd_inner (x : nat -> R) (mean : nat -> R) (j d : nat) (C : nat -> nat -> R) : nat -> nat -> R :=
  fold_left (fun C k => upd2 C j k (C j k + (x j - mean j) * (x k - mean k))) (seq j (d - j)) C.

(* _fast.pyx 46-50: for j in range(d) (oldmean is written but never read) *)
Definition nd_outer (x : nat -> R) (nobs : R) (d : nat) (mC : (nat -> R) * (nat -> nat -> R))
  : (nat -> R) * (nat -> nat -> R) :=
  fold_left (fun mC j =>
    let mean := upd (fst mC) j (fst mC j + (x j - fst mC j) / nobs) in
    (mean, nd_inner x mean j d (snd mC))) (seq 0 d) mC.

(* _fast.pyx 44-50: one row *)
Definition nd_step (d : nat) (s : ndstate) (x : nat -> R) : ndstate :=
  let nobs := nd_n s + 1 in
  let mC := nd_outer x nobs d (nd_mean s, nd_C s) in
  ND nobs (fst mC) (snd mC).

(* _fast.pyx 52-58: divide and mirror *)
Definition nd_finish_row (nobs : R) (j d : nat) (C : nat -> nat -> R) : nat -> nat -> R :=
  fold_left (fun C k =>
    let C := upd2 C j k (C j k / nobs) in
    if Nat.eqb k j then C else upd2 C k j (C j k)) (seq j (d - j)) C.
Definition nd_finish (nobs : R) (d : nat) (C : nat -> nat -> R) : nat -> nat -> R :=
  fold_left (fun C j => nd_finish_row nobs j d C) (seq 0 d) C.

(* _fast.pyx 12-60: _moments_welford_nd of rows with d columns; no rows: 0/0 *)
Definition moments_welford_nd (d : nat) (rows : list (nat -> R)) : option ((nat -> R) * (nat -> nat -> R)) :=
  match rows with
  | [] => None
  | _ => let s := fold_left (nd_step d) rows nd_init in
         Some (nd_mean s, nd_finish (nd_n s) d (nd_C s))
  end.
