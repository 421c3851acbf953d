(* Model of the direct computation of the rolling metrics that is kept for testing the incremental one:
   /repo/src/pytesmo/metrics/deprecated.py 439-507, rolling_pr_rmsd.

   Simplifications: time stamps and values are real numbers (no NaN, no storage in 32 bits); the arrays have
   the same length.  `np.empty` (465-466): an entry that is never written keeps what the memory held, an
   arbitrary value `junk i`. *)
From Coq Require Import Reals List ZArith.
From Verif Require Export MetricsModel.

Section Reference.
Variable betainc : R -> R -> R -> R.
Variable junk : nat -> option R.
Variable ts : list R.
Variable d : pairs.
Variable window : R.
Variable center : bool.
Variable min_periods : Z.

Definition ref_time (i : nat) : R := nth i ts 0.

(* 470-475: `inside_window` at position j for time stamp i *)
Definition inside_window (i j : nat) : bool :=
  let time_diff := ref_time j - ref_time i in
  if center then if Rle_dec (Rabs time_diff) window then true else false
  else andb (if Rle_dec time_diff 0 then true else false) (if Rlt_dec (- window) time_diff then true else false).

(* 477: np.nonzero(inside_window)[0] *)
Definition inside_idx (i : nat) : list nat := filter (inside_window i) (seq 0 (List.length ts)).

(* np.corrcoef(x, y)[0, 1]: covariance with n - 1 in the denominator, divided by the two standard
   deviations one after the other, clipped to [-1, 1]; NaN (None) for one sample or a constant series *)
Definition np_corrcoef (s : pairs) : option R :=
  let mx := rmean (xs s) in
  let my := rmean (ys s) in
  let ssq f := rsum (map f s) in
  obind (fdiv (ssq (fun p => (fst p - mx) * (snd p - my))) (rlen s - 1)) (fun c =>
  obind (fdiv (ssq (fun p => (fst p - mx) * (fst p - mx))) (rlen s - 1)) (fun vx =>
  obind (fdiv (ssq (fun p => (snd p - my) * (snd p - my))) (rlen s - 1)) (fun vy =>
  obind (fdiv c (sqrt vx)) (fun a =>
  obind (fdiv a (sqrt vy)) (fun r => Some (Rmax (-1) (Rmin r 1))))))).

(* 488-500: the p-value; for r = NaN the comparison `x < 1.0` is False and x becomes 1 *)
Definition ref_p (r : option R) (n_obs : R) : R :=
  let df := n_obs - 2 in
  match r with
  | None => betainc (1 / 2 * df) (1 / 2) 1
  | Some r =>
      if Req_EM_T (Rabs r) 1 then 0
      else let t_squared := r * r * (df / ((1 - r) * (1 + r))) in
           let x := df / (df + t_squared) in
           betainc (1 / 2 * df) (1 / 2) (if Rlt_dec x 1 then x else 1)
  end.

(* one row of pr_arr and one entry of rmsd_arr *)
Record ref_row := RefRow { ref_R : option R; ref_pR : option R; ref_rmsd : option R }.

(* 469-505: one iteration *)
Definition ref_step (i : nat) : ref_row :=
  let idx := inside_idx i in
  let n_obs := Z.of_nat (List.length idx) in
  if orb (Z.eqb n_obs 0) (Z.ltb n_obs min_periods) then RefRow None None (junk i)
  else
    let first := hd 0%nat idx in
    let stop := S (last idx 0%nat) in
    let sub := firstn (stop - first) (skipn first d) in
    let r := np_corrcoef sub in
    RefRow r (Some (ref_p r (IZR n_obs)))
           (obind (fdiv (rsum (map (fun p => (fst p - snd p) ^ 2) sub)) (rlen sub - 0)) np_sqrt).

(* rolling_pr_rmsd *)
Definition ref_rolling : list ref_row := map ref_step (seq 0 (List.length ts)).
End Reference.
