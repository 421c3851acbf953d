(* Model of rolling_pr_rmsd: /repo/src/pytesmo/metrics/_fast_pairwise.pyx 343-489.

   Simplifications: time stamps and values are real numbers (no NaN); `upper` is kept as the exclusive
   bound hi = upper + 1, so that it starts at 0; time stamps and values have the same length. *)
From Coq Require Import Reals List ZArith.
From Verif Require Export MetricsModel.

Section Rolling.
Variable betainc : R -> R -> R -> R.
Variable ts : list R.
Variable d : pairs.
Variable window : R.
Variable center : bool.
Variable min_periods : Z.

Definition n_ts : nat := List.length ts.
Definition t_at (i : nat) : R := nth i ts 0.
Definition d_at (i : nat) : R * R := nth i d (0, 0).
Definition rltb (a b : R) : bool := if Rlt_dec a b then true else false.
Definition rleb (a b : R) : bool := if Rle_dec a b then true else false.

(* `for j in js: v = j; if stop j: break` *)
Fixpoint scan (stop : nat -> bool) (js : list nat) (v : nat) : nat :=
  match js with
  | [] => v
  | j :: r => if stop j then j else scan stop r j
  end.
Definition from_to (a b : nat) : list nat := seq a (b - a).

(* 409-414 and 436-439: the new start *)
Definition find_lower (i lower : nat) : nat :=
  if center then scan (fun j => rleb (t_at i - window) (t_at j)) (from_to lower n_ts) lower
  else scan (fun j => rltb (t_at i - window) (t_at j)) (from_to lower n_ts) lower.

(* 416-434 and 440: the new end; hi = upper + 1, `upper = 1` is hi = 2, `upper = j - 1` is hi = j *)
Definition find_hi (i hi : nat) : nat :=
  if center then
    if rltb (t_at i + window) (t_at (n_ts - 1)) then
      let hi := if Nat.eqb i 0 then 2%nat else hi in
      scan (fun j => rltb (t_at i + window) (t_at j)) (from_to (hi - 1) n_ts) hi
    else n_ts
  else S i.

Record rstate := RS { r_n : R; r_mx : R; r_my : R; r_msd : R; r_M2x : R; r_M2y : R; r_C : R }.

(* 448-457: add one sample *)
Definition r_add (s : rstate) (p : R * R) : rstate :=
  let mxold := r_mx s in
  let myold := r_my s in
  let nobs := r_n s + 1 in
  let mx := r_mx s + (fst p - r_mx s) / nobs in
  let my := r_my s + (snd p - r_my s) / nobs in
  RS nobs mx my
     (r_msd s + ((fst p - snd p) ^ 2 - r_msd s) / nobs)
     (r_M2x s + (fst p - mx) * (fst p - mxold))
     (r_M2y s + (snd p - my) * (snd p - myold))
     (r_C s + (fst p - mx) * (snd p - myold)).

(* 462-471: remove one sample *)
Definition r_sub (s : rstate) (p : R * R) : rstate :=
  let mxold := r_mx s in
  let myold := r_my s in
  let nobs := r_n s - 1 in
  let mx := r_mx s - (fst p - r_mx s) / nobs in
  let my := r_my s - (snd p - r_my s) / nobs in
  RS nobs mx my
     (r_msd s - ((fst p - snd p) ^ 2 - r_msd s) / nobs)
     (r_M2x s - (fst p - mxold) * (fst p - mx))
     (r_M2y s - (snd p - myold) * (snd p - my))
     (r_C s - (fst p - mxold) * (snd p - my)).

Definition rout := (option (R * R) * option R)%type.
Record loop := Loop { l_lower : nat; l_hi : nat; l_sums : rstate }.

(* 402-487: one iteration of the main loop *)
Definition roll_step (s : loop) (i : nat) : loop * rout :=
  let lower := find_lower i (l_lower s) in
  let hi := find_hi i (l_hi s) in
  let added := fold_left r_add (map d_at (from_to (l_hi s) hi)) (l_sums s) in
  let sums := fold_left r_sub (map d_at (from_to (l_lower s) lower)) added in
  let num_obs := (Z.of_nat hi - Z.of_nat lower)%Z in
  let out :=
    if orb (Z.eqb num_obs 0) (Z.ltb num_obs min_periods) then (None, None)
    else (pearsonr_from_moments betainc (r_M2x sums) (r_M2y sums) (r_C sums) (IZR num_obs), np_sqrt (r_msd sums)) in
  (Loop lower hi sums, out).

Definition loop0 : loop := Loop 0 0 (RS 0 0 0 0 0 0 0).

Fixpoint roll_loop (is : list nat) (s : loop) : list rout :=
  match is with
  | [] => []
  | i :: r => let (s', o) := roll_step s i in o :: roll_loop r s'
  end.

(* rolling_pr_rmsd *)
Definition rolling_pr_rmsd : list rout := roll_loop (seq 0 n_ts) loop0.
End Rolling.
