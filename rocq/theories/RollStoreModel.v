(* Model of the direct computation of the rolling metrics with its storage in 32 bits:
   /repo/src/pytesmo/metrics/deprecated.py 439-507, rolling_pr_rmsd.

   As RollRefModel, but the arrays pr_arr and rmsd_arr (464-465) hold single precision numbers, and the p-value is
   computed from the stored correlation.  Simplifications: the arithmetic between two assignments is exact; results
   too large for single precision (overflow to infinity) are not modelled. *)
From Coq Require Import Reals List ZArith.
From Flocq Require Import Core.
From Verif Require Export RollRefModel.
Open Scope R_scope.

(* assignment to an entry of an array of dtype float32 *)
Definition single (x : R) : R := round radix2 (FLT_exp (-149) 24) ZnearestE x.

Section Reference32.
Variable betainc : R -> R -> R -> R.
Variable junk : nat -> option R.
Variable ts : list R.
Variable d : pairs.
Variable window : R.
Variable center : bool.
Variable min_periods : Z.

(* 468-505: one iteration *)
Definition ref_step32 (i : nat) : ref_row :=
  let idx := inside_idx ts window center i in
  let n_obs := Z.of_nat (List.length idx) in
  if orb (Z.eqb n_obs 0) (Z.ltb n_obs min_periods) then RefRow None None (junk i)
  else
    let first := hd 0%nat idx in
    let stop := S (last idx 0%nat) in
    let sub := firstn (stop - first) (skipn first d) in
    let r := option_map single (np_corrcoef sub) in
    RefRow r (Some (single (ref_p betainc r (IZR n_obs))))
           (option_map single (obind (fdiv (rsum (map (fun p => (fst p - snd p) ^ 2) sub)) (rlen sub - 0)) np_sqrt)).
Definition ref_rolling32 : list ref_row := map ref_step32 (seq 0 (List.length ts)).
End Reference32.
