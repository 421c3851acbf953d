(* The windows of the rolling metrics. *)
From Coq Require Import Reals List.
From Verif Require Export RStats.

(* the samples whose time stamp is at most w away from t *)
Definition centred_window (ts : list R) (d : pairs) (w t : R) : pairs :=
  map snd (filter (fun s => if Rle_dec (Rabs (fst s - t)) w then true else false) (combine ts d)).

(* the samples up to and including number i that are less than w older than sample i *)
Definition trailing_window (ts : list R) (d : pairs) (w : R) (i : nat) : pairs :=
  map snd (filter (fun s => if Rlt_dec (nth i ts 0 - w) (fst s) then true else false) (firstn (S i) (combine ts d))).

(* chronological order (equal time stamps allowed) *)
Definition chronological (ts : list R) : Prop :=
  forall i j, (i <= j)%nat -> (j < List.length ts)%nat -> nth i ts 0 <= nth j ts 0.
