(* Independent specification of the filters. *)
From Verif Require Import Base FiltersModel.
From Coq Require Import Reals.

(* a value counts as missing if it is NaN or equals the sentinel *)
Definition missing (nan : Q) (c : cell) : Prop :=
  match c with None => True | Some v => (v == nan)%Q end.

(* the non-missing values of the series within distance limit of time t *)
Fixpoint near_values (nan limit t : Q) (pts : list point) : list Q :=
  match pts with
  | [] => []
  | (s, Some v) :: r =>
      if negb (Qeq_bool v nan) && Qle_bool (Qabs (s - t)) limit
      then v :: near_values nan limit t r else near_values nan limit t r
  | (s, None) :: r => near_values nan limit t r
  end.

(* what a user expects of the centred moving average at time t *)
Definition average_at (nan window : Q) (min_obs : Z) (pts : list point) (t : Q) : cell :=
  let v := near_values nan (window / 2)%Q t pts in
  if min_obs <=? Z.of_nat (List.length v) then Some (qmean v) else None.

Definition time_sorted (pts : list point) : Prop :=
  StronglySorted (fun p q => (fst p <= fst q)%Q) pts.

Local Open Scope R_scope.
(* valid observations among the first points, in order *)
Fixpoint robs (nan : R) (pts : list rpoint) : list (R * R) :=
  match pts with
  | [] => []
  | (t, c) :: r => match c with
                   | None => robs nan r
                   | Some v => if Req_EM_T v nan then robs nan r else (t, v) :: robs nan r
                   end
  end.
Fixpoint rsum (l : list R) : R := match l with [] => 0 | x :: r => x + rsum r end.

(* weight of an observation made at time s for the output at time t *)
Definition exp_weight (ctime : Z) (t s : R) : R := exp (- ((t - s) / IZR ctime)).
(* exponentially weighted average of observations at time t *)
Definition exp_average (ctime : Z) (t : R) (obs : list (R * R)) : R :=
  rsum (map (fun o => exp_weight ctime t (fst o) * snd o) obs) /
  rsum (map (fun o => exp_weight ctime t (fst o)) obs).
