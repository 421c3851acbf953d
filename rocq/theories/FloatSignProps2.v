(* C132: changing the sign of a series that is filtered, averaged or collocated by means, in IEEE 754
   arithmetic. *)
From Coq Require Import ZArith Reals List Lia Lra Bool.
From Flocq Require Import Core IEEE754.BinarySingleNaN.
From Verif Require Import Calendar FloatModel FloatSpec TypedModel ExpFloatModel BoxFloatModel JdModel MeanFloatModel FloatSignProofs FloatSignProofs2.
Import ListNotations.
Open Scope Z_scope.

(* neither the number that marks missing values nor its opposite occurs; NaN may *)
Definition no_marker (nan : double) (pts : list (double * double)) : Prop :=
  Forall (fun p => Beqb (snd p) nan = false /\ Beqb (Bopp (snd p)) nan = false) pts.
Lemma no_marker_fits : forall nan pts, no_marker nan pts -> marker_fits nan pts.
Proof.
  intros nan pts N. induction N as [|p r [A B] N IH]; constructor; [|exact IH].
  unfold f_missing. rewrite A, B. cbn [orb]. apply is_nan_Bopp.
Qed.

(* filtering the series with changed signs gives the filtered series with changed signs, bit for bit
   but for the sign of zeros: the exponential filter, the boxcar filter and the moving average *)
Theorem C132_filters :
  forall (pts : list (double * double)) (nan : double), no_marker nan pts ->
    let neg_pts := map (fun p => (fst p, Bopp (snd p))) pts in
    (forall exp64 ctime, Forall2 (opposite 53 1024) (f_exp_filter exp64 nan ctime pts) (f_exp_filter exp64 nan ctime neg_pts))
    /\ (forall window fillna min_obs,
          Forall2 (opposite 53 1024) (f_boxcar nan window fillna min_obs pts) (f_boxcar nan window fillna min_obs neg_pts)).
Proof.
  intros pts nan N neg_pts. split; intros; apply all_opposite.
  - apply exp_sign, no_marker_fits, N.
  - apply boxcar_sign, no_marker_fits, N.
Qed.
Theorem C132_moving_average :
  forall (pts : list (double * double)) window_size fillna min_obs, no_marker (z64 (-999999)) pts ->
    Forall2 (opposite 53 1024) (f_moving_average window_size fillna min_obs pts)
            (f_moving_average window_size fillna min_obs (map (fun p => (fst p, Bopp (snd p))) pts)).
Proof. intros pts window_size fillna min_obs N. apply (C132_filters pts (z64 (-999999)) N). Qed.
Definition three_days : list (double * double) := [(z64 1, z64 4); (z64 2, B754_nan); (z64 3, z64 (-7))].
Example C132_filters_case : no_marker (z64 (-999999)) three_days
  /\ map B2SF (f_moving_average (z64 5) false 1 three_days) <> map B2SF (f_moving_average (z64 5) false 1 (map (fun p => (fst p, Bopp (snd p))) three_days)).
Proof.
  split; [unfold three_days; repeat apply Forall_cons; try apply Forall_nil; split; vm_compute; reflexivity|]. vm_compute. discriminate.
Qed.
(* a value of 999999 is averaged, -999999 is a missing value *)
Theorem C132_moving_average_refuted :
  exists pts, map BinarySingleNaN.is_nan (f_moving_average (z64 5) false 1 pts) = [false]
    /\ map BinarySingleNaN.is_nan (f_moving_average (z64 5) false 1 (map (fun p => (fst p, Bopp (snd p))) pts)) = [true].
Proof. exists [(z64 1, z64 999999)]. split; vm_compute; reflexivity. Qed.

(* collocation by means, any binary format *)
Theorem C132_collocation :
  forall (prec emax : Z) (Hp : Prec_gt_0 prec) (He : Prec_lt_emax prec emax) oob ref other values w_ns,
    Forall2 (opposite prec emax) (f_collocate_mean prec emax Hp He oob ref other values w_ns)
            (f_collocate_mean prec emax Hp He oob ref other (map Bopp values) w_ns).
Proof. intros. apply all_opposite, collocate_mean_opp. Qed.

Print Assumptions C132_filters.
Print Assumptions C132_moving_average.
Print Assumptions C132_moving_average_refuted.
Print Assumptions C132_collocation.
