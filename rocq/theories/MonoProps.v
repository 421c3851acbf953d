(* C133: larger observations never give smaller averages. *)
From Coq Require Import ZArith Reals List Lia Lra Bool.
From Flocq Require Import Core IEEE754.BinarySingleNaN.
From Verif Require Import Base Calendar FloatModel FloatSpec TypedModel ExpFloatModel BoxFloatModel JdModel MeanFloatModel FloatProps FiltersModel FiltersSpec FiltersProofs ExpFilterProofs FadeProofs FadeProps AnomalyModel ClimModel MonoSpec MonoFloatProofs MonoClimProofs.
Import ListNotations.
Open Scope Z_scope.

(* Moving averages as computed (double precision, with rounding): if one series is nowhere above the other, neither are its
   moving averages; both have their missing values at the same places. *)
Theorem C133_moving_average :
  forall (p q : list (double * double)) window_size fillna min_obs,
    Forall2 (point_not_above (z64 (-999999))) p q -> Z.of_nat (List.length p) <= 2 ^ 53 ->
    Forall2 not_above (f_moving_average window_size fillna min_obs p) (f_moving_average window_size fillna min_obs q).
Proof. intros p q window_size fillna min_obs F B. apply box_le; [exact F|constructor|]. exact B. Qed.
Print Assumptions C133_moving_average.
Definition low : list (double * double) := [(z64 1, dec 1 10); (z64 2, B754_nan); (z64 3, dec (-7) 10); (z64 4, dec 2 10)].
Definition high : list (double * double) := [(z64 1, dec 1 10); (z64 2, B754_nan); (z64 3, dec 5 10); (z64 4, dec 3 10)].
Example C133_moving_average_case :
  Forall2 (point_not_above (z64 (-999999))) low high /\
  map BinarySingleNaN.is_nan (f_moving_average (z64 3) false 1 low) = [false; true; false; false] /\
  match f_moving_average (z64 3) false 1 low, f_moving_average (z64 3) false 1 high with
  | [_; _; a; b], [_; _; c; d] => Bltb a c && Bltb b d | _, _ => false end = true.
Proof.
  split; [|split; vm_compute; reflexivity]. unfold low, high. repeat constructor; cbn [fst snd];
  (left; split; vm_compute; reflexivity) || (right; split; [vm_compute; reflexivity|split; [vm_compute; reflexivity|split; [vm_compute; reflexivity|split; vm_compute; reflexivity]]]).
Qed.
(* Raising a value to -999999 removes it: the other value of the window, lower still, is left alone in the average. *)
Theorem C133_marker_refuted :
  let p := [(z64 1, z64 (-1000000)); (z64 2, z64 (-2000000))] in let q := [(z64 1, z64 (-999999)); (z64 2, z64 (-2000000))] in
  forallb (fun xy => Bleb (snd (fst xy)) (snd (snd xy))) (combine p q) = true /\
  match f_moving_average (z64 5) true 1 p, f_moving_average (z64 5) true 1 q with [a; b], [c; d] => Bltb c a && Bltb d b | _, _ => false end = true.
Proof. split; vm_compute; reflexivity. Qed.
Print Assumptions C133_marker_refuted.

(* Collocation by means as computed, in any binary format. *)
Theorem C133_collocation :
  forall (prec emax : Z) (Hp : Prec_gt_0 prec) (He : Prec_lt_emax prec emax) oob ref other (v1 v2 : list (binary_float prec emax)) w_ns,
    Forall2 datum_not_above v1 v2 -> Z.of_nat (List.length v1) <= 2 ^ prec ->
    Forall2 not_above (f_collocate_mean prec emax Hp He oob ref other v1 w_ns) (f_collocate_mean prec emax Hp He oob ref other v2 w_ns).
Proof. intros. apply loop_le; assumption. Qed.
Print Assumptions C133_collocation.
Example C133_collocation_case :
  Forall2 datum_not_above (map snd low) (map snd high) /\ Z.of_nat (List.length (map snd low)) <= 2 ^ 53 /\
  let s h := Stamp (mkDate 2020 1 1) h 0 0 0 0 in
  match dbl f_collocate_mean zero64 [s 2] [s 1; s 2; s 3; s 4] (map snd low) 10800000000000, dbl f_collocate_mean zero64 [s 2] [s 1; s 2; s 3; s 4] (map snd high) 10800000000000 with
  | [a], [b] => Bltb a b | _, _ => false end = true.
Proof.
  split; [|split; [vm_compute; discriminate|vm_compute; reflexivity]]. unfold low, high. cbn [map snd]. repeat constructor;
  (left; split; vm_compute; reflexivity) || (right; split; [vm_compute; reflexivity|split; vm_compute; reflexivity]).
Qed.

(* The exponential filter, in exact arithmetic. *)
Theorem C133_exponential :
  forall (nan : R) (ctime : Z) (rows : list (R * option (R * R))) k, unmarked nan (values1 rows) -> unmarked nan (values2 rows) ->
    (forall t x y, In (t, Some (x, y)) rows -> (x <= y)%R) ->
    match nth_error (exp_filter nan ctime (values1 rows)) k, nth_error (exp_filter nan ctime (values2 rows)) k with
    | Some (Some f), Some (Some g) => (f <= g)%R | Some None, Some None => True | None, None => True | _, _ => False end.
Proof.
  intros nan ctime rows k U1 U2 L. pose proof (unmarked_side nan _ rows U1) as V1. pose proof (unmarked_side nan _ rows U2) as V2.
  destruct (exp_filter_correct nan ctime (values1 rows)) as [L1 X1]. destruct (exp_filter_correct nan ctime (values2 rows)) as [L2 X2].
  destruct (nth_error rows k) as [[t c]|] eqn:K.
  - destruct c as [x|].
    + change (values1 rows) with (side (@fst R R) rows). change (values2 rows) with (side (@snd R R) rows).
      rewrite (side_output nan ctime _ rows k t x V1 K), (side_output nan ctime _ rows k t x V2 K). rewrite !average_as. unfold Rdiv. apply Rmult_le_compat_r.
      * assert (G : forall l : list (R * (R * R)), (0 <= rsum (map (fun o => exp_weight ctime t (fst o)) l))%R).
        { induction l as [|o l IH]; cbn [map rsum]; [lra|]. pose proof (exp_weight_pos ctime t (fst o)). lra. }
        destruct (G (there (firstn (S k) rows))) as [P|P]; [left; apply Rinv_0_lt_compat, P|rewrite <- P, Rinv_0; lra].
      * apply rsum_mono. intros [s [a b]] I. cbn [fst snd]. apply Rmult_le_compat_l; [left; apply exp_weight_pos|].
        apply (L s a b). rewrite <- (firstn_skipn (S k) rows). apply in_or_app. left. revert I. generalize (firstn (S k) rows). clear. intros l I.
        induction l as [|[u [v|]] l IH]; cbn [there] in I; [destruct I|destruct I as [I|I]; [left; congruence|right; apply IH, I]|right; apply IH, I].
    + destruct (X1 k t None (side_nth (@fst R R) rows k t None K)) as [Y1 _]. destruct (X2 k t None (side_nth (@snd R R) rows k t None K)) as [Y2 _].
      rewrite (Y1 (or_introl eq_refl)), (Y2 (or_introl eq_refl)). exact Logic.I.
  - apply nth_error_None in K. rewrite (proj2 (nth_error_None _ _)) by (rewrite L1; unfold values1; rewrite map_length; exact K).
    rewrite (proj2 (nth_error_None _ _)) by (rewrite L2; unfold values2; rewrite map_length; exact K). exact Logic.I.
Qed.
Print Assumptions C133_exponential.
Example C133_exponential_case :
  let rows := [(0, Some (2, 5)); (1, None); (10, Some (4, 4))]%R in
  unmarked (-999999) (values1 rows) /\ unmarked (-999999) (values2 rows) /\ (forall t x y, In (t, Some (x, y)) rows -> (x <= y)%R).
Proof.
  cbv zeta. split; [|split].
  - intros t v [E|[E|[E|[]]]]; try discriminate E; injection E as <- <-; cbn; lra.
  - intros t v [E|[E|[E|[]]]]; try discriminate E; injection E as <- <-; cbn; lra.
  - intros t x y [E|[E|[E|[]]]]; try discriminate E; injection E as <- <- <-; lra.
Qed.
(* As computed it is false by rounding: two observations at the same time, the first raised from -0.7 to the next double,
   and the filtered value falls (exp(0) = 1 is all that is used of the C library). *)
Theorem C133_exponential_refuted :
  forall exp64 : double -> double, exp64 (B754_zero true) = z64 1 ->
  let a := dec (-7) 10 in let b := dyad (-6305039478318693) (-53) in
  Bltb a b = true /\
  match f_exp_filter exp64 (z64 (-999999)) 10 [(z64 1, a); (z64 1, z64 (-3))], f_exp_filter exp64 (z64 (-999999)) 10 [(z64 1, b); (z64 1, z64 (-3))] with
  | [_; u], [_; v] => Bltb v u | _, _ => false end = true.
Proof.
  intros exp64 E a b. split; [vm_compute; reflexivity|].
  assert (G : f_gain (f1 24 128 p24 e128) (f_ef exp64 10 (z64 1) (z64 1)) = f_gain (f1 24 128 p24 e128) (to_single (z64 1))).
  { unfold f_ef. replace (div64 (Bopp (sub64 (z64 1) (z64 1))) (z64 10)) with (B754_zero true : double) by (apply B2SF_inj; vm_compute; reflexivity). rewrite E. reflexivity. }
  assert (S : forall x, f_missing (z64 (-999999)) x = false -> f_exp_filter exp64 (z64 (-999999)) 10 [(z64 1, x); (z64 1, z64 (-3))] = [x; f_update x (f_gain (f1 24 128 p24 e128) (to_single (z64 1))) (z64 (-3))]).
  { intros x M. cbn [f_exp_filter]. rewrite M. cbn [f_exp_loop]. replace (f_missing (z64 (-999999)) (z64 (-3))) with false by (vm_compute; reflexivity). cbv zeta. rewrite G. reflexivity. }
  rewrite (S a), (S b) by (vm_compute; reflexivity). vm_compute. reflexivity.
Qed.
Print Assumptions C133_exponential_refuted.

(* Climatologies, in exact arithmetic: means and medians, by day or month, with any smoothing and treatment of leap years;
   not if the standard deviation is requested together with the interpolated leap day (C12_leapday_with_std_refuted). *)
Theorem C133_climatology :
  forall agg agg_std o (p q : list obs), agg = mean_agg \/ agg = median_agg -> k_std o = false \/ k_interp o = false ->
    Forall2 (fun x y => o_date x = o_date y /\ o_jd x = o_jd y /\ cell_not_above (o_val x) (o_val y) /\ MonoSpec.above_marker (o_val x)) p q ->
    match calc_climatology agg agg_std o p, calc_climatology agg agg_std o q with
    | Ok a, Ok b => Forall2 (fun r s => cell_not_above (c_clim r) (c_clim s)) a b
    | Err e, Err f => e = f | _, _ => False end.
Proof.
  intros agg agg_std o p q A SI F. apply clim_ok; [destruct A as [->| ->]; [apply mean_order|apply median_order]|exact SI|].
  induction F as [|x y p q (D & J & C & M) F IH]; constructor; [|exact IH]. split; [exact D|]. split; [exact J|]. split; [exact C|]. exact M.
Qed.
Print Assumptions C133_climatology.
Example C133_climatology_case :
  let d := mkDate in let ser a b := [mkObs (d 2019 3 1) 1 (Some a); mkObs (d 2020 3 1) 2 None; mkObs (d 2021 3 1) 3 (Some b)] in
  let o := mkClim 1 (Some 3%nat) false None true false false false 1 1 FMonth in
  Forall2 (fun x y => o_date x = o_date y /\ o_jd x = o_jd y /\ cell_not_above (o_val x) (o_val y) /\ MonoSpec.above_marker (o_val x)) (ser 1%Q 4%Q) (ser 2%Q 4%Q) /\
  match calc_climatology median_agg mean_agg o (ser 1%Q 4%Q), calc_climatology median_agg mean_agg o (ser 2%Q 4%Q) with
  | Ok a, Ok b => match nth_error a 2, nth_error b 2 with Some r, Some s => c_clim r = Some (5 # 2)%Q /\ c_clim s = Some (6 # 2)%Q | _, _ => False end | _, _ => False end.
Proof.
  cbv zeta. split.
  - repeat constructor; cbn; unfold Qle, Qlt; cbn; lia.
  - vm_compute. split; reflexivity.
Qed.
