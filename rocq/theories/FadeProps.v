(* C128: the filters treat sums of series term by term, do not amplify differences, and forget. *)
From Coq Require Import Reals Lra Qabs.
From Verif Require Import Base FiltersModel FiltersSpec FiltersProofs ExpFilterProofs FiltersProps FadeProofs.
From Coq Require Lqa.
Open Scope Z_scope.

(* Two series observed at the same times: at each time either both have a value or both have none *)
Definition values1 (rows : list (R * option (R * R))) : list (R * option R) := map (fun r => (fst r, option_map fst (snd r))) rows.
Definition values2 (rows : list (R * option (R * R))) : list (R * option R) := map (fun r => (fst r, option_map snd (snd r))) rows.
Definition mixed (a b : R) (rows : list (R * option (R * R))) : list (R * option R) := map (fun r => (fst r, option_map (fun p => (a * fst p + b * snd p)%R) (snd r))) rows.
Definition unmarked (nan : R) (ser : list (R * option R)) : Prop := forall t v, In (t, Some v) ser -> v <> nan.

Section Exponential.
Local Open Scope R_scope.
Lemma unmarked_side {A} nan (g : A -> R) rows : unmarked nan (side g rows) -> forall t x, In (t, Some x) rows -> g x <> nan.
Proof. intros H t x I. apply (H t). unfold side. apply in_map_iff. exists (t, Some x). split; [reflexivity|exact I]. Qed.

(* The filtered sum is the sum of the filtered series *)
Theorem C128_exp_superposition nan ctime (a b : R) rows k : (0 < ctime)%Z ->
  unmarked nan (values1 rows) -> unmarked nan (values2 rows) -> unmarked nan (mixed a b rows) ->
  forall f g, nth_error (exp_filter nan ctime (values1 rows)) k = Some (Some f) -> nth_error (exp_filter nan ctime (values2 rows)) k = Some (Some g) ->
  nth_error (exp_filter nan ctime (mixed a b rows)) k = Some (Some (a * f + b * g)).
Proof.
  intros _ U1 U2 U3 f g F G. pose proof (unmarked_side nan _ rows U1) as V1. pose proof (unmarked_side nan _ rows U2) as V2. pose proof (unmarked_side nan (fun p : R * R => a * fst p + b * snd p) rows U3) as V3.
  destruct (exp_filter_correct nan ctime (values1 rows)) as [L1 X1].
  destruct (nth_error rows k) as [[t c]|] eqn:K; [|exfalso; apply nth_error_None in K; assert (B : (k < List.length (exp_filter nan ctime (values1 rows)))%nat) by (apply nth_error_Some; congruence); rewrite L1 in B; unfold values1 in B; rewrite map_length in B; lia].
  destruct c as [x|].
  - change (values1 rows) with (side (@fst R R) rows) in F. change (values2 rows) with (side (@snd R R) rows) in G. change (mixed a b rows) with (side (fun p : R * R => a * fst p + b * snd p) rows).
    rewrite (side_output nan ctime _ rows k t x V1 K) in F. rewrite (side_output nan ctime _ rows k t x V2 K) in G. rewrite (side_output nan ctime _ rows k t x V3 K).
    rewrite (average_linear ctime t a b (@fst R R) (@snd R R)). injection F as <-. injection G as <-. reflexivity.
  - destruct (X1 k t None (side_nth (@fst R R) rows k t None K)) as [Y _]. rewrite (Y (or_introl eq_refl)) in F. discriminate F.
Qed.

(* Differences are not amplified, and the difference of an observation counts with exp(-age/ctime) at most *)
Theorem C128_exp_fading nan ctime rows k t p : (0 < ctime)%Z -> unmarked nan (values1 rows) -> unmarked nan (values2 rows) -> nth_error rows k = Some (t, Some p) ->
  exists f g, nth_error (exp_filter nan ctime (values1 rows)) k = Some (Some f) /\ nth_error (exp_filter nan ctime (values2 rows)) k = Some (Some g) /\
    Rabs (f - g) <= rsum (map (fun o => exp (- ((t - fst o) / IZR ctime)) * Rabs (fst (snd o) - snd (snd o))) (there (firstn (S k) rows))) /\
    forall e, (forall s x y, In (s, Some (x, y)) (firstn (S k) rows) -> Rabs (x - y) <= e) -> Rabs (f - g) <= e.
Proof.
  intros _ U1 U2 K. pose proof (unmarked_side nan _ rows U1) as V1. pose proof (unmarked_side nan _ rows U2) as V2.
  exists (exp_average ctime t (map (fun o => (fst o, fst (snd o))) (there (firstn (S k) rows)))), (exp_average ctime t (map (fun o => (fst o, snd (snd o))) (there (firstn (S k) rows)))).
  split; [exact (side_output nan ctime (@fst R R) rows k t p V1 K)|]. split; [exact (side_output nan ctime (@snd R R) rows k t p V2 K)|].
  destruct (average_difference ctime t (@fst R R) (@snd R R) (there (firstn (S k) rows)) p (there_now rows k t p K)) as [B1 B2]. split; [exact B1|].
  intros e H. apply B2. intros s [x y] I. apply there_in in I. exact (H s x y I).
Qed.

(* Two series that differ in n observations only, all at least as old as age and by at most e, differ by n e exp(-age/ctime) at most *)
Theorem C128_exp_forgets nan ctime rows k t p age e : (0 < ctime)%Z -> unmarked nan (values1 rows) -> unmarked nan (values2 rows) -> nth_error rows k = Some (t, Some p) ->
  (forall s x y, In (s, Some (x, y)) (firstn (S k) rows) -> x = y \/ age <= t - s /\ Rabs (x - y) <= e) ->
  exists f g, nth_error (exp_filter nan ctime (values1 rows)) k = Some (Some f) /\ nth_error (exp_filter nan ctime (values2 rows)) k = Some (Some g) /\
    Rabs (f - g) <= INR (List.length (filter (fun o => if Req_EM_T (fst (snd o)) (snd (snd o)) then false else true) (there (firstn (S k) rows)))) * (e * exp (- (age / IZR ctime))).
Proof.
  intros C U1 U2 K H. destruct (C128_exp_fading nan ctime rows k t p C U1 U2 K) as (f & g & F & G & B & _). exists f, g. split; [exact F|]. split; [exact G|].
  eapply Rle_trans; [exact B|]. assert (H' : forall s x y, In (s, (x, y)) (there (firstn (S k) rows)) -> x = y \/ age <= t - s /\ Rabs (x - y) <= e) by (intros s x y I; apply (H s), there_in, I).
  apply IZR_lt in C. revert H'. generalize (there (firstn (S k) rows)). clear - C. intros l. induction l as [|[s [x y]] l IH]; intros H; cbn [map rsum filter fst snd]; [cbn; lra|].
  specialize (IH (fun s x y I => H s x y (or_intror I))). destruct (Req_EM_T x y) as [E|E].
  - subst y. replace (x - x) with 0 by ring. rewrite Rabs_R0. lra.
  - cbn [List.length]. rewrite S_INR. destruct (H s x y (or_introl eq_refl)) as [?|[A D]]; [contradiction|].
    assert (M : exp (- ((t - s) / IZR ctime)) <= exp (- (age / IZR ctime))).
    { assert (L : - ((t - s) / IZR ctime) <= - (age / IZR ctime)). { apply Ropp_le_contravar. apply Rmult_le_compat_r; [left; apply Rinv_0_lt_compat, C|exact A]. }
      destruct L as [L|L]; [left; apply exp_increasing, L|right; rewrite L; reflexivity]. }
    assert (X : exp (- ((t - s) / IZR ctime)) * Rabs (x - y) <= exp (- (age / IZR ctime)) * e) by (apply Rmult_le_compat; [left; apply exp_pos|apply Rabs_pos|exact M|exact D]). lra.
Qed.
End Exponential.

Section Average.
Local Open Scope Q_scope.
Import Lqa.
Definition qvalues1 (rows : list (Q * option (Q * Q))) : list (Q * cell) := map (fun r => (fst r, option_map fst (snd r))) rows.
Definition qvalues2 (rows : list (Q * option (Q * Q))) : list (Q * cell) := map (fun r => (fst r, option_map snd (snd r))) rows.
Definition qmixed (a b : Q) (rows : list (Q * option (Q * Q))) : list (Q * cell) := map (fun r => (fst r, option_map (fun p => a * fst p + b * snd p) (snd r))) rows.
Definition qunmarked (nan : Q) (ser : list (Q * cell)) : Prop := forall t v, In (t, Some v) ser -> ~ v == nan.
Lemma qunmarked_side {A} nan (g : A -> Q) rows : qunmarked nan (sideq g rows) -> forall t x, In (t, Some x) rows -> ~ g x == nan.
Proof. intros H t x I. apply (H t). unfold sideq. apply in_map_iff. exists (t, Some x). split; [reflexivity|exact I]. Qed.
Definition sorted_rows (rows : list (Q * option (Q * Q))) : Prop := StronglySorted (fun p q => fst p <= fst q) rows.

Theorem C128_average_superposition nan w fillna min_obs (a b : Q) rows k : (1 <= min_obs)%Z -> sorted_rows rows ->
  qunmarked nan (qvalues1 rows) -> qunmarked nan (qvalues2 rows) -> qunmarked nan (qmixed a b rows) ->
  forall f g, nth_error (boxcar_filter nan w fillna min_obs (qvalues1 rows)) k = Some (Some f) -> nth_error (boxcar_filter nan w fillna min_obs (qvalues2 rows)) k = Some (Some g) ->
  exists h, nth_error (boxcar_filter nan w fillna min_obs (qmixed a b rows)) k = Some (Some h) /\ h == a * f + b * g.
Proof.
  intros M S U1 U2 U3 f g F G. pose proof (qunmarked_side nan _ rows U1) as V1. pose proof (qunmarked_side nan _ rows U2) as V2. pose proof (qunmarked_side nan (fun p : Q * Q => a * fst p + b * snd p) rows U3) as V3.
  destruct (nth_error rows k) as [[t c]|] eqn:K.
  2:{ exfalso. apply nth_error_None in K. assert (B : (k < List.length (boxcar_filter nan w fillna min_obs (qvalues1 rows)))%nat) by (apply nth_error_Some; congruence). rewrite boxcar_length in B. unfold qvalues1 in B. rewrite map_length in B. lia. }
  destruct (sideq_output nan w fillna min_obs (@fst Q Q) rows k t c M S V1 K) as (o1 & O1 & N1 & A1). destruct (sideq_output nan w fillna min_obs (@snd Q Q) rows k t c M S V2 K) as (o2 & O2 & _ & A2).
  destruct (sideq_output nan w fillna min_obs (fun p : Q * Q => a * fst p + b * snd p) rows k t c M S V3 K) as (o3 & O3 & _ & A3).
  change (qvalues1 rows) with (sideq (@fst Q Q) rows) in F. change (qvalues2 rows) with (sideq (@snd Q Q) rows) in G. change (qmixed a b rows) with (sideq (fun p : Q * Q => a * fst p + b * snd p) rows).
  rewrite O1 in F. rewrite O2 in G. injection F as ->. injection G as ->.
  assert (C : c <> None \/ fillna = true). { destruct c; [left; discriminate|]. destruct fillna; [right; reflexivity|]. specialize (N1 eq_refl eq_refl). discriminate N1. }
  specialize (A1 C). specialize (A2 C). specialize (A3 C). destruct (min_obs <=? _)%Z; [|contradiction]. cbn [ceq] in A1, A2. destruct o3 as [h|]; [|contradiction]. cbn [ceq] in A3.
  exists h. split; [exact O3|]. rewrite A1, A2, A3. apply qmean_lin.
Qed.

(* Both averages exist or none does; they differ by no more than the observations in the window do *)
Theorem C128_average_bounded nan w fillna min_obs rows k t c : (1 <= min_obs)%Z -> sorted_rows rows -> qunmarked nan (qvalues1 rows) -> qunmarked nan (qvalues2 rows) ->
  nth_error rows k = Some (t, c) ->
  (nth_error (boxcar_filter nan w fillna min_obs (qvalues1 rows)) k = Some None /\ nth_error (boxcar_filter nan w fillna min_obs (qvalues2 rows)) k = Some None) \/
  exists f g, nth_error (boxcar_filter nan w fillna min_obs (qvalues1 rows)) k = Some (Some f) /\ nth_error (boxcar_filter nan w fillna min_obs (qvalues2 rows)) k = Some (Some g) /\
    forall e, (forall s x y, In (s, Some (x, y)) rows -> Qabs (s - t) <= w / 2 -> Qabs (x - y) <= e) -> Qabs (f - g) <= e.
Proof.
  intros M S U1 U2 K. pose proof (qunmarked_side nan _ rows U1) as V1. pose proof (qunmarked_side nan _ rows U2) as V2.
  destruct (sideq_output nan w fillna min_obs (@fst Q Q) rows k t c M S V1 K) as (o1 & O1 & N1 & A1). destruct (sideq_output nan w fillna min_obs (@snd Q Q) rows k t c M S V2 K) as (o2 & O2 & N2 & A2).
  assert (C : (c = None /\ fillna = false) \/ (c <> None \/ fillna = true)) by (destruct c; [right; left; discriminate|destruct fillna; tauto]).
  destruct C as [[C1 C2]|C]; [left; specialize (N1 C1 C2); specialize (N2 C1 C2); subst o1 o2; split; assumption|].
  specialize (A1 C). specialize (A2 C). destruct (min_obs <=? Z.of_nat (List.length (within (w / 2) t rows)))%Z eqn:ME.
  - right. destruct o1 as [f|]; [|contradiction]. destruct o2 as [g|]; [|contradiction]. cbn [ceq] in A1, A2. exists f, g. split; [exact O1|]. split; [exact O2|]. intros e H. rewrite A1, A2. apply qmean_apart.
    + intros E. rewrite E in ME. apply Z.leb_le in ME. cbn in ME. lia.
    + intros [x y] I. destruct (within_in _ _ _ _ I) as (s & J & D). exact (H s x y J D).
  - left. destruct o1; [contradiction|]. destruct o2; [contradiction|]. split; assumption.
Qed.

(* The anomalies from the moving average differ by no more than twice as much *)
Theorem C128_anomaly_bounded w rows k t x y e : 0 <= w -> sorted_rows rows -> qunmarked default_nan (qvalues1 rows) -> qunmarked default_nan (qvalues2 rows) ->
  nth_error rows k = Some (t, Some (x, y)) -> (forall s x y, In (s, Some (x, y)) rows -> Qabs (s - t) <= w / 2 -> Qabs (x - y) <= e) ->
  exists d d', nth_error (calc_anomaly_ma (qvalues1 rows) w) k = Some (t, Some d) /\ nth_error (calc_anomaly_ma (qvalues2 rows) w) k = Some (t, Some d') /\ Qabs (d - d') <= 2 * e.
Proof.
  intros W S U1 U2 K H. pose proof (qunmarked_side default_nan _ rows U1) as V1. pose proof (qunmarked_side default_nan _ rows U2) as V2.
  destruct (C09_anomaly_plus_average (sideq (@fst Q Q) rows) w (sideq_sorted _ _ S) W) as [_ X1]. destruct (C09_anomaly_plus_average (sideq (@snd Q Q) rows) w (sideq_sorted _ _ S) W) as [_ X2].
  destruct (X1 k t (Some x) (sideq_nth (@fst Q Q) rows k t _ K)) as (a1 & A1 & _ & B1). destruct (X2 k t (Some y) (sideq_nth (@snd Q Q) rows k t _ K)) as (a2 & A2 & _ & B2).
  destruct (B1 x eq_refl (V1 t (x, y) (nth_error_In _ _ K))) as (m & d & M & -> & E). destruct (B2 y eq_refl (V2 t (x, y) (nth_error_In _ _ K))) as (m' & d' & M' & -> & E').
  exists d, d'. split; [exact A1|]. split; [exact A2|].
  unfold average_at in M, M'. rewrite near_side in M by exact V1. rewrite near_side in M' by exact V2. rewrite map_length in M, M'. destruct (Z.leb_spec 1 (Z.of_nat (List.length (within (w / 2) t rows)))) as [L|]; [|discriminate].
  assert (D : Qabs (m - m') <= e).
  { replace m with (qmean (map fst (within (w / 2) t rows))) by congruence. replace m' with (qmean (map snd (within (w / 2) t rows))) by congruence. apply qmean_apart.
    - intros Z0. rewrite Z0 in L. cbn in L. lia.
    - intros [u v] I. destruct (within_in _ _ _ _ I) as (s & J & D). exact (H s u v J D). }
  assert (D0 : Qabs (x - y) <= e). { apply (H t x y (nth_error_In _ _ K)). setoid_replace (t - t) with 0 by ring. change (Qabs 0) with 0. apply Qle_shift_div_l; lra. }
  apply Qabs_Qle_condition in D. apply Qabs_Qle_condition in D0. apply Qabs_Qle_condition. lra.
Qed.

(* The marker -999999 takes part in none of this: a sum that happens to equal it is dropped *)
Theorem C128_marker_refuted : ~ (forall w a b rows k, sorted_rows rows -> qunmarked default_nan (qvalues1 rows) -> qunmarked default_nan (qvalues2 rows) ->
  forall f g, nth_error (boxcar_filter default_nan w false 1 (qvalues1 rows)) k = Some (Some f) -> nth_error (boxcar_filter default_nan w false 1 (qvalues2 rows)) k = Some (Some g) ->
  exists h, nth_error (boxcar_filter default_nan w false 1 (qmixed a b rows)) k = Some (Some h) /\ h == a * f + b * g).
Proof.
  intros H. destruct (H 1 1 1 [(0, Some (-1000000, 1))] O) with (f := -1000000 / 1) (g := 1 / 1) as (h & E & _).
  - repeat constructor.
  - intros t v [E|[]]. injection E as <- <-. unfold default_nan. lra.
  - intros t v [E|[]]. injection E as <- <-. unfold default_nan. lra.
  - vm_compute. reflexivity.
  - vm_compute. reflexivity.
  - vm_compute in E. discriminate E.
Qed.

(* Non-vacuity *)
Definition fade_rows : list (Q * option (Q * Q)) := [(0, Some (1, 3)); (1, Some (2, 2)); (2, None); (3, Some (4, 5))].
Example C128_ex_average : sorted_rows fade_rows /\ qunmarked default_nan (qvalues1 fade_rows) /\ qunmarked default_nan (qvalues2 fade_rows) /\ qunmarked default_nan (qmixed 2 (-1) fade_rows) /\
  map (option_map Qred) (boxcar_filter default_nan 2 false 1 (qvalues1 fade_rows)) = [Some (3 # 2); Some (3 # 2); None; Some 4] /\
  map (option_map Qred) (boxcar_filter default_nan 2 false 1 (qvalues2 fade_rows)) = [Some (5 # 2); Some (5 # 2); None; Some 5] /\
  map (option_map Qred) (boxcar_filter default_nan 2 false 1 (qmixed 2 (-1) fade_rows)) = [Some (1 # 2); Some (1 # 2); None; Some 3].
Proof.
  split; [repeat constructor; vm_compute; congruence|]. repeat split; try (vm_compute; reflexivity); intros t v [E|[E|[E|[E|[]]]]]; try discriminate E; injection E as <- <-; unfold default_nan; lra.
Qed.
End Average.
Example C128_ex_exp : unmarked (-999999) (values1 [(0, Some (2, 5)); (10, Some (4, 4))])%R /\ unmarked (-999999) (values2 [(0, Some (2, 5)); (10, Some (4, 4))])%R /\
  forall s x y, In (s, Some (x, y)) [(0, Some (2, 5)); (10, Some (4, 4))]%R -> x = y \/ (10 <= 10 - s /\ Rabs (x - y) <= 3)%R.
Proof.
  split; [intros t v [E|[E|[]]]; injection E as <- <-; cbn; lra|]. split; [intros t v [E|[E|[]]]; injection E as <- <-; cbn; lra|].
  intros s x y [E|[E|[]]]; injection E as <- <- <-; [right|left; reflexivity]. split; [lra|]. rewrite Rabs_left; lra.
Qed.

Print Assumptions C128_exp_superposition. Print Assumptions C128_exp_fading. Print Assumptions C128_exp_forgets. Print Assumptions C128_average_superposition.
Print Assumptions C128_average_bounded. Print Assumptions C128_anomaly_bounded. Print Assumptions C128_marker_refuted.
