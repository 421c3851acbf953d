(* C97: climatologies of a time span, their range, and anomalies from the series' own climatology. *)
From Verif Require Import Base Calendar FiltersModel FiltersSpec AnomalyModel AnomalySpec ClimModel ClimProofs ClimProofs2.
From Coq Require Import Lqa Sorting.Sorted.
Open Scope Z_scope.

(* an observation made between the two bounds, both included; a missing bound does not restrict *)
Definition observed_in (before after : option Q) (x : obs) : Prop :=
  (forall b, before = Some b -> (b <= o_jd x)%Q) /\ (forall a, after = Some a -> (o_jd x <= a)%Q).
Definition sorted_up (ser : list obs) : Prop := StronglySorted (fun x y => (o_jd x <= o_jd y)%Q) ser.
Definition sorted_down (ser : list obs) : Prop := StronglySorted (fun x y => (o_jd y <= o_jd x)%Q) ser.
Definition bounds_ok (before after : option Q) : Prop := forall b a, before = Some b -> after = Some a -> (b <= a)%Q.

Lemma in_span_observed before after x : in_span before after x = true <-> observed_in before after x.
Proof.
  unfold in_span, observed_in. rewrite andb_true_iff. destruct before as [b|], after as [a|]; cbn [qle_opt]; rewrite ?Qle_bool_iff; split; intros [H1 H2]; split; intros; try reflexivity; try discriminate; try congruence; auto.
Qed.
Lemma bounds_ok_b before after : bounds_ok before after -> qle_opt before after = true.
Proof. intros H. destruct before as [b|], after as [a|]; cbn; try reflexivity. apply Qle_bool_iff. exact (H b a eq_refl eq_refl). Qed.

(* the climatology of a time span is the climatology of the observations made in it *)
Theorem C97_timespan agg agg_std o before after ser inside : sorted_up ser \/ sorted_down ser -> bounds_ok before after ->
  (exists keep, inside = filter keep ser /\ forall x, keep x = true <-> observed_in before after x) ->
  calc_climatology_span agg agg_std o (Some (before, after)) ser = calc_climatology agg agg_std o inside.
Proof.
  intros S B [keep [-> K]].
  assert (E : filter keep ser = filter (in_span before after) ser). { apply filter_ext. intros x. apply eq_true_iff_eq. rewrite K. symmetry. apply in_span_observed. }
  assert (T : truncate before after ser = Ok (filter keep ser)). { rewrite E. destruct S as [S|S]; [apply truncate_up|apply truncate_down]; auto using bounds_ok_b. }
  unfold calc_climatology_span. rewrite T. cbn [bindR]. unfold calc_climatology. destruct (k_freq o); try reflexivity. destruct (k_ma_clim o); reflexivity.
Qed.
(* observations outside the span have no influence *)
Theorem C97_outside_span agg agg_std o before after ser1 ser2 : sorted_up ser1 -> sorted_up ser2 -> bounds_ok before after ->
  filter (in_span before after) ser1 = filter (in_span before after) ser2 ->
  calc_climatology_span agg agg_std o (Some (before, after)) ser1 = calc_climatology_span agg agg_std o (Some (before, after)) ser2.
Proof.
  intros S1 S2 B E. rewrite (C97_timespan agg agg_std o before after ser1 _ (or_introl S1) B (ex_intro _ (in_span before after) (conj eq_refl (in_span_observed before after)))).
  rewrite (C97_timespan agg agg_std o before after ser2 _ (or_introl S2) B (ex_intro _ (in_span before after) (conj eq_refl (in_span_observed before after)))). rewrite E. reflexivity.
Qed.
(* an unsorted series or bounds in the wrong order raise *)
Theorem C97_timespan_raises agg agg_std o before after ser : k_freq o <> FOther ->
  (~ sorted_up ser /\ ~ sorted_down ser) \/ (exists b a, before = Some b /\ after = Some a /\ (a < b)%Q) ->
  calc_climatology_span agg agg_std o (Some (before, after)) ser = Err EValue.
Proof.
  intros F H. assert (T : truncate before after ser = Err EValue). { destruct H as [[U D]|[b [a [-> [-> L]]]]]; [apply truncate_unsorted; assumption|apply truncate_reversed; exact L]. }
  unfold calc_climatology_span. rewrite T. destruct (k_freq o); [| |congruence]; destruct (k_ma_clim o); reflexivity.
Qed.

(* every value of a climatology lies between the smallest and largest observation, for means and medians, with or without
   wrapping around the year, with leap years treated in any way; not if the standard deviation is requested together with
   the interpolated leap day (C12_leapday_with_std_refuted) *)
Theorem C97_range lo hi agg agg_std o ser out : agg = mean_agg \/ agg = median_agg ->
  (forall x v, In x ser -> o_val x = Some v -> (lo <= v <= hi)%Q) -> (forall v, k_fill o = Some v -> (lo <= v <= hi)%Q) ->
  k_std o = false \/ k_interp o = false -> calc_climatology agg agg_std o ser = Ok out ->
  forall r c, In r out -> c_clim r = Some c -> (lo <= c <= hi)%Q.
Proof.
  intros A V F SI C r c I E.
  assert (K : keeps_range lo hi agg) by (destruct A as [->| ->]; [apply mean_keeps|apply median_keeps]).
  assert (V2 : Forall (fun x => within lo hi (o_val x)) ser). { apply Forall_forall. intros x X. destruct (o_val x) as [v|] eqn:EV; [|exact Logic.I]. exact (V x v X EV). }
  assert (F2 : within lo hi (k_fill o)). { destruct (k_fill o) as [v|]; [exact (F v eq_refl)|exact Logic.I]. }
  pose proof (climatology_range lo hi agg agg_std o ser out K V2 F2 SI C) as R. rewrite Forall_forall in R. specialize (R r I). rewrite E in R. exact R.
Qed.
(* the median has at most half of the values on either side *)
Lemma insert_count (p : Q -> bool) x l : List.length (filter p (q_insert x l)) = List.length (filter p (x :: l)).
Proof. induction l as [|y l IH]; cbn [q_insert]; [reflexivity|]. destruct (Qle_bool x y); [reflexivity|]. cbn [filter] in *. destruct (p y), (p x); cbn [List.length] in *; lia. Qed.
Lemma sort_count (p : Q -> bool) l : List.length (filter p (q_sort l)) = List.length (filter p l).
Proof. induction l as [|x l IH]; cbn; [reflexivity|]. fold (q_sort l). rewrite insert_count. cbn [filter]. destruct (p x); cbn [List.length]; lia. Qed.
Lemma insert_sorted x l : StronglySorted Qle l -> StronglySorted Qle (q_insert x l).
Proof.
  induction 1 as [|y l S IH F]; cbn [q_insert]; [repeat constructor|]. destruct (Qle_bool x y) eqn:E.
  - apply Qle_bool_iff in E. constructor; [constructor; assumption|]. constructor; [exact E|]. rewrite Forall_forall in *. intros z Z. specialize (F z Z). lra.
  - constructor; [exact IH|]. apply Forall_forall. intros z Z. apply q_insert_in in Z. destruct Z as [->|Z]; [|rewrite Forall_forall in F; exact (F z Z)].
    assert (~ (x <= y)%Q) by (rewrite <- Qle_bool_iff; congruence). lra.
Qed.
Lemma sort_sorted l : StronglySorted Qle (q_sort l).
Proof. induction l as [|x l IH]; cbn; [constructor|]. apply insert_sorted. exact IH. Qed.
Lemma sorted_nth s : StronglySorted Qle s -> forall i j, (i <= j)%nat -> (j < List.length s)%nat -> (nth i s 0 <= nth j s 0)%Q.
Proof.
  induction 1 as [|x s S IH F]; intros i j L J; cbn in J; [lia|]. destruct i as [|i], j as [|j]; cbn; try lia; [lra| |apply IH; lia]. rewrite Forall_forall in F. apply F. apply nth_In. lia.
Qed.
Lemma count_split (p : Q -> bool) (s : list Q) h : (forall i, (h <= i < List.length s)%nat -> p (nth i s 0%Q) = false) -> (List.length (filter p s) <= h)%nat.
Proof.
  revert h. induction s as [|x s IH]; intros h H; cbn [filter]; [cbn; lia|]. destruct h as [|h].
  - assert (H0 : p x = false) by (apply (H 0%nat); cbn; lia). rewrite H0. apply (IH 0%nat). intros i L. apply (H (S i)). cbn. lia.
  - assert (G : (List.length (filter p s) <= h)%nat) by (apply IH; intros i L; apply (H (S i)); cbn; lia). destruct (p x); cbn; lia.
Qed.
Lemma count_split' (p : Q -> bool) (s : list Q) h : (forall i, (i < h)%nat -> (i < List.length s)%nat -> p (nth i s 0%Q) = false) -> (List.length (filter p s) <= List.length s - h)%nat.
Proof.
  revert h. induction s as [|x s IH]; intros h H; cbn [filter]; [cbn; lia|]. destruct h as [|h].
  - assert (G : forall l, (List.length (filter p l) <= List.length l)%nat) by (intros l; induction l as [|y l IH2]; cbn; [lia|destruct (p y); cbn; lia]). pose proof (G (x :: s)) as G1. cbn [filter] in G1. lia.
  - assert (H0 : p x = false) by (apply (H 0%nat); cbn; lia). rewrite H0. apply IH. intros i L1 L2. apply (H (S i)); cbn; lia.
Qed.
Theorem C97_median_is_middle l m : median_agg l = Some m ->
  (2 * List.length (filter (fun v => negb (Qle_bool m v)) l) <= List.length l)%nat /\ (2 * List.length (filter (fun v => negb (Qle_bool v m)) l) <= List.length l)%nat.
Proof.
  intros H. rewrite <- !(sort_count _ l), <- (q_sort_length l). unfold median_agg in H. cbv zeta in H. pose proof (sort_sorted l) as SS. set (s := q_sort l) in *. clearbody s.
  destruct (Nat.eqb_spec (List.length s) 0) as [E|N]; [discriminate|]. pose proof (Nat.div_mod (List.length s) 2 ltac:(lia)) as DM. pose proof (Nat.mod_upper_bound (List.length s) 2 ltac:(lia)) as MB. set (h := (List.length s / 2)%nat) in *.
  assert (B : exists hb ha, (2 * hb <= List.length s)%nat /\ (2 * (List.length s - ha) <= List.length s)%nat /\
     (forall i, (hb <= i < List.length s)%nat -> (m <= nth i s 0)%Q) /\ (forall i, (i < ha)%nat -> (i < List.length s)%nat -> (nth i s 0 <= m)%Q)).
  { destruct (Nat.even (List.length s)) eqn:EV.
    - apply Nat.even_spec in EV. destruct EV as [q EQ]. assert (HQ : h = q) by lia. injection H as H. exists h, h. split; [lia|]. split; [lia|].
      pose proof (sorted_nth s SS (h - 1) h ltac:(lia) ltac:(lia)) as ORD.
      assert (M1 : (nth (h - 1) s 0 <= m)%Q) by (rewrite <- H; apply Qle_shift_div_l; lra). assert (M2 : (m <= nth h s 0)%Q) by (rewrite <- H; apply Qle_shift_div_r; lra). split.
      + intros i L. pose proof (sorted_nth s SS h i ltac:(lia) ltac:(lia)). lra.
      + intros i L1 L2. pose proof (sorted_nth s SS i (h - 1) ltac:(lia) ltac:(lia)). lra.
    - injection H as H. subst m. assert (OD : (List.length s = 2 * h + 1)%nat). { destruct (List.length s mod 2)%nat eqn:EM; [|lia]. exfalso. assert (Nat.even (List.length s) = true) by (apply Nat.even_spec; exists h; lia). congruence. }
      exists h, (S h). split; [lia|]. split; [lia|]. split.
      + intros i L. apply sorted_nth; [exact SS|lia|lia].
      + intros i L1 L2. apply sorted_nth; [exact SS|lia|lia]. }
  destruct B as [hb [ha [B1 [B2 [B3 B4]]]]].
  assert (C1 : (List.length (filter (fun v => negb (Qle_bool m v)) s) <= hb)%nat). { apply count_split. intros i L. apply negb_false_iff, Qle_bool_iff. exact (B3 i L). }
  assert (C2 : (List.length (filter (fun v => negb (Qle_bool v m)) s) <= List.length s - ha)%nat). { apply count_split'. intros i L1 L2. apply negb_false_iff, Qle_bool_iff. exact (B4 i L1 L2). }
  lia.
Qed.

(* Means over all years without smoothing: on every calendar day the anomalies add up to zero.  The first window contains
   only the observation itself, the second only the day itself; both functions treat leap years alike. *)
Theorem C97_anomalies_add_up_to_zero o ser agg_std : k_freq o = FDay -> k_wrap o = true -> plain o -> k_ma_clim o = Some 1%nat -> k_min_clim o = 1 -> k_min_orig o = 1 ->
  (0 <= k_ma_orig o)%Q -> Forall (fun x => exists v, o_val x = Some v /\ (default_nan < v)%Q) ser -> Forall (fun x => valid_date (o_date x)) ser ->
  StronglySorted (fun x y => (o_jd x + k_ma_orig o / 2 < o_jd y)%Q) ser ->
  exists out, calc_climatology mean_agg agg_std o ser = Ok out /\
    let anomalies := calc_anomaly_clim (k_respect o) (map c_clim out) ser in
    Forall (fun a => a <> None) anomalies /\ forall k, (qsum (on_unit (unit_of o) k ser anomalies) == 0)%Q.
Proof. exact (zero_sum o ser agg_std). Qed.

(* The frame with return_clim: anomaly plus climatology is the observation, climatology and standard deviation are those
   of the day; without return_clim the anomalies are the same. *)
Theorem C97_anomaly_frame respect clim ser : List.length clim = 366%nat -> Forall (fun x => valid_date (o_date x)) ser ->
  Forall2 (fun x a => exists r, nth_error clim (Z.to_nat (anomaly_key respect (o_date x) - 1)) = Some r /\ a_clim a = c_clim r /\ a_std a = c_std r /\
     (forall v c, o_val x = Some v -> c_clim r = Some c -> exists d, a_anomaly a = Some d /\ (d + c == v)%Q) /\
     (o_val x = None \/ c_clim r = None -> a_anomaly a = None)) ser (calc_anomaly_frame respect clim ser) /\
  map a_anomaly (calc_anomaly_frame respect clim ser) = calc_anomaly_clim respect (map c_clim clim) ser.
Proof.
  intros L V. split.
  - induction V as [|x l X V IH]; cbn; constructor; [|exact IH]. pose proof (key_range respect _ X) as K. set (k := anomaly_key respect (o_date x)) in *.
    exists (nth (Z.to_nat (k - 1)) clim (mkCrow None None)). unfold clim_row. replace ((1 <=? k) && (k <=? Z.of_nat (List.length clim))) with true by lia. cbn [a_clim a_std a_anomaly].
    split; [apply nth_error_nth'; lia|]. split; [reflexivity|]. split; [reflexivity|]. split.
    + intros v c EV EC. rewrite EV, EC. cbn. exists (v - c)%Q. split; [reflexivity|ring].
    + intros [E|E]; rewrite E; [reflexivity|destruct (o_val x); reflexivity].
  - unfold calc_anomaly_frame, calc_anomaly_clim. rewrite map_map. cbn [a_anomaly]. apply map_ext. intros x. f_equal. unfold clim_row, clim_lookup. rewrite map_length. destruct (_ && _); [|reflexivity].
    symmetry. exact (map_nth c_clim clim (mkCrow None None) _).
Qed.

(* A monthly climatology is looked up by the day of the year: the anomaly of an observation does not use its month *)
Definition month_opts : clim_opts := mkClim 1 (Some 1%nat) false None true false false false 1 1 FMonth.
Definition month_ser : list obs :=
  [mkObs (mkDate 2020 1 2) 1 (Some 4%Q); mkObs (mkDate 2020 2 15) 45 (Some 7%Q); mkObs (mkDate 2021 1 2) 367 (Some 6%Q)].
Theorem C97_monthly_climatology_refuted :
  ~ (forall ser clim, Forall (fun x => valid_date (o_date x)) ser -> sorted_up ser -> calc_climatology mean_agg (fun _ => None) month_opts ser = Ok clim ->
     Forall2 (fun x a => exists r, nth_error clim (Z.to_nat (dm (o_date x) - 1)) = Some r /\ ceq a (cell_sub (o_val x) (c_clim r))) ser (calc_anomaly_clim false (map c_clim clim) ser)).
Proof.
  intros H. destruct (calc_climatology mean_agg (fun _ => None) month_opts month_ser) as [clim|] eqn:E; [|vm_compute in E; discriminate E].
  specialize (H month_ser clim). vm_compute in E. injection E as <-.
  assert (V : Forall (fun x => valid_date (o_date x)) month_ser) by (repeat constructor; vm_compute; congruence).
  assert (S : sorted_up month_ser) by (repeat constructor; vm_compute; congruence).
  specialize (H V S ltac:(vm_compute; reflexivity)). inversion H as [|x a l m [r [N C]] F]; subst. vm_compute in N. injection N as <-. vm_compute in C. discriminate C.
Qed.

(* Non-vacuity *)
Definition day_opts : clim_opts := mkClim 1 (Some 1%nat) false None true false false false 1 1 FDay.
Definition day_ser : list obs :=
  [mkObs (mkDate 2020 1 2) 1 (Some 4%Q); mkObs (mkDate 2020 2 29) 59 (Some 7%Q); mkObs (mkDate 2021 1 2) 367 (Some 6%Q); mkObs (mkDate 2021 3 1) 425 (Some 1%Q)].
Example C97_ex_zero_hypotheses : Forall (fun x => exists v, o_val x = Some v /\ (default_nan < v)%Q) day_ser /\ Forall (fun x => valid_date (o_date x)) day_ser /\
  StronglySorted (fun x y => (o_jd x + k_ma_orig day_opts / 2 < o_jd y)%Q) day_ser.
Proof. split; [repeat constructor; eexists; split; try reflexivity|split; repeat constructor; vm_compute; congruence]. Qed.
Example C97_ex_zero : mapR (fun out => calc_anomaly_clim false (map c_clim out) day_ser) (calc_climatology mean_agg (fun _ => None) day_opts day_ser) =
  Ok [Some (-2 # 2)%Q; Some (0 # 1)%Q; Some (2 # 2)%Q; Some (0 # 1)%Q].
Proof. vm_compute. reflexivity. Qed.
Example C97_ex_span : sorted_up day_ser /\ truncate (Some 59%Q) (Some 400%Q) day_ser = Ok [mkObs (mkDate 2020 2 29) 59 (Some 7%Q); mkObs (mkDate 2021 1 2) 367 (Some 6%Q)] /\
  truncate (Some 59%Q) (Some 400%Q) (rev day_ser) = Ok [mkObs (mkDate 2021 1 2) 367 (Some 6%Q); mkObs (mkDate 2020 2 29) 59 (Some 7%Q)].
Proof. split; [repeat constructor; vm_compute; congruence|split; reflexivity]. Qed.
Example C97_ex_median : median_agg [5; 1; 4]%Q = Some 4%Q /\ median_agg [5; 1; 4; 2]%Q = Some (6 # 2)%Q /\ median_agg [] = None.
Proof. repeat split. Qed.

Print Assumptions C97_timespan. Print Assumptions C97_timespan_raises. Print Assumptions C97_range. Print Assumptions C97_median_is_middle.
Print Assumptions C97_anomalies_add_up_to_zero. Print Assumptions C97_anomaly_frame. Print Assumptions C97_monthly_climatology_refuted.
