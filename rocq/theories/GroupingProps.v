(* Properties C13-C17: day bins, yearless dates, subset selection, seasons. *)
From Verif Require Import Base Calendar GroupingModel GroupingSpec GroupingProofs DistributorProofs.

(* ---- C13 ---- *)
Definition dekads : list Z := [1; 11; 21; 32].

Theorem C13_label_is_bin_boundary : forall bins start d,
  month_bins bins -> valid_date d ->
  exists l, day_bin_label bins start d = Ok l /\ bin_boundary bins start d l.
Proof. exact label_boundary. Qed.
Print Assumptions C13_label_is_bin_boundary.

Theorem C13_labels_monotone : forall bins start a b la lb,
  month_bins bins -> valid_date a -> valid_date b ->
  day_bin_label bins start a = Ok la -> day_bin_label bins start b = Ok lb ->
  date_le a b -> date_le la lb.
Proof. exact labels_monotone. Qed.
Print Assumptions C13_labels_monotone.

Theorem C13_same_label_iff_same_bin : forall bins start a b la lb,
  month_bins bins -> valid_date a -> valid_date b ->
  day_bin_label bins start a = Ok la -> day_bin_label bins start b = Ok lb ->
  (la = lb <-> same_bin bins a b).
Proof. exact labels_same_bin. Qed.
Print Assumptions C13_same_label_iff_same_bin.

Theorem C13_groups : forall (A : Type) bins start (df : list (date * A)),
  month_bins bins -> (forall r, In r df -> valid_date (fst r)) ->
  exists groups, group_by_day_bin bins start df None = Ok groups /\
    StronglySorted date_lt (map fst groups) /\
    (forall k, In k (map fst groups) <-> exists r, In r df /\ bin_boundary bins start (fst r) k) /\
    (forall k rows, In (k, rows) groups ->
       exists sel : date * A -> bool,
         (forall r, In r df -> (sel r = true <-> bin_boundary bins start (fst r) k)) /\
         rows = map snd (filter sel df)).
Proof. exact @group_by_day_bin_spec. Qed.
Print Assumptions C13_groups.

Theorem C13_dates_between : forall s e bins start,
  month_bins bins -> valid_date s -> valid_date e ->
  exists out, grouped_dates_between s e bins start = Ok out /\
    StronglySorted date_lt out /\
    (forall k, In k out <-> exists d, valid_date d /\ date_le s d /\ date_le d e /\ bin_boundary bins start d k).
Proof. exact grouped_dates_between_spec. Qed.
Print Assumptions C13_dates_between.

Example C13_hypotheses_met :
  month_bins dekads /\ valid_date (mkDate 2012 2 25) /\
  day_bin_label dekads false (mkDate 2012 2 25) = Ok (mkDate 2012 2 29) /\
  day_bin_label dekads true (mkDate 2012 2 25) = Ok (mkDate 2012 2 21) /\
  grouped_dates_between (mkDate 2011 12 15) (mkDate 2012 1 5) dekads false =
    Ok [mkDate 2011 12 20; mkDate 2011 12 31; mkDate 2012 1 10].
Proof.
  split; [|vm_compute; repeat split; discriminate].
  split; [|split; [reflexivity|vm_compute; reflexivity]].
  repeat constructor.
Qed.

(* outside the covered days the labels are wrong or missing: a day before the first edge is
   labelled with the last edge under start=True; a day past the last edge is an IndexError; an
   edge 0 (used in the documentation) is a ValueError under start=True *)
Theorem C13_uncovered_days_refuted :
  (exists bins d l, StronglySorted Z.lt bins /\ valid_date d /\
     day_bin_label bins true d = Ok l /\ ~ date_le l d) /\
  (exists bins d, StronglySorted Z.lt bins /\ valid_date d /\ day_bin_label bins false d = Err EIndex) /\
  (exists bins d, StronglySorted Z.lt bins /\ valid_date d /\ day_bin_label bins true d = Err EValue).
Proof.
  split; [|split].
  - exists [11; 21; 32], (mkDate 2012 1 5), (mkDate 2012 1 31).
    split; [repeat constructor|]. split; [vm_compute; repeat split; discriminate|].
    split; [reflexivity|]. rewrite date_le_iff. cbn. lia.
  - exists [0; 11; 21], (mkDate 2012 1 25).
    split; [repeat constructor|]. split; [vm_compute; repeat split; discriminate|reflexivity].
  - exists [0; 11; 21], (mkDate 2012 1 5).
    split; [repeat constructor|]. split; [vm_compute; repeat split; discriminate|reflexivity].
Qed.
Print Assumptions C13_uncovered_days_refuted.

(* ---- C14 ---- *)

(* the four comparisons are decided, consistent with each other, and form a total order that
   is the order of (month, day, time of day) *)
Theorem C14_total_order : forall a b, valid_yl a -> valid_yl b ->
  (exists le lt, yl_le a b = Ok le /\ yl_lt a b = Ok lt /\ yl_ge b a = Ok le /\ yl_gt b a = Ok lt /\
     (le = true <-> moment_le (moment_of_yl a) (moment_of_yl b)) /\
     (lt = true <-> moment_le (moment_of_yl a) (moment_of_yl b) /\ a <> b)) /\
  (yl_le a b = Ok true \/ yl_le b a = Ok true) /\
  (yl_le a b = Ok true -> yl_le b a = Ok true -> a = b) /\
  (forall c, valid_yl c -> yl_le a b = Ok true -> yl_le b c = Ok true -> yl_le a c = Ok true).
Proof.
  intros a b Va Vb.
  destruct (yl_le_spec a b Va Vb) as (le & El & Hl). destruct (yl_lt_spec a b Va Vb) as (lt & Et & Ht).
  destruct (yl_le_spec b a Vb Va) as (le' & El' & Hl').
  assert (T : moment_le (moment_of_yl a) (moment_of_yl b) \/ moment_le (moment_of_yl b) (moment_of_yl a))
    by (unfold moment_le; lia).
  split; [|split; [|split]].
  - exists le, lt. rewrite yl_ge_le, yl_gt_lt by assumption.
    split; [exact El|]. split; [exact Et|]. split; [exact El|]. split; [exact Et|]. split; [exact Hl|].
    rewrite Ht. split.
    + intros H. split; [tauto|]. intros ->. apply H. unfold moment_le; lia.
    + intros [H1 H2] H3. apply H2. apply moment_le_antisym; assumption.
  - rewrite El, El'. destruct T as [T|T]; [left|right]; f_equal; [apply Hl|apply Hl']; exact T.
  - rewrite El, El'. intros H1 H2. injection H1 as ->. injection H2 as ->.
    apply moment_le_antisym; [assumption|assumption|apply Hl; reflexivity|apply Hl'; reflexivity].
  - intros c Vc H1 H2. destruct (yl_le_spec b c Vb Vc) as (r & Er & Hr). destruct (yl_le_spec a c Va Vc) as (q & Eq & Hq).
    rewrite El in H1. injection H1 as ->. rewrite Er in H2. injection H2 as ->. rewrite Eq. f_equal. apply Hq.
    pose proof (proj1 Hl eq_refl). pose proof (proj1 Hr eq_refl). unfold moment_le in *. lia.
Qed.
Print Assumptions C14_total_order.

(* the order agrees with the chronological order of the dates placed in any leap year *)
Theorem C14_agrees_with_leap_years : forall a b Y ta tb, valid_yl a -> valid_yl b -> leap Y = true ->
  yl_in_year a Y = Ok (Some ta) -> yl_in_year b Y = Ok (Some tb) ->
  (yl_le a b = Ok true <-> ts_le ta tb).
Proof.
  intros a b Y ta tb Va Vb L Ha Hb. rewrite yl_in_year_some in Ha, Hb by tauto.
  injection Ha as <-. injection Hb as <-. destruct (yl_le_spec a b Va Vb) as (r & E & H). rewrite E.
  rewrite ts_le_iff. unfold ts_ord, moment_le, moment_of_yl in *. cbn [t_date t_ns dy dm dd mo_m mo_d mo_ns] in *.
  split.
  - intros X. injection X as ->. pose proof (proj1 H eq_refl). lia.
  - intros X. f_equal. apply H. lia.
Qed.
Print Assumptions C14_agrees_with_leap_years.

(* conversion keeps month, day and time, and yields nothing only for 29 February in a common year *)
Theorem C14_to_datetime : forall y Y, valid_yl y ->
  (yl_in_year y Y = Ok None /\ yl_is_feb29 y /\ leap Y = false) \/
  (exists t, yl_in_year y Y = Ok (Some t) /\ yl_at y Y t /\ valid_ts t /\ ~ (yl_is_feb29 y /\ leap Y = false)).
Proof.
  intros y Y V. destruct (leap Y) eqn:L.
  - right. eexists. split; [apply yl_in_year_some; tauto|]. split; [unfold yl_at; cbn; tauto|].
    split; [|intros [_ X]; discriminate]. destruct (yl_time_range y V). destruct V as (V1 & V2 & _).
    split; [split; cbn [t_date dy dm dd]; [exact V1|unfold days_in_month; rewrite L; exact V2]|cbn [t_ns]; unfold day_ns, second_ns in *; lia].
  - destruct (feb29_dec y) as [F|F].
    + left. split; [apply yl_in_year_none; assumption|tauto].
    + right. eexists. split; [apply yl_in_year_some; tauto|]. split; [unfold yl_at; cbn; tauto|].
      split; [|intros [X _]; contradiction]. destruct (yl_time_range y V). destruct V as (V1 & V2 & _).
      destruct (month_len_common _ _ V2) as [X|X]; [contradiction|].
      split; [split; cbn [t_date dy dm dd]; [exact V1|unfold days_in_month; rewrite L; lia]|cbn [t_ns]; unfold day_ns, second_ns in *; lia].
Qed.
Print Assumptions C14_to_datetime.

Theorem C14_to_datetime_years : forall y years, valid_yl y ->
  exists l, yl_to_datetimes y years = Ok l /\
    forall t, In t l <-> exists Y, In Y years /\ yl_in_year y Y = Ok (Some t).
Proof. exact yl_to_datetimes_spec. Qed.
Print Assumptions C14_to_datetime_years.

Example C14_hypotheses_met :
  valid_yl (mkYl 2 29 12 1 10) /\ valid_yl (mkYl 3 1 0 0 0) /\
  yl_le (mkYl 2 29 12 1 10) (mkYl 3 1 0 0 0) = Ok true /\
  yl_to_datetimes (mkYl 2 29 12 1 10) [2019; 2020; 2100] = Ok [mkTs (mkDate 2020 2 29) 43270000000000].
Proof. vm_compute; repeat split; discriminate. Qed.

(* ---- C15 ---- *)
Theorem C15_filter_marks_the_union : forall D idx,
  no_datetime_objects D -> olist (d_gen_ranges D) = [] -> (forall t, In t idx -> valid_ts t) ->
  exists mask, ts_filter D idx = Ok mask /\ marks (meets D) idx mask.
Proof. exact filter_exact. Qed.
Print Assumptions C15_filter_marks_the_union.

Theorem C15_select : forall D df,
  no_datetime_objects D -> olist (d_gen_ranges D) = [] -> (forall r, In r df -> valid_ts (fst r)) ->
  (exists out, ts_select D df false = Ok out /\ subsequence (fun r => meets D (fst r)) df out) /\
  (exists out, ts_select D df true = Ok out /\ blanked (meets D) df out).
Proof. exact select_exact. Qed.
Print Assumptions C15_select.

Definition jan (d : Z) : ts := mkTs (mkDate 2001 1 d) 0.
Example C15_hypotheses_met :
  let D := mkDistr (Some [jan 3]) (Some [(jan 7, jan 5)]) (Some [GYearless (mkYl 1 9 0 0 0)]) None in
  let df := map (fun d => (jan d, [Some 1%Q])) [3; 4; 5; 6; 7; 8; 9] in
  no_datetime_objects D /\ (forall r, In r df -> valid_ts (fst r)) /\
  ts_select D df false = Ok (map (fun d => (jan d, [Some 1%Q])) [3; 5; 6; 7; 9]).
Proof.
  cbv zeta. split; [|split; [|vm_compute; reflexivity]].
  - intros g [<-|[]]. eexists; split; [reflexivity|]. vm_compute; repeat split; discriminate.
  - intros r H. cbn in H. repeat destruct H as [<-|H]; try contradiction; vm_compute; repeat split; discriminate.
Qed.

(* datetime objects in yearless_dates, which the documentation allows, always raise *)
Theorem C15_datetime_objects_refuted :
  exists t idx, valid_ts t /\ ts_filter (mkDistr None None (Some [GDatetime t]) None) idx = Err EOther.
Proof. exists (jan 1), [jan 1]. split; [vm_compute; repeat split; discriminate|reflexivity]. Qed.
Print Assumptions C15_datetime_objects_refuted.

(* ---- C16 ---- *)

(* exact on whole-second timestamps for ranges that do not cross New Year, or when the index also
   has data of the year before each of its years *)
Theorem C16_yearless_ranges_partial : forall rs idx,
  (forall r, In r rs -> usable_range r) ->
  (forall t, In t idx -> valid_ts t /\ whole_second t) ->
  (forall r, In r rs -> wraps r -> forall t, In t idx -> exists t', In t' idx /\ dy (t_date t') = dy (t_date t) - 1) \/
  (forall r, In r rs -> ~ wraps r) ->
  exists mask, ts_filter (yearless_only rs) idx = Ok mask /\
    marks (fun t => exists r, In r rs /\ in_season r t) idx mask.
Proof. exact filter_seasons_exact. Qed.
Print Assumptions C16_yearless_ranges_partial.

(* what is selected in general: the part of a season that lies after New Year needs data in the
   year before *)
Theorem C16_selected_exactly_partial : forall rs idx,
  (forall r, In r rs -> usable_range r) ->
  (forall t, In t idx -> valid_ts t /\ whole_second t) ->
  exists mask, ts_filter (yearless_only rs) idx = Ok mask /\
    marks (fun t => exists r, In r rs /\ in_season r t /\ season_reached idx r t) idx mask.
Proof. exact filter_seasons. Qed.
Print Assumptions C16_selected_exactly_partial.

Definition noon (y m d : Z) : ts := mkTs (mkDate y m d) (43200 * second_ns).

Example C16_hypotheses_met :
  let r := (mkYl 12 1 0 0 0, mkYl 2 29 23 59 59) in
  usable_range r /\ wraps r /\
  ts_filter (yearless_only [r]) [noon 2000 11 30; noon 2000 12 1; noon 2001 1 5; noon 2001 2 28; noon 2001 3 1]
    = Ok [false; true; true; true; false].
Proof.
  split; [|split; [|vm_compute; reflexivity]].
  - split; [vm_compute; repeat split; discriminate|]. split; [vm_compute; repeat split; discriminate|].
    unfold within_feb29, yl_is_feb29; cbn; lia.
  - unfold wraps, moment_le; cbn; lia.
Qed.

(* a winter range misses January of the first year of the data *)
Theorem C16_new_year_refuted :
  exists r t idx, usable_range r /\ In t idx /\ (forall t, In t idx -> valid_ts t /\ whole_second t) /\
    in_season r t /\ ts_filter (yearless_only [r]) idx = Ok [false; true].
Proof.
  exists (mkYl 12 1 0 0 0, mkYl 2 28 23 59 59), (noon 2001 1 5), [noon 2001 1 5; noon 2001 12 5].
  split; [|split; [|split; [|split]]].
  - split; [vm_compute; repeat split; discriminate|]. split; [vm_compute; repeat split; discriminate|].
    unfold within_feb29, yl_is_feb29; cbn; lia.
  - left; reflexivity.
  - intros t [<-|[<-|[]]]; (split; [vm_compute; repeat split; discriminate|exists 43200; reflexivity]).
  - right. unfold moment_le. cbn. lia.
  - vm_compute. reflexivity.
Qed.
Print Assumptions C16_new_year_refuted.

(* a range inside 29 February selects the rest of the year in common years; whether that happens
   to a timestamp depends on which other years are in the index (column names collide) *)
Theorem C16_feb29_refuted :
  (exists r t, valid_yl (fst r) /\ valid_yl (snd r) /\ valid_ts t /\ whole_second t /\ ~ in_season r t /\
     ts_filter (yearless_only [r]) [t] = Ok [true]) /\
  (exists r idx t, valid_yl (fst r) /\ valid_yl (snd r) /\ nth_error idx 0 = Some t /\ valid_ts t /\ whole_second t /\
     ~ in_season r t /\ ts_filter (yearless_only [r]) idx = Ok [false; true] /\
     ts_filter (yearless_only [r]) [t] = Ok [true]).
Proof.
  assert (NS : ~ in_season (mkYl 2 29 0 0 0, mkYl 2 29 23 59 59) (noon 2019 7 1)).
  { unfold in_season, moment_le. cbn. lia. }
  assert (V : valid_ts (noon 2019 7 1) /\ whole_second (noon 2019 7 1)).
  { split; [vm_compute; repeat split; discriminate|exists 43200; reflexivity]. }
  split.
  - exists (mkYl 2 29 0 0 0, mkYl 2 29 23 59 59), (noon 2019 7 1).
    split; [vm_compute; repeat split; discriminate|]. split; [vm_compute; repeat split; discriminate|].
    split; [apply V|]. split; [apply V|]. split; [exact NS|vm_compute; reflexivity].
  - exists (mkYl 2 29 0 0 0, mkYl 2 29 23 59 59), [noon 2019 7 1; noon 2020 2 29], (noon 2019 7 1).
    split; [vm_compute; repeat split; discriminate|]. split; [vm_compute; repeat split; discriminate|].
    split; [reflexivity|]. split; [apply V|]. split; [apply V|]. split; [exact NS|]. split; vm_compute; reflexivity.
Qed.
Print Assumptions C16_feb29_refuted.

(* ---- C17 ---- *)
Theorem C17_default_seasons_partition : forall idx,
  (forall t, In t idx -> valid_ts t /\ whole_second t) ->
  exists masks : string -> list bool,
    (forall name months, In (name, months) default_month_subsets ->
       ts_filter (months_distributor months) idx = Ok (masks name)) /\
    forall j t, nth_error idx j = Some t ->
      In (season_of t) seasons /\
      nth_error (masks "ALL"%string) j = Some true /\
      nth_error (masks (season_of t)) j = Some true /\
      (forall s, In s seasons -> s <> season_of t -> nth_error (masks s) j = Some false).
Proof. exact default_seasons_partition. Qed.
Print Assumptions C17_default_seasons_partition.

Theorem C17_month_subsets : forall months idx,
  (forall m, In m months -> 1 <= m <= 12) ->
  (forall t, In t idx -> valid_ts t /\ whole_second t) ->
  exists mask, ts_filter (months_distributor months) idx = Ok mask /\
    marks (fun t => In (dm (t_date t)) months) idx mask.
Proof. exact months_exact. Qed.
Print Assumptions C17_month_subsets.

Example C17_hypotheses_met :
  let idx := [noon 2019 2 28; noon 2020 2 29; noon 2020 12 31; noon 2020 6 15] in
  (forall t, In t idx -> valid_ts t /\ whole_second t) /\
  ts_filter (months_distributor [12; 1; 2]) idx = Ok [true; true; true; false].
Proof.
  cbv zeta. split; [|vm_compute; reflexivity].
  intros t H. cbn in H. repeat destruct H as [<-|H]; try contradiction;
    (split; [vm_compute; repeat split; discriminate|exists 43200; reflexivity]).
Qed.

(* below the second the subsets leave gaps: the last second of a month belongs to no subset, not
   even to ALL *)
Theorem C17_subsecond_refuted :
  exists t, valid_ts t /\ forall name months, In (name, months) default_month_subsets ->
    ts_filter (months_distributor months) [t] = Ok [false].
Proof.
  exists (mkTs (mkDate 2001 1 31) (86399 * second_ns + 500000000)).
  split; [vm_compute; repeat split; discriminate|].
  intros name months H. cbn in H. repeat destruct H as [H|H]; try contradiction; injection H as <- <-; vm_compute; reflexivity.
Qed.
Print Assumptions C17_subsecond_refuted.
