From Verif Require Import Base BaseProofs Calendar GroupingModel GroupingSpec GroupingProofs.
From Verif Require AnomalyProofs.
From Coq Require Import ZifyBool ZifyNat.
Ltac Zify.zify_post_hook ::= Z.div_mod_to_equations.

(* ------------------------------------------------------------- timestamps *)

Lemma ts_ext a b : t_date a = t_date b -> t_ns a = t_ns b -> a = b.
Proof. destruct a, b; cbn. intros -> ->. reflexivity. Qed.

Lemma ts_eqb_spec a b : ts_eqb a b = true <-> a = b.
Proof.
  unfold ts_eqb. rewrite andb_true_iff, date_eqb_spec, Z.eqb_eq. split.
  - intros []; apply ts_ext; assumption.
  - intros ->; split; reflexivity.
Qed.

Lemma ts_ltb_spec a b : ts_ltb a b = true <-> ts_lt a b.
Proof.
  unfold ts_ltb, ts_lt. rewrite orb_true_iff, andb_true_iff, date_ltb_spec, date_eqb_spec, Z.ltb_lt. tauto.
Qed.

Lemma ts_leb_spec a b : ts_leb a b = true <-> ts_le a b.
Proof. unfold ts_leb, ts_le. rewrite orb_true_iff, ts_ltb_spec, ts_eqb_spec. tauto. Qed.

Definition ts_ord (a b : ts) (c : Prop) : Prop :=
  dy (t_date a) < dy (t_date b) \/ (dy (t_date a) = dy (t_date b) /\
    (dm (t_date a) < dm (t_date b) \/ (dm (t_date a) = dm (t_date b) /\
      (dd (t_date a) < dd (t_date b) \/ (dd (t_date a) = dd (t_date b) /\ c))))).

Lemma ts_lt_iff a b : ts_lt a b <-> ts_ord a b (t_ns a < t_ns b).
Proof.
  unfold ts_lt, date_lt, ts_ord. split.
  - intros [H|[-> H]]; lia.
  - intros H. destruct (Z.eq_dec (dy (t_date a)) (dy (t_date b))), (Z.eq_dec (dm (t_date a)) (dm (t_date b))),
      (Z.eq_dec (dd (t_date a)) (dd (t_date b))).
    1: { right; split; [apply date_ext; assumption|lia]. }
    all: left; lia.
Qed.

Lemma ts_le_iff a b : ts_le a b <-> ts_ord a b (t_ns a <= t_ns b).
Proof.
  unfold ts_le. rewrite ts_lt_iff. unfold ts_ord. split.
  - intros [->|H]; lia.
  - intros H. destruct (Z.eq_dec (dy (t_date a)) (dy (t_date b))), (Z.eq_dec (dm (t_date a)) (dm (t_date b))),
      (Z.eq_dec (dd (t_date a)) (dd (t_date b))), (Z.eq_dec (t_ns a) (t_ns b)).
    1: { left; apply ts_ext; [apply date_ext|]; assumption. }
    all: right; lia.
Qed.

(* -------------------------------------------------------- yearless dates *)

Lemma doy60 y : valid_yl y -> (yl_doy y =? 60) = true <-> yl_is_feb29 y.
Proof.
  intros (M & D & _). unfold yl_doy, yl_is_feb29. rewrite Z.eqb_eq. change 60 with (doy 2 29). split.
  - intros H. apply AnomalyProofs.doy_injective in H; [exact H|exact M|exact D|lia|cbn; lia].
  - intros [-> ->]. reflexivity.
Qed.

Lemma feb29_dec y : yl_is_feb29 y \/ ~ yl_is_feb29 y.
Proof. unfold yl_is_feb29. lia. Qed.

Lemma month_len_common m d : 1 <= d <= month_len true m -> (m = 2 /\ d = 29) \/ d <= month_len false m.
Proof.
  unfold month_len. destruct (Z.eqb_spec m 2); lia.
Qed.

Lemma yl_in_year_none y Y : valid_yl y -> leap Y = false -> yl_is_feb29 y -> yl_in_year y Y = Ok None.
Proof.
  intros V L F. unfold yl_in_year. rewrite L, (proj2 (doy60 y V) F). reflexivity.
Qed.

Lemma yl_in_year_some y Y : valid_yl y -> leap Y = true \/ ~ yl_is_feb29 y ->
  yl_in_year y Y = Ok (Some (mkTs (mkDate Y (yl_month y) (yl_day y)) (yl_time y))).
Proof.
  intros V H. unfold yl_in_year.
  replace (negb (leap Y) && (yl_doy y =? 60)) with false.
  2: { destruct (leap Y) eqn:L; cbn [negb andb]; [reflexivity|].
       destruct H as [H|H]; [discriminate|]. destruct (yl_doy y =? 60) eqn:E; [|reflexivity].
       exfalso. apply H, doy60; assumption. }
  unfold make_datetime, make_date. destruct V as (V1 & V2 & V3 & V4 & V5).
  replace ((0 <=? yl_hour y) && (yl_hour y <? 24) && (0 <=? yl_minute y) && (yl_minute y <? 60)
           && (0 <=? yl_second y) && (yl_second y <? 60)) with true by lia.
  assert (D : yl_day y <= days_in_month Y (yl_month y)).
  { unfold days_in_month. destruct (leap Y) eqn:L; [lia|]. destruct H as [H|H]; [discriminate|].
    destruct (month_len_common _ _ V2) as [[A B]|A]; [exfalso; apply H; split; assumption|exact A]. }
  replace ((1 <=? yl_month y) && (yl_month y <=? 12) && (1 <=? yl_day y) &&
           (yl_day y <=? days_in_month Y (yl_month y))) with true by lia.
  reflexivity.
Qed.

Lemma leap2400 : leap 2400 = true. Proof. reflexivity. Qed.

Lemma yl_cmp_spec f a b : valid_yl a -> valid_yl b ->
  yl_cmp f a b = Ok (f (mkTs (mkDate 2400 (yl_month a) (yl_day a)) (yl_time a))
                       (mkTs (mkDate 2400 (yl_month b) (yl_day b)) (yl_time b))).
Proof.
  intros Va Vb. unfold yl_cmp.
  rewrite (yl_in_year_some a 2400 Va (or_introl leap2400)), (yl_in_year_some b 2400 Vb (or_introl leap2400)).
  reflexivity.
Qed.

Lemma yl_time_range y : valid_yl y -> 0 <= yl_time y <= day_ns - second_ns.
Proof. intros (_ & _ & H1 & H2 & H3). unfold yl_time, day_ns, second_ns. lia. Qed.

Lemma yl_time_inj a b : valid_yl a -> valid_yl b -> yl_time a = yl_time b ->
  yl_hour a = yl_hour b /\ yl_minute a = yl_minute b /\ yl_second a = yl_second b.
Proof. intros (_ & _ & A) (_ & _ & B). unfold yl_time, second_ns. lia. Qed.

Lemma yl_lt_spec a b : valid_yl a -> valid_yl b ->
  exists r, yl_lt a b = Ok r /\ (r = true <-> ~ moment_le (moment_of_yl b) (moment_of_yl a)).
Proof.
  intros Va Vb. unfold yl_lt. rewrite yl_cmp_spec by assumption. eexists; split; [reflexivity|].
  rewrite ts_ltb_spec, ts_lt_iff. unfold ts_ord, moment_le, moment_of_yl. cbn [t_date t_ns dy dm dd mo_m mo_d mo_ns]. lia.
Qed.

Lemma yl_le_spec a b : valid_yl a -> valid_yl b ->
  exists r, yl_le a b = Ok r /\ (r = true <-> moment_le (moment_of_yl a) (moment_of_yl b)).
Proof.
  intros Va Vb. unfold yl_le. rewrite yl_cmp_spec by assumption. eexists; split; [reflexivity|].
  rewrite ts_leb_spec, ts_le_iff. unfold ts_ord, moment_le, moment_of_yl. cbn [t_date t_ns dy dm dd mo_m mo_d mo_ns]. lia.
Qed.

Lemma yl_gt_lt a b : valid_yl a -> valid_yl b -> yl_gt a b = yl_lt b a.
Proof. intros. unfold yl_gt, yl_lt. rewrite !yl_cmp_spec by assumption. reflexivity. Qed.
Lemma yl_ge_le a b : valid_yl a -> valid_yl b -> yl_ge a b = yl_le b a.
Proof. intros. unfold yl_ge, yl_le. rewrite !yl_cmp_spec by assumption. reflexivity. Qed.

Lemma moment_le_antisym a b : valid_yl a -> valid_yl b ->
  moment_le (moment_of_yl a) (moment_of_yl b) -> moment_le (moment_of_yl b) (moment_of_yl a) -> a = b.
Proof.
  intros Va Vb H1 H2. unfold moment_le, moment_of_yl in *. cbn [mo_m mo_d mo_ns] in *.
  assert (E : yl_time a = yl_time b) by lia. destruct (yl_time_inj a b Va Vb E) as (E1 & E2 & E3).
  assert (yl_month a = yl_month b) by lia. assert (yl_day a = yl_day b) by lia.
  destruct a, b; cbn in *; subst; reflexivity.
Qed.

Lemma yl_in_year_at y Y t : valid_yl y -> yl_in_year y Y = Ok (Some t) -> yl_at y Y t.
Proof.
  intros V H. destruct (feb29_dec y) as [F|F].
  - destruct (leap Y) eqn:L; [|rewrite (yl_in_year_none y Y V L F) in H; discriminate].
    rewrite yl_in_year_some in H by tauto. injection H as <-. unfold yl_at. cbn. tauto.
  - rewrite yl_in_year_some in H by tauto. injection H as <-. unfold yl_at. cbn. tauto.
Qed.

Lemma yl_at_unique y Y t t' : yl_at y Y t -> yl_at y Y t' -> t = t'.
Proof.
  intros (A & B & C & D) (A' & B' & C' & D'). apply ts_ext; [apply date_ext|]; congruence.
Qed.

Lemma yl_at_valid y Y t : valid_yl y -> valid_ts t -> yl_at y Y t -> yl_in_year y Y = Ok (Some t).
Proof.
  intros V [[V1 V2] V3] (A & B & C & D).
  assert (H : leap Y = true \/ ~ yl_is_feb29 y).
  { destruct (leap Y) eqn:L; [left; reflexivity|right]. intros [F1 F2].
    rewrite A, B, F1, C, F2 in V2. unfold days_in_month in V2. rewrite L in V2. cbn in V2. lia. }
  rewrite yl_in_year_some by assumption. do 2 f_equal. apply ts_ext; [apply date_ext|]; cbn; congruence.
Qed.

Lemma yl_to_datetimes_spec y years : valid_yl y ->
  exists l, yl_to_datetimes y years = Ok l /\
    forall t, In t l <-> exists Y, In Y years /\ yl_in_year y Y = Ok (Some t).
Proof.
  intros V. unfold yl_to_datetimes.
  destruct (seqR_map_ok (yl_in_year y) years) as (r & E & F).
  { intros Y _. destruct (feb29_dec y) as [Fe|Fe].
    - destruct (leap Y) eqn:L; eexists; [apply yl_in_year_some; tauto|apply yl_in_year_none; assumption].
    - eexists; apply yl_in_year_some; tauto. }
  rewrite E. cbn [mapR]. eexists; split; [reflexivity|]. intros t. rewrite vals_in.
  clear E. induction F as [|Y o ys os H F IH]; cbn [In].
  - split; [intros []|intros (Y & [] & _)].
  - rewrite IH. split.
    + intros [->|(Y' & I & H')]; [exists Y; tauto|exists Y'; tauto].
    + intros (Y' & [->|I] & H'); [left; congruence|right; exists Y'; tauto].
Qed.

(* ----------------------------------------------------------------- years *)

Lemma z_insert_in x l a : In a (z_insert x l) <-> a = x \/ In a l.
Proof.
  induction l as [|y l IH]; cbn [z_insert]; [cbn; intuition congruence|].
  destruct (x <? y); [cbn; intuition congruence|].
  destruct (Z.eqb_spec x y); [subst; cbn; intuition congruence|]. cbn [In]. rewrite IH. tauto.
Qed.
Lemma z_insert_sorted x l : StronglySorted Z.lt l -> StronglySorted Z.lt (z_insert x l).
Proof.
  induction 1 as [|y l S IH F]; cbn [z_insert]; [constructor; constructor|].
  destruct (Z.ltb_spec x y).
  - constructor; [constructor; assumption|]. constructor; [lia|]. eapply Forall_impl; [|exact F]. cbn. lia.
  - destruct (Z.eqb_spec x y); [constructor; assumption|]. constructor; [exact IH|].
    apply Forall_forall. intros a Ha. apply z_insert_in in Ha as [->|Ha]; [lia|].
    rewrite Forall_forall in F. apply F. exact Ha.
Qed.
Lemma z_unique_in l a : In a (z_unique l) <-> In a l.
Proof.
  induction l as [|y l IH]; cbn [z_unique fold_right]; [tauto|].
  rewrite z_insert_in. unfold z_unique in IH. rewrite IH. cbn. intuition congruence.
Qed.
Lemma z_unique_sorted l : StronglySorted Z.lt (z_unique l).
Proof. induction l; cbn; [constructor|]. apply z_insert_sorted; assumption. Qed.
Lemma SSlt_nodup l : StronglySorted Z.lt l -> NoDup l.
Proof.
  induction 1 as [|x l S IH F]; constructor; [|exact IH].
  intros H. rewrite Forall_forall in F. specialize (F x H). lia.
Qed.
Lemma years_of_in idx Y : In Y (years_of idx) <-> exists t, In t idx /\ dy (t_date t) = Y.
Proof.
  unfold years_of. rewrite z_unique_in, in_map_iff. split; intros (t & A & B); exists t; tauto.
Qed.

(* --------------------------------------------------------- yearless ranges *)

(* what one yearless range marks through the entry of year [Y] *)
Definition marked_in (r : yearless * yearless) (Y : Z) (t : ts) : Prop :=
  (~ wraps r /\ dy (t_date t) = Y /\ in_season r t) \/
  (wraps r /\ ((dy (t_date t) = Y /\ moment_le (moment_of_yl (fst r)) (moment_of_ts t)) \/
               (dy (t_date t) = Y + 1 /\ moment_le (moment_of_ts t) (moment_of_yl (snd r))))).

Lemma valid_ts_facts t : valid_ts t -> 1 <= dm (t_date t) <= 12 /\ 1 <= dd (t_date t) <= 31 /\
  dd (t_date t) <= days_in_month (dy (t_date t)) (dm (t_date t)) /\ 0 <= t_ns t < day_ns.
Proof.
  intros [[A B] C]. pose proof (days_in_month_range (dy (t_date t)) (dm (t_date t))). lia.
Qed.

Lemma feb_len Y : leap Y = false -> days_in_month Y 2 = 28.
Proof. intros L. unfold days_in_month. rewrite L. reflexivity. Qed.

Lemma wraps_dec r : wraps r \/ ~ wraps r.
Proof. unfold wraps, moment_le. lia. Qed.

Lemma gen_range_col_spec idx r Y : valid_yl (fst r) -> valid_yl (snd r) -> ~ within_feb29 r ->
  exists Y' f, gen_range_col idx r Y = Ok (Y', map f idx) /\
    (wraps r -> Y' = Y + 1) /\ (~ wraps r -> Y' = Y) /\
    forall t, valid_ts t -> whole_second t -> (f t = true <-> marked_in r Y t).
Proof.
  intros Vs Ve NF. unfold gen_range_col.
  set (start := if negb (leap Y) && (yl_doy (fst r) =? 60) then mkYl 3 1 0 0 0 else fst r).
  assert (Vst : valid_yl start).
  { unfold start. destruct (negb (leap Y) && (yl_doy (fst r) =? 60)); [|exact Vs].
    unfold valid_yl; cbn; lia. }
  assert (St : (leap Y = false /\ yl_is_feb29 (fst r) /\ start = mkYl 3 1 0 0 0) \/
               ((leap Y = true \/ ~ yl_is_feb29 (fst r)) /\ start = fst r)).
  { unfold start. destruct (leap Y); cbn [negb andb]; [right; tauto|].
    destruct (yl_doy (fst r) =? 60) eqn:E.
    - left. apply doy60 in E; tauto.
    - right. split; [right|reflexivity]. intros F. apply doy60 in F; [congruence|assumption]. }
  clearbody start.
  rewrite (yl_in_year_some start Y Vst).
  2: { destruct St as [(A & B & ->)|([A|A] & ->)]; [right; unfold yl_is_feb29; cbn; lia|tauto|tauto]. }
  cbn [bindR].
  destruct (yl_lt_spec (snd r) start Ve Vst) as (w & Ew & Hw). rewrite Ew. cbn [bindR].
  assert (Ww : w = true <-> wraps r).
  { rewrite Hw. unfold wraps. destruct St as [(A & B & ->)|(_ & ->)]; [|tauto].
    unfold within_feb29 in NF. unfold moment_le, moment_of_yl, yl_is_feb29 in *.
    pose proof (yl_time_range (snd r) Ve). destruct Ve as (Ve1 & Ve2 & _). pose proof (month_len_range true (yl_month (snd r))).
    assert (yl_month (snd r) = 2 -> yl_day (snd r) <= 29) by (intros E; rewrite E in Ve2; exact (proj2 Ve2)).
    cbn [yl_month yl_day mo_m mo_d mo_ns] in *. change (yl_time (mkYl 3 1 0 0 0)) with 0.
    pose proof (yl_time_range (fst r) Vs). 
    lia. }
  set (Y' := if w then Y + 1 else Y).
  set (end1 := if negb (leap Y') && (yl_doy (snd r) =? 60) then mkYl 2 28 23 59 59 else snd r).
  assert (Ve1 : valid_yl end1).
  { unfold end1. destruct (negb (leap Y') && (yl_doy (snd r) =? 60)); [|exact Ve]. unfold valid_yl; cbn; lia. }
  assert (En : (leap Y' = false /\ yl_is_feb29 (snd r) /\ end1 = mkYl 2 28 23 59 59) \/
               ((leap Y' = true \/ ~ yl_is_feb29 (snd r)) /\ end1 = snd r)).
  { unfold end1. destruct (leap Y'); cbn [negb andb]; [right; tauto|].
    destruct (yl_doy (snd r) =? 60) eqn:E.
    - left. apply doy60 in E; tauto.
    - right. split; [right|reflexivity]. intros F. apply doy60 in F; [congruence|assumption]. }
  clearbody end1.
  rewrite (yl_in_year_some end1 Y' Ve1).
  2: { destruct En as [(A & B & ->)|([A|A] & ->)]; [right; unfold yl_is_feb29; cbn; lia|tauto|tauto]. }
  cbn [bindR]. do 2 eexists. split; [reflexivity|].
  assert (HY : (wraps r -> Y' = Y + 1) /\ (~ wraps r -> Y' = Y)).
  { unfold Y'. destruct w; split; intros X; try reflexivity; exfalso.
    - apply X, Ww; reflexivity.
    - apply Ww in X; discriminate. }
  destruct HY as [HY1 HY2]. split; [exact HY1|]. split; [exact HY2|].
  intros t Vt [k Hk]. rewrite andb_true_iff, !ts_leb_spec, !ts_le_iff.
  destruct (valid_ts_facts t Vt) as (T1 & T2 & T3 & T4).
  pose proof (feb_len Y) as FY. pose proof (feb_len Y') as FY'.
  pose proof (yl_time_range (fst r) Vs) as R1. pose proof (yl_time_range (snd r) Ve) as R2.
  clearbody Y'. clear Ew Hw Ww w.
  assert (T5 : dy (t_date t) = Y -> dm (t_date t) = 2 -> leap Y = false -> dd (t_date t) <= 28).
  { intros A B C. rewrite A, B in T3. rewrite (FY C) in T3. exact T3. }
  assert (T6 : dy (t_date t) = Y' -> dm (t_date t) = 2 -> leap Y' = false -> dd (t_date t) <= 28).
  { intros A B C. rewrite A, B in T3. rewrite (FY' C) in T3. exact T3. }
  clear FY FY' T3 Vst Ve1.
  assert (Tend : t_ns t <= 86399 * second_ns) by (unfold day_ns, second_ns in *; lia).
  assert (HS : dy (t_date t) = Y -> (moment_le (moment_of_yl start) (moment_of_ts t) <->
                                     moment_le (moment_of_yl (fst r)) (moment_of_ts t))).
  { intros E. destruct St as [(A & [B1 B2] & ->)|(_ & ->)]; [|tauto].
    unfold moment_le, moment_of_yl, moment_of_ts. rewrite B1, B2. cbn [mo_m mo_d mo_ns yl_month yl_day].
    change (yl_time (mkYl 3 1 0 0 0)) with 0. specialize (T5 E). lia. }
  assert (HE : dy (t_date t) = Y' -> (moment_le (moment_of_ts t) (moment_of_yl end1) <->
                                     moment_le (moment_of_ts t) (moment_of_yl (snd r)))).
  { intros E. destruct En as [(A & [B1 B2] & ->)|(_ & ->)]; [|tauto].
    unfold moment_le, moment_of_yl, moment_of_ts. rewrite B1, B2. cbn [mo_m mo_d mo_ns yl_month yl_day].
    change (yl_time (mkYl 2 28 23 59 59)) with (86399 * second_ns). specialize (T6 E). lia. }
  assert (G1 : ts_ord (mkTs (mkDate Y (yl_month start) (yl_day start)) (yl_time start)) t
                 (yl_time start <= t_ns t) <->
               Y < dy (t_date t) \/ (Y = dy (t_date t) /\ moment_le (moment_of_yl start) (moment_of_ts t)))
    by reflexivity.
  assert (G2 : ts_ord t (mkTs (mkDate Y' (yl_month end1) (yl_day end1)) (yl_time end1))
                 (t_ns t <= yl_time end1) <->
               dy (t_date t) < Y' \/ (dy (t_date t) = Y' /\ moment_le (moment_of_ts t) (moment_of_yl end1)))
    by reflexivity.
  cbn [t_ns] in *. rewrite G1, G2. clear G1 G2 T1 T2 T4 T5 T6 Tend R1 R2 St En NF Hk.
  unfold marked_in, in_season, wraps in *.
  remember (moment_le (moment_of_yl (fst r)) (moment_of_yl (snd r))) as W eqn:EW.
  assert (DW : W \/ ~ W) by (subst W; unfold moment_le; lia).
  destruct DW as [DW|DW].
  - rewrite HY2 in * by tauto. clear HY1 HY2. split.
    + intros [[H1|[H1 H2]] [H3|[H3 H4]]]; try lia. left. split; [tauto|]. split; [exact H3|]. left.
      split; [exact DW|]. split; [apply HS|apply HE]; assumption.
    + intros [(_ & E & [(_ & H1 & H2)|(H & _)])|(H & _)]; try tauto.
      split; right; (split; [congruence|]); [apply HS|apply HE]; assumption.
  - rewrite HY1 in * by tauto. clear HY1 HY2. split.
    + intros [[H1|[H1 H2]] [H3|[H3 H4]]]; right; (split; [exact DW|]); try lia.
      * right. split; [exact H3|]. apply HE; assumption.
      * left. split; [congruence|]. apply HS; [congruence|assumption].
    + intros [(H & _)|(_ & [(E & H)|(E & H)])]; [tauto| |].
      * split; [right; split; [congruence|apply HS; assumption]|left; lia].
      * split; [left; lia|right; split; [exact E|apply HE; assumption]].
Qed.

(* ------------------------------------------------- columns of the mask *)

Definition columns_of (idx : list ts) (cols : list (mask_key * list bool)) (fs : list (ts -> bool)) : Prop :=
  Forall2 (fun kc f => snd kc = map f idx) cols fs.

Lemma mask_key_eqb_spec a b : mask_key_eqb a b = true <-> a = b.
Proof.
  destruct a, b; cbn [mask_key_eqb]; split; intros H; try discriminate; try reflexivity.
  - apply Nat.eqb_eq in H as ->. reflexivity.
  - injection H as ->. apply Nat.eqb_refl.
  - apply andb_true_iff in H as [H1 H2]. apply Z.eqb_eq in H1 as ->. apply Nat.eqb_eq in H2 as ->. reflexivity.
  - injection H as -> ->. rewrite Z.eqb_refl, Nat.eqb_refl. reflexivity.
Qed.

Lemma dict_set_fresh {V} (d : list (mask_key * V)) k v :
  ~ In k (map fst d) -> dict_set mask_key_eqb d k v = d ++ [(k, v)].
Proof.
  induction d as [|[k' v'] d IH]; intros H; cbn [dict_set app]; [reflexivity|].
  destruct (mask_key_eqb k' k) eqn:E.
  - apply mask_key_eqb_spec in E as ->. exfalso. apply H. left. reflexivity.
  - rewrite IH; [reflexivity|]. intros X. apply H. right. exact X.
Qed.

Lemma dict_fill_fresh {V} (kcs d : list (mask_key * V)) :
  NoDup (map fst (d ++ kcs)) ->
  fold_left (fun d kc => dict_set mask_key_eqb d (fst kc) (snd kc)) kcs d = d ++ kcs.
Proof.
  revert d; induction kcs as [|[k v] kcs IH]; intros d H; cbn [fold_left]; [rewrite app_nil_r; reflexivity|].
  cbn [fst snd]. rewrite dict_set_fresh.
  - rewrite IH; rewrite <- app_assoc; [reflexivity|exact H].
  - rewrite map_app in H. cbn [map fst] in H. apply NoDup_remove_2 in H. intros X. apply H.
    apply in_or_app. left. exact X.
Qed.

Lemma seqR_app_ok {A} (l m : list (res A)) a b : seqR l = Ok a -> seqR m = Ok b -> seqR (l ++ m) = Ok (a ++ b).
Proof.
  revert a; induction l as [|x l IH]; intros a Ha Hb; cbn [seqR app] in *.
  - injection Ha as <-. exact Hb.
  - destruct x as [x|e]; cbn [bindR] in *; [|discriminate].
    destruct (seqR l) as [a'|e]; cbn [bindR] in *; [|discriminate]. injection Ha as <-.
    rewrite (IH a' eq_refl Hb). reflexivity.
Qed.

Notation good_range := usable_range.

Lemma gen_range_years idx r i years : good_range r -> NoDup years ->
  exists out fs delta,
    seqR (map (fun y => mapR (fun yc => (KGenRange (fst yc) i, snd yc)) (gen_range_col idx r y)) years) = Ok out /\
    map fst out = map (fun Y => KGenRange (Y + delta) i) years /\
    columns_of idx out fs /\
    forall t, valid_ts t -> whole_second t ->
      (existsb (fun f => f t) fs = true <-> exists Y, In Y years /\ marked_in r Y t).
Proof.
  intros (Vs & Ve & NF) ND.
  assert (D : exists delta, forall Y, exists f, gen_range_col idx r Y = Ok (Y + delta, map f idx) /\
     forall t, valid_ts t -> whole_second t -> (f t = true <-> marked_in r Y t)).
  { destruct (wraps_dec r) as [W|W]; [exists 1|exists 0]; intros Y;
      destruct (gen_range_col_spec idx r Y Vs Ve NF) as (Y' & f & E & H1 & H2 & H3); exists f;
      rewrite E; (split; [|exact H3]); do 2 f_equal; [apply H1; exact W|rewrite Z.add_0_r; apply H2; exact W]. }
  destruct D as (delta & D).
  induction years as [|Y years IH].
  - exists [], [], delta. cbn. repeat split; try constructor; try discriminate. intros (Y & [] & _).
  - inversion ND as [|? ? N1 N2]; subst. destruct (IH N2) as (out & fs & delta' & E & K & C & S).
    destruct (D Y) as (f & Ef & Sf).
    destruct years as [|Y2 years].
    + exists [(KGenRange (Y + delta) i, map f idx)], [f], delta. cbn [map seqR]. rewrite Ef. cbn [mapR bindR fst snd].
      split; [reflexivity|]. split; [reflexivity|]. split; [constructor; [reflexivity|constructor]|].
      intros t Vt Wt. cbn [existsb]. rewrite orb_false_r, Sf by assumption. split.
      * intros H. exists Y. split; [left; reflexivity|exact H].
      * intros (Y' & [<-|[]] & H). exact H.
    + assert (delta' = delta).
      { destruct (D Y2) as (f2 & Ef2 & _). cbn [map seqR] in E. rewrite Ef2 in E. cbn [mapR bindR fst snd] in E.
        destruct (seqR _) as [o|] in E; cbn [bindR] in E; [|discriminate]. injection E as <-.
        cbn [map fst] in K. injection K as K _. lia. }
      subst delta'. exists ((KGenRange (Y + delta) i, map f idx) :: out), (f :: fs), delta.
      remember (Y2 :: years) as ys. cbn [map seqR]. rewrite Ef. cbn [mapR bindR fst snd]. rewrite E. cbn [bindR].
      split; [reflexivity|]. split; [cbn [map fst]; rewrite K; reflexivity|].
      split; [constructor; [reflexivity|exact C]|].
      intros t Vt Wt. cbn [existsb]. rewrite orb_true_iff, Sf, S by assumption. split.
      * intros [H|(Y' & I & H)]; [exists Y; split; [left; reflexivity|exact H]|exists Y'; split; [right; exact I|exact H]].
      * intros (Y' & [<-|I] & H); [left; exact H|right; exists Y'; tauto].
Qed.

Lemma gen_range_all idx years (irs : list (nat * (yearless * yearless))) :
  NoDup years -> NoDup (map fst irs) -> (forall ir, In ir irs -> good_range (snd ir)) ->
  exists out fs,
    seqR (List.concat (map (fun ir : nat * (yearless * yearless) =>
          map (fun y => mapR (fun yc => (KGenRange (fst yc) (fst ir), snd yc))
                             (gen_range_col idx (snd ir) y)) years) irs)) = Ok out /\
    NoDup (map fst out) /\
    (forall k, In k (map fst out) -> exists Y i, k = KGenRange Y i /\ In i (map fst irs)) /\
    columns_of idx out fs /\
    forall t, valid_ts t -> whole_second t ->
      (existsb (fun f => f t) fs = true <-> exists ir Y, In ir irs /\ In Y years /\ marked_in (snd ir) Y t).
Proof.
  intros NY. induction irs as [|[i r] irs IH]; intros ND G.
  - exists [], []. cbn. split; [reflexivity|]. split; [constructor|]. split; [intros k []|]. split; [constructor|].
    intros t _ _. split; [discriminate|]. intros (ir & Y & [] & _).
  - cbn [map fst] in ND. inversion ND as [|? ? N1 N2]; subst.
    destruct (IH N2 (fun ir H => G ir (or_intror H))) as (out2 & fs2 & E2 & K2 & D2 & C2 & S2).
    destruct (gen_range_years idx r i years (G _ (or_introl eq_refl)) NY) as (out1 & fs1 & delta & E1 & K1 & C1 & S1).
    exists (out1 ++ out2), (fs1 ++ fs2). cbn [map List.concat fst snd].
    split; [apply seqR_app_ok; assumption|]. split; [|split; [|split]].
    + rewrite map_app, K1. clear - NY K2 D2 N1.
      induction years as [|Y years IHy]; cbn [map app]; [exact K2|].
      inversion NY; subst. constructor; [|apply IHy; assumption].
      rewrite in_app_iff, in_map_iff. intros [(Y' & EY & I)|I].
      * injection EY as EY. replace Y' with Y in I by lia. contradiction.
      * destruct (D2 _ I) as (Y' & i' & EY & I'). injection EY as _ Ei. subst i'. contradiction.
    + intros k Hk. rewrite map_app, in_app_iff, K1, in_map_iff in Hk. destruct Hk as [(Y & <- & I)|Hk].
      * exists (Y + delta), i. split; [reflexivity|left; reflexivity].
      * destruct (D2 _ Hk) as (Y & i' & -> & I). exists Y, i'. split; [reflexivity|right; exact I].
    + apply Forall2_app; assumption.
    + intros t Vt Wt. rewrite existsb_app, orb_true_iff, S1, S2 by assumption. split.
      * intros [(Y & I & H)|(ir & Y & I1 & I2 & H)].
        -- exists (i, r), Y. split; [left; reflexivity|]. split; assumption.
        -- exists ir, Y. split; [right; exact I1|]. split; assumption.
      * intros (ir & Y & [<-|I1] & I2 & H); [left; exists Y; tauto|right; exists ir, Y; tauto].
Qed.

Lemma combine_seq_fst {A} (l : list A) n : map fst (combine (seq n (List.length l)) l) = seq n (List.length l).
Proof. revert n; induction l as [|a l IH]; intros n; cbn; [reflexivity|]. rewrite IH. reflexivity. Qed.
Lemma combine_seq_in {A} (l : list A) n a : In a l <-> exists i, In (i, a) (combine (seq n (List.length l)) l).
Proof.
  revert n; induction l as [|x l IH]; intros n; cbn; [split; [intros []|intros (i & [])]|].
  split.
  - intros [->|H]; [exists n; left; reflexivity|]. apply (IH (S n)) in H as (i & H). exists i. right. exact H.
  - intros (i & [H|H]); [injection H as _ ->; left; reflexivity|]. right. apply (IH (S n)). exists i. exact H.
Qed.

Lemma gen_range_cols_spec idx rs : (forall r, In r rs -> good_range r) ->
  exists cols fs, gen_range_cols idx rs = Ok cols /\ columns_of idx cols fs /\
    forall t, valid_ts t -> whole_second t ->
      (existsb (fun f => f t) fs = true <-> exists r Y, In r rs /\ In Y (years_of idx) /\ marked_in r Y t).
Proof.
  intros G. unfold gen_range_cols.
  destruct (gen_range_all idx (years_of idx) (combine (seq 0 (List.length rs)) rs)) as (out & fs & E & N & _ & C & S).
  - apply SSlt_nodup, z_unique_sorted.
  - rewrite combine_seq_fst. apply seq_NoDup.
  - intros [i r] H. cbn [snd]. apply G. apply (combine_seq_in rs 0). exists i. exact H.
  - rewrite E. cbn [mapR]. rewrite dict_fill_fresh by exact N. cbn [app].
    exists out, fs. split; [reflexivity|]. split; [exact C|]. intros t Vt Wt. rewrite S by assumption. split.
    + intros ([i r] & Y & I1 & I2 & H). exists r, Y. split; [|split; assumption].
      apply (combine_seq_in rs 0). exists i. exact I1.
    + intros (r & Y & I1 & I2 & H). apply (combine_seq_in rs 0) in I1 as (i & I1). exists (i, r), Y. tauto.
Qed.

Lemma any_columns idx cols fs : columns_of idx cols fs ->
  map (fun j => existsb (fun kc => nth j (snd kc) false) cols) (seq 0 (List.length idx)) =
  map (fun t => existsb (fun f => f t) fs) idx.
Proof.
  intros C. apply nth_ext with (d := false) (d' := false); [rewrite !map_length, seq_length; reflexivity|].
  intros n Hn. rewrite map_length, seq_length in Hn.
  rewrite (nth_indep _ false (existsb (fun kc => nth 0 (snd kc) false) cols)) by (rewrite map_length, seq_length; exact Hn).
  rewrite (map_nth (fun j => existsb (fun kc => nth j (snd kc) false) cols)), seq_nth by exact Hn.
  destruct (nth_error idx n) as [t|] eqn:E; [|apply nth_error_None in E; lia].
  pose proof (nth_error_nth idx n t E) as Et.
  rewrite (nth_indep _ false (existsb (fun f => f t) fs)) by (rewrite map_length; exact Hn).
  rewrite (map_nth (fun t => existsb (fun f => f t) fs)), Et. cbn [Nat.add].
  induction C as [|[k c] f cols fs H C IH]; cbn [existsb]; [reflexivity|]. rewrite IH. f_equal.
  cbn [snd] in *. subst c. rewrite (nth_indep _ false (f t)) by (rewrite map_length; exact Hn).
  rewrite map_nth, Et. reflexivity.
Qed.

Lemma is_in_spec t l : is_in t l = true <-> In t l.
Proof.
  unfold is_in. rewrite existsb_exists. split.
  - intros (x & I & E). apply ts_eqb_spec in E as ->. exact I.
  - intros I. exists t. split; [exact I|]. apply ts_eqb_spec. reflexivity.
Qed.

Lemma between_spec r t :
  (let '(s, e) := if ts_ltb (snd r) (fst r) then (snd r, fst r) else r in ts_leb s t && ts_leb t e) = true
  <-> between r t.
Proof.
  unfold between. destruct (ts_ltb (snd r) (fst r)) eqn:E.
  - rewrite andb_true_iff, !ts_leb_spec. apply ts_ltb_spec in E. rewrite ts_lt_iff in E. rewrite !ts_le_iff.
    unfold ts_ord in *. lia.
  - destruct r as [s e]; cbn [fst snd] in *. rewrite andb_true_iff, !ts_leb_spec.
    assert (~ ts_lt e s) by (rewrite <- ts_ltb_spec; congruence). rewrite ts_lt_iff in H. rewrite !ts_le_iff.
    unfold ts_ord in *. lia.
Qed.

Lemma range_cols idx l : exists fs,
  columns_of idx (map (fun ir : nat * (ts * ts) => (KRange (fst ir), range_col idx (snd ir)))
                      (combine (seq 0 (List.length l)) l)) fs /\
  forall t, existsb (fun f => f t) fs = true <-> exists r, In r l /\ between r t.
Proof.
  generalize 0%nat. induction l as [|r l IH]; intros n.
  - exists []. cbn. split; [constructor|]. intros t. split; [discriminate|]. intros (r & [] & _).
  - destruct (IH (S n)) as (fs & C & S).
    exists ((fun t => let '(s, e) := if ts_ltb (snd r) (fst r) then (snd r, fst r) else r in ts_leb s t && ts_leb t e) :: fs).
    split.
    + cbn [List.length seq combine map fst snd]. constructor; [|exact C].
      cbn [snd]. unfold range_col. destruct (if ts_ltb (snd r) (fst r) then (snd r, fst r) else r). reflexivity.
    + intros t. cbn [existsb]. rewrite orb_true_iff, S, between_spec. cbn [In]. split.
      * intros [H|(r' & I & H)]; [exists r; tauto|exists r'; tauto].
      * intros (r' & [<-|I] & H); [left; exact H|right; exists r'; tauto].
Qed.

Lemma gen_dates_col_spec idx l : (forall g, In g l -> exists y, g = GYearless y /\ valid_yl y) ->
  exists f, gen_dates_col idx l = Ok (map f idx) /\
    forall t, In t idx -> valid_ts t ->
      (f t = true <-> exists y, In (GYearless y) l /\ yl_at y (dy (t_date t)) t).
Proof.
  intros G. unfold gen_dates_col.
  destruct (seqR_map_ok (fun g => match g with
       | GYearless y => yl_to_datetimes y (years_of idx) | GDatetime _ => Err EOther end) l) as (arrs & E & F).
  { intros g Hg. destruct (G g Hg) as (y & -> & V). destruct (yl_to_datetimes_spec y (years_of idx) V) as (r & Er & _).
    exists r. exact Er. }
  rewrite E. cbn [bindR]. exists (fun t => is_in t (List.concat arrs)). split; [reflexivity|].
  intros t It Vt. rewrite is_in_spec, in_concat. clear E. split.
  - intros (a & Ia & Ita). revert G. induction F as [|g b l arrs H F IH]; intros G; [contradiction|].
    destruct Ia as [->|Ia].
    + destruct (G g (or_introl eq_refl)) as (y & -> & V).
      destruct (yl_to_datetimes_spec y (years_of idx) V) as (r & Er & Sr). rewrite Er in H. injection H as ->.
      apply Sr in Ita as (Y & IY & HY). exists y. split; [left; reflexivity|].
      apply yl_in_year_at in HY; [|exact V]. pose proof (proj1 HY) as EY. rewrite EY. exact HY.
    + destruct (IH Ia (fun g' H' => G g' (or_intror H'))) as (y & I & A). exists y. split; [right; exact I|exact A].
  - intros (y & Iy & A). revert G Iy. induction F as [|g b l arrs H F IH]; intros G Iy; [contradiction|].
    destruct Iy as [->|Iy].
    + exists b. split; [left; reflexivity|]. destruct (G _ (or_introl eq_refl)) as (y' & Ey & V). injection Ey as <-.
      destruct (yl_to_datetimes_spec y (years_of idx) V) as (r & Er & Sr). rewrite Er in H. injection H as ->.
      apply Sr. exists (dy (t_date t)). split; [apply years_of_in; exists t; split; [exact It|reflexivity]|].
      apply yl_at_valid; assumption.
    + destruct (IH (fun g' H' => G g' (or_intror H')) Iy) as (a & Ia & Ita). exists a. split; [right; exact Ia|exact Ita].
Qed.

Lemma marked_iff idx r t : In t idx ->
  (exists Y, In Y (years_of idx) /\ marked_in r Y t) <-> in_season r t /\ season_reached idx r t.
Proof.
  intros It. unfold marked_in, season_reached, in_season, wraps. split.
  - intros (Y & IY & [(NW & E & H)|(W & [(E & H)|(E & H)])]).
    + split; [exact H|tauto].
    + split; [right; tauto|tauto].
    + split; [right; tauto|]. right; right. apply years_of_in in IY as (t' & I' & E'). exists t'. split; [exact I'|lia].
  - intros (H & R). assert (D : moment_le (moment_of_yl (fst r)) (moment_of_yl (snd r)) \/
        ~ moment_le (moment_of_yl (fst r)) (moment_of_yl (snd r))) by (unfold moment_le; lia).
    assert (IY : In (dy (t_date t)) (years_of idx)) by (apply years_of_in; exists t; tauto).
    destruct D as [D|D].
    + exists (dy (t_date t)). split; [exact IY|]. left. tauto.
    + destruct H as [(X & _)|(_ & H)]; [tauto|].
      assert (D2 : moment_le (moment_of_yl (fst r)) (moment_of_ts t) \/
        ~ moment_le (moment_of_yl (fst r)) (moment_of_ts t)) by (unfold moment_le; lia).
      destruct D2 as [D2|D2].
      * exists (dy (t_date t)). split; [exact IY|]. right. tauto.
      * destruct R as [X|[X|(t' & I' & E')]]; [tauto|tauto|].
        exists (dy (t_date t) - 1). split; [apply years_of_in; exists t'; tauto|].
        right. split; [exact D|]. right. split; [lia|]. tauto.
Qed.

Lemma ts_filter_spec D idx :
  no_datetime_objects D -> (forall r, In r (olist (d_gen_ranges D)) -> good_range r) ->
  (forall t, In t idx -> valid_ts t) ->
  (olist (d_gen_ranges D) <> [] -> forall t, In t idx -> whole_second t) ->
  exists f, ts_filter D idx = Ok (map f idx) /\
    forall t, In t idx -> (f t = true <->
      In t (olist (d_dates D)) \/
      (exists r, In r (olist (d_ranges D)) /\ between r t) \/
      (exists y, In (GYearless y) (olist (d_gen_dates D)) /\ yl_at y (dy (t_date t)) t) \/
      (exists r, In r (olist (d_gen_ranges D)) /\ in_season r t /\ season_reached idx r t)).
Proof.
  intros ND G V WS. unfold ts_filter.
  assert (C1 : exists c fs, opt_cols (d_dates D) (fun l => Ok [(KDates, dates_col idx l)]) = Ok c /\
     columns_of idx c fs /\ forall t, existsb (fun f => f t) fs = true <-> In t (olist (d_dates D))).
  { destruct (d_dates D) as [l|]; cbn [opt_cols olist].
    - eexists _, [fun t => is_in t l]. split; [reflexivity|]. split; [constructor; [reflexivity|constructor]|].
      intros t. cbn [existsb]. rewrite orb_false_r. apply is_in_spec.
    - exists [], []. split; [reflexivity|]. split; [constructor|]. intros t. cbn. split; [discriminate|intros []]. }
  destruct C1 as (c1 & f1 & E1 & C1 & S1). rewrite E1. cbn [bindR].
  assert (C2 : exists c fs, opt_cols (d_ranges D) (fun l =>
       Ok (map (fun ir : nat * (ts * ts) => (KRange (fst ir), range_col idx (snd ir)))
            (combine (seq 0 (List.length l)) l))) = Ok c /\
     columns_of idx c fs /\ forall t, existsb (fun f => f t) fs = true <-> exists r, In r (olist (d_ranges D)) /\ between r t).
  { destruct (d_ranges D) as [l|]; cbn [opt_cols olist].
    - destruct (range_cols idx l) as (fs & C & S). eexists _, fs. split; [reflexivity|]. split; assumption.
    - exists [], []. split; [reflexivity|]. split; [constructor|]. intros t. cbn. split; [discriminate|intros (r & [] & _)]. }
  destruct C2 as (c2 & f2 & E2 & C2 & S2). rewrite E2. cbn [bindR].
  assert (C3 : exists c fs, opt_cols (d_gen_dates D) (fun l => mapR (fun c => [(KGenDates, c)]) (gen_dates_col idx l)) = Ok c /\
     columns_of idx c fs /\ forall t, In t idx -> valid_ts t -> (existsb (fun f => f t) fs = true <->
        exists y, In (GYearless y) (olist (d_gen_dates D)) /\ yl_at y (dy (t_date t)) t)).
  { unfold no_datetime_objects in ND. destruct (d_gen_dates D) as [l|]; cbn [opt_cols olist] in *.
    - destruct (gen_dates_col_spec idx l ND) as (f & E & S). rewrite E. cbn [mapR]. eexists _, [f].
      split; [reflexivity|]. split; [constructor; [reflexivity|constructor]|].
      intros t It Vt. cbn [existsb]. rewrite orb_false_r. apply S; assumption.
    - exists [], []. split; [reflexivity|]. split; [constructor|]. intros t _ _. cbn. split; [discriminate|intros (r & [] & _)]. }
  destruct C3 as (c3 & f3 & E3 & C3 & S3). rewrite E3. cbn [bindR].
  assert (C4 : exists c fs, opt_cols (d_gen_ranges D) (gen_range_cols idx) = Ok c /\
     columns_of idx c fs /\ forall t, In t idx -> (existsb (fun f => f t) fs = true <->
        exists r, In r (olist (d_gen_ranges D)) /\ in_season r t /\ season_reached idx r t)).
  { destruct (d_gen_ranges D) as [l|]; cbn [opt_cols olist] in *.
    - destruct (gen_range_cols_spec idx l G) as (c & fs & E & C & S). exists c, fs. split; [exact E|]. split; [exact C|].
      intros t It. destruct l as [|r0 l].
      + cbn in E. unfold gen_range_cols in E. cbn in E. injection E as <-. inversion C; subst. cbn.
        split; [discriminate|intros (r & [] & _)].
      + rewrite S; [|apply V; exact It|apply WS; [discriminate|exact It]]. split.
        * intros (r & Y & I1 & I2 & M). exists r. split; [exact I1|]. apply marked_iff; [exact It|]. exists Y; tauto.
        * intros (r & I1 & M). apply marked_iff in M as (Y & I2 & M); [|exact It]. exists r, Y. tauto.
    - exists [], []. split; [reflexivity|]. split; [constructor|]. intros t _. cbn. split; [discriminate|intros (r & [] & _)]. }
  destruct C4 as (c4 & f4 & E4 & C4 & S4). rewrite E4. cbn [bindR].
  exists (fun t => existsb (fun f => f t) (f1 ++ f2 ++ f3 ++ f4)). split.
  - f_equal. apply any_columns. repeat apply Forall2_app; assumption.
  - intros t It. rewrite !existsb_app, !orb_true_iff, S1, S2, S3, S4 by (try assumption; apply V; assumption). tauto.
Qed.

(* ------------------------------------------------------------ properties *)

Lemma marks_map {A} (P : A -> Prop) (f : A -> bool) idx :
  (forall t, In t idx -> (f t = true <-> P t)) -> marks P idx (map f idx).
Proof.
  induction idx as [|t idx IH]; intros H; [constructor|]. cbn [map]. constructor.
  - apply H. left; reflexivity.
  - apply IH. intros; apply H; right; assumption.
Qed.

Lemma filter_exact D idx : no_datetime_objects D -> olist (d_gen_ranges D) = [] ->
  (forall t, In t idx -> valid_ts t) ->
  exists mask, ts_filter D idx = Ok mask /\ marks (meets D) idx mask.
Proof.
  intros ND G V. destruct (ts_filter_spec D idx ND) as (f & E & S).
  - rewrite G. intros r [].
  - exact V.
  - rewrite G. congruence.
  - exists (map f idx). split; [exact E|]. apply marks_map. intros t It. rewrite (S t It). unfold meets.
    rewrite G. split.
    + intros [H|[H|[H|(r & [] & _)]]]; tauto.
    + intros [H|[H|[H|(r & [] & _)]]]; tauto.
Qed.

Lemma marks_subsequence (P : ts -> Prop) (df : list frow) mask :
  marks P (map fst df) mask -> subsequence (fun r => P (fst r)) df (mask_select mask df).
Proof.
  revert mask. induction df as [|r df IH]; intros mask H; inversion H as [|? b ? m Hb Hm]; subst; cbn [mask_select].
  - constructor.
  - destruct b; [apply ss_keep|apply ss_drop]; try (apply IH; exact Hm).
    + apply Hb; reflexivity.
    + intros X. apply Hb in X. discriminate.
Qed.

Lemma map_const_repeat {A B} (b : B) (l : list A) : map (fun _ => b) l = repeat b (List.length l).
Proof. induction l as [|a l IH]; cbn; [reflexivity|]. rewrite IH. reflexivity. Qed.

Lemma marks_blanked (P : ts -> Prop) (df : list frow) mask :
  marks P (map fst df) mask ->
  blanked P df (map2 (fun (m : bool) (r : frow) => if m then r else (fst r, map (fun _ => None) (snd r))) mask df).
Proof.
  revert mask. induction df as [|r df IH]; intros mask H; inversion H as [|? b ? m Hb Hm]; subst; cbn [map2].
  - constructor.
  - constructor; [|apply IH; exact Hm]. destruct b.
    + split; [reflexivity|]. split; [reflexivity|]. intros X. exfalso. apply X, Hb. reflexivity.
    + split; [reflexivity|]. split; [intros X; apply Hb in X; discriminate|].
      intros _. cbn [snd]. apply map_const_repeat.
Qed.

Lemma select_exact D df : no_datetime_objects D -> olist (d_gen_ranges D) = [] ->
  (forall r, In r df -> valid_ts (fst r)) ->
  (exists out, ts_select D df false = Ok out /\ subsequence (fun r => meets D (fst r)) df out) /\
  (exists out, ts_select D df true = Ok out /\ blanked (meets D) df out).
Proof.
  intros ND G V. destruct (filter_exact D (map fst df) ND G) as (mask & E & M).
  { intros t H. apply in_map_iff in H as (r & <- & H). apply V. exact H. }
  unfold ts_select. rewrite E. cbn [mapR]. split; eexists; (split; [reflexivity|]).
  - apply marks_subsequence. exact M.
  - apply marks_blanked. exact M.
Qed.

Definition yearless_only (rs : list (yearless * yearless)) : distributor := mkDistr None None None (Some rs).

Lemma filter_seasons rs idx : (forall r, In r rs -> usable_range r) ->
  (forall t, In t idx -> valid_ts t /\ whole_second t) ->
  exists mask, ts_filter (yearless_only rs) idx = Ok mask /\
    marks (fun t => exists r, In r rs /\ in_season r t /\ season_reached idx r t) idx mask.
Proof.
  intros G V. destruct (ts_filter_spec (yearless_only rs) idx) as (f & E & S).
  - intros g [].
  - exact G.
  - intros t It. apply V. exact It.
  - intros _ t It. apply V. exact It.
  - exists (map f idx). split; [exact E|]. apply marks_map. intros t It. rewrite (S t It). cbn [yearless_only d_dates d_ranges d_gen_dates d_gen_ranges olist].
    split; [|tauto]. intros [[]|[(r & [] & _)|[(y & [] & _)|H]]]. exact H.
Qed.

Lemma marks_ext {A} (P Q : A -> Prop) idx mask : (forall t, In t idx -> (P t <-> Q t)) -> marks P idx mask -> marks Q idx mask.
Proof.
  intros H M. induction M as [|t b idx mask Hb M IH]; constructor.
  - rewrite Hb. apply H. left; reflexivity.
  - apply IH. intros; apply H; right; assumption.
Qed.

Lemma filter_seasons_exact rs idx : (forall r, In r rs -> usable_range r) ->
  (forall t, In t idx -> valid_ts t /\ whole_second t) ->
  (forall r, In r rs -> wraps r -> forall t, In t idx -> exists t', In t' idx /\ dy (t_date t') = dy (t_date t) - 1) \/
  (forall r, In r rs -> ~ wraps r) ->
  exists mask, ts_filter (yearless_only rs) idx = Ok mask /\
    marks (fun t => exists r, In r rs /\ in_season r t) idx mask.
Proof.
  intros G V W. destruct (filter_seasons rs idx G V) as (mask & E & M). exists mask. split; [exact E|].
  eapply marks_ext; [|exact M]. intros t It. cbn. split.
  - intros (r & I & H & _). exists r; tauto.
  - intros (r & I & H). exists r. split; [exact I|]. split; [exact H|]. unfold season_reached.
    destruct W as [W|W]; [|left; apply W; exact I]. destruct (wraps_dec r) as [X|X]; [|left; exact X].
    right; right. apply (W r I X t It).
Qed.

Lemma leap_month_days_spec m : 1 <= m <= 12 -> leap_month_days m = month_len true m.
Proof.
  intros H. destruct (AnomalyProofs.month_cases m H) as [->|[->|[->|[->|[->|[->|[->|[->|[->|[->|[->| ->]]]]]]]]]]]; reflexivity.
Qed.

Lemma month_range_season m t : 1 <= m <= 12 -> valid_ts t -> whole_second t ->
  (in_season (mkYl m 1 0 0 0, mkYl m (leap_month_days m) 23 59 59) t <-> dm (t_date t) = m).
Proof.
  intros Hm [[V1 V2] V3] [k Hk]. rewrite leap_month_days_spec by exact Hm.
  pose proof (month_len_range true m). 
  assert (L : dm (t_date t) = m -> dd (t_date t) <= month_len true m).
  { intros <-. pose proof (AnomalyProofs.month_len_le (leap (dy (t_date t))) (dm (t_date t)) V1). unfold days_in_month in V2. lia. }
  unfold in_season, moment_le, moment_of_yl, moment_of_ts. cbn [fst snd mo_m mo_d mo_ns yl_month yl_day].
  change (yl_time (mkYl m 1 0 0 0)) with 0. change (yl_time (mkYl m (month_len true m) 23 59 59)) with (86399 * second_ns).
  assert (t_ns t <= 86399 * second_ns) by (unfold day_ns, second_ns in *; lia).
  assert (0 <= 86399 * second_ns) by (unfold second_ns; lia).
  clear Hk. lia.
Qed.

Lemma months_exact months idx : (forall m, In m months -> 1 <= m <= 12) ->
  (forall t, In t idx -> valid_ts t /\ whole_second t) ->
  exists mask, ts_filter (months_distributor months) idx = Ok mask /\
    marks (fun t => In (dm (t_date t)) months) idx mask.
Proof.
  intros Hm V. unfold months_distributor.
  destruct (filter_seasons_exact (map (fun m => (mkYl m 1 0 0 0, mkYl m (leap_month_days m) 23 59 59)) months) idx) as (mask & E & M).
  - intros r Hr. apply in_map_iff in Hr as (m & <- & I). specialize (Hm m I).
    unfold usable_range, within_feb29, valid_yl, yl_is_feb29. cbn [fst snd yl_month yl_day yl_hour yl_minute yl_second].
    rewrite leap_month_days_spec by exact Hm. pose proof (month_len_range true m). lia.
  - exact V.
  - right. intros r Hr. apply in_map_iff in Hr as (m & <- & I). specialize (Hm m I). unfold wraps, moment_le, moment_of_yl.
    cbn [fst snd mo_m mo_d mo_ns yl_month yl_day]. rewrite leap_month_days_spec by exact Hm.
    pose proof (month_len_range true m). lia.
  - exists mask. split; [exact E|]. eapply marks_ext; [|exact M]. intros t It. cbn. destruct (V t It) as [Vt Wt]. split.
    + intros (r & Hr & S). apply in_map_iff in Hr as (m & <- & I). apply month_range_season in S; [subst; exact I|apply Hm; exact I|exact Vt|exact Wt].
    + intros I. eexists. split; [apply in_map_iff; eexists; split; [reflexivity|exact I]|].
      apply month_range_season; [apply Hm; exact I|exact Vt|exact Wt|reflexivity].
Qed.

Lemma marks_nth {A} (P : A -> Prop) idx mask j t : marks P idx mask -> nth_error idx j = Some t ->
  exists b, nth_error mask j = Some b /\ (b = true <-> P t).
Proof.
  intros M. revert j. induction M as [|x b idx mask Hb M IH]; intros [|j] H; cbn in *; try discriminate.
  - injection H as <-. exists b. tauto.
  - apply IH. exact H.
Qed.

Lemma default_seasons_partition idx : (forall t, In t idx -> valid_ts t /\ whole_second t) ->
  exists masks : string -> list bool,
    (forall name months, In (name, months) default_month_subsets ->
       ts_filter (months_distributor months) idx = Ok (masks name)) /\
    forall j t, nth_error idx j = Some t ->
      In (season_of t) seasons /\
      nth_error (masks "ALL"%string) j = Some true /\
      nth_error (masks (season_of t)) j = Some true /\
      (forall s, In s seasons -> s <> season_of t -> nth_error (masks s) j = Some false).
Proof.
  intros V.
  assert (M : forall months, (forall m, In m months -> 1 <= m <= 12) -> exists mask,
     ts_filter (months_distributor months) idx = Ok mask /\ marks (fun t => In (dm (t_date t)) months) idx mask)
    by (intros; apply months_exact; assumption).
  destruct (M [12; 1; 2]) as (m1 & E1 & M1); [cbn; lia|].
  destruct (M [3; 4; 5]) as (m2 & E2 & M2); [cbn; lia|].
  destruct (M [6; 7; 8]) as (m3 & E3 & M3); [cbn; lia|].
  destruct (M [9; 10; 11]) as (m4 & E4 & M4); [cbn; lia|].
  destruct (M [1; 2; 3; 4; 5; 6; 7; 8; 9; 10; 11; 12]) as (m5 & E5 & M5); [cbn; lia|].
  exists (fun s => if String.eqb s "DJF" then m1 else if String.eqb s "MAM" then m2 else if String.eqb s "JJA" then m3
                   else if String.eqb s "SON" then m4 else m5).
  split.
  - unfold default_month_subsets. cbn [In]. intros name months H.
    destruct H as [H|[H|[H|[H|[H|[]]]]]]; injection H as <- <-; cbn [String.eqb Ascii.eqb Bool.eqb]; assumption.
  - intros j t Hj. assert (It : In t idx) by (eapply nth_error_In; exact Hj).
    destruct (V t It) as [[[V1 _] _] _].
    destruct (marks_nth _ _ _ _ _ M1 Hj) as (b1 & B1 & H1). destruct (marks_nth _ _ _ _ _ M2 Hj) as (b2 & B2 & H2).
    destruct (marks_nth _ _ _ _ _ M3 Hj) as (b3 & B3 & H3). destruct (marks_nth _ _ _ _ _ M4 Hj) as (b4 & B4 & H4).
    destruct (marks_nth _ _ _ _ _ M5 Hj) as (b5 & B5 & H5). cbn [In] in *.
    clear M1 M2 M3 M4 M5 M E1 E2 E3 E4 E5 V It Hj.
    assert (X5 : b5 = true) by (apply H5; clear - V1; lia). subst b5. clear H5.
    unfold season_of, seasons. remember (dm (t_date t)) as m eqn:Em. clear Em.
    assert (X : forall (b : bool) (P : Prop), (b = true <-> P) -> ~ P -> b = false).
    { intros [|] P HP HN; [exfalso; apply HN, HP; reflexivity|reflexivity]. }
    assert (R : ((3 <=? m) && (m <=? 5) = true /\ b1 = false /\ b2 = true /\ b3 = false /\ b4 = false) \/
                ((3 <=? m) && (m <=? 5) = false /\ (6 <=? m) && (m <=? 8) = true /\ b1 = false /\ b2 = false /\ b3 = true /\ b4 = false) \/
                ((3 <=? m) && (m <=? 5) = false /\ (6 <=? m) && (m <=? 8) = false /\ (9 <=? m) && (m <=? 11) = true /\ b1 = false /\ b2 = false /\ b3 = false /\ b4 = true) \/
                ((3 <=? m) && (m <=? 5) = false /\ (6 <=? m) && (m <=? 8) = false /\ (9 <=? m) && (m <=? 11) = false /\ b1 = true /\ b2 = false /\ b3 = false /\ b4 = false)).
    { assert (Hm : 3 <= m <= 5 \/ 6 <= m <= 8 \/ 9 <= m <= 11 \/ (m = 12 \/ m = 1 \/ m = 2)) by (clear - V1; lia).
      destruct Hm as [Hm|[Hm|[Hm|Hm]]]; [left|right; left|right; right; left|right; right; right];
      repeat split; try (clear - Hm; lia);
      try (eapply X; [eassumption|clear - Hm; lia]);
      try (apply H1; clear - Hm; lia); try (apply H2; clear - Hm; lia); try (apply H3; clear - Hm; lia); try (apply H4; clear - Hm; lia). }
    destruct R as [(C2 & -> & -> & -> & ->)|[(C2 & C3 & -> & -> & -> & ->)|[(C2 & C3 & C4 & -> & -> & -> & ->)|(C2 & C3 & C4 & -> & -> & -> & ->)]]];
      try rewrite C2; try rewrite C3; try rewrite C4; cbn [String.eqb Ascii.eqb Bool.eqb];
      (split; [cbn; tauto|]); (split; [assumption|]); (split; [assumption|]);
      intros s Hs Hn; cbn [In] in Hs; destruct Hs as [<-|[<-|[<-|[<-|[]]]]]; cbn [String.eqb Ascii.eqb Bool.eqb];
      try assumption; exfalso; apply Hn; reflexivity.
Qed.
