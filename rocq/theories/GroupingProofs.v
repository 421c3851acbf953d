From Verif Require Import Base BaseProofs Calendar GroupingModel GroupingSpec.
From Coq Require Import ZifyBool ZifyNat.
Ltac Zify.zify_post_hook ::= Z.div_mod_to_equations.

(* ------------------------------------------------------------------ dates *)

Lemma date_ltb_spec a b : date_ltb a b = true <-> date_lt a b.
Proof. unfold date_ltb, date_lt. lia. Qed.

Lemma date_eqb_spec a b : date_eqb a b = true <-> a = b.
Proof.
  unfold date_eqb. destruct a as [y m d], b as [y' m' d']; cbn [dy dm dd]. split.
  - intros H. assert (y = y') by lia. assert (m = m') by lia. assert (d = d') by lia. subst; reflexivity.
  - intros H. injection H as -> -> ->. lia.
Qed.

Lemma date_eqb_refl a : date_eqb a a = true. Proof. apply date_eqb_spec. reflexivity. Qed.

Lemma date_leb_spec a b : date_leb a b = true <-> date_le a b.
Proof. unfold date_leb, date_le. rewrite orb_true_iff, date_ltb_spec, date_eqb_spec. tauto. Qed.

Lemma date_ext a b : dy a = dy b -> dm a = dm b -> dd a = dd b -> a = b.
Proof. destruct a, b; cbn. intros -> -> ->. reflexivity. Qed.

Lemma date_lt_irrefl a : ~ date_lt a a. Proof. unfold date_lt. lia. Qed.
Lemma date_lt_trans a b c : date_lt a b -> date_lt b c -> date_lt a c.
Proof. unfold date_lt. lia. Qed.
Lemma date_total a b : date_lt a b \/ a = b \/ date_lt b a.
Proof.
  destruct (date_ltb a b) eqn:E1; [left; apply date_ltb_spec; exact E1|].
  destruct (date_ltb b a) eqn:E2; [right; right; apply date_ltb_spec; exact E2|].
  right; left. apply date_ext; unfold date_ltb in *; lia.
Qed.

Lemma date_le_iff a b : date_le a b <->
  dy a < dy b \/ (dy a = dy b /\ (dm a < dm b \/ (dm a = dm b /\ dd a <= dd b))).
Proof.
  unfold date_le, date_lt. split.
  - intros [->|H]; lia.
  - intros H. destruct (Z.eq_dec (dy a) (dy b)), (Z.eq_dec (dm a) (dm b)), (Z.eq_dec (dd a) (dd b)).
    1: { left; apply date_ext; assumption. }
    all: right; lia.
Qed.

Lemma month_len_range lp m : 28 <= month_len lp m <= 31.
Proof.
  unfold month_len. destruct (m =? 2), lp, ((m =? 4) || (m =? 6) || (m =? 9) || (m =? 11)); lia.
Qed.

Lemma days_in_month_range y m : 28 <= days_in_month y m <= 31.
Proof. apply month_len_range. Qed.

Lemma next_day_valid d : valid_date d -> valid_date (next_day d).
Proof.
  unfold valid_date, next_day. intros [H1 H2].
  destruct (Z.ltb_spec (dd d) (days_in_month (dy d) (dm d))); [cbn [dy dm dd]; lia|].
  destruct (Z.ltb_spec (dm d) 12); cbn [dy dm dd].
  - pose proof (days_in_month_range (dy d) (dm d + 1)). lia.
  - pose proof (days_in_month_range (dy d + 1) 1). lia.
Qed.

Lemma next_day_lt d : date_lt d (next_day d).
Proof.
  unfold next_day, date_lt.
  destruct (Z.ltb_spec (dd d) (days_in_month (dy d) (dm d))); [cbn [dy dm dd]; lia|].
  destruct (Z.ltb_spec (dm d) 12); cbn [dy dm dd]; lia.
Qed.

Lemma next_day_succ d e : valid_date d -> valid_date e -> date_lt d e -> date_le (next_day d) e.
Proof.
  unfold valid_date, next_day. intros [H1 H2] [H3 H4] H. rewrite date_le_iff. unfold date_lt in H.
  assert (G : dy d = dy e -> dm d = dm e -> days_in_month (dy d) (dm d) = days_in_month (dy e) (dm e))
    by (intros -> ->; reflexivity).
  destruct (Z.ltb_spec (dd d) (days_in_month (dy d) (dm d))); [cbn [dy dm dd]; lia|].
  destruct (Z.ltb_spec (dm d) 12); cbn [dy dm dd]; lia.
Qed.

Lemma date_range_in n d e x : valid_date d -> valid_date e ->
  (dy e - dy d) * 372 + (dm e - dm d) * 31 + (dd e - dd d) < Z.of_nat n ->
  (In x (date_range_fuel n d e) <-> valid_date x /\ date_le d x /\ date_le x e).
Proof.
  revert d; induction n as [|n IH]; intros d Vd Ve Hn; cbn [date_range_fuel].
  - split; [intros []|]. intros (Vx & H1 & H2). rewrite date_le_iff in H1, H2.
    exfalso. destruct Vd, Ve, Vx.
    pose proof (days_in_month_range (dy d) (dm d)). pose proof (days_in_month_range (dy e) (dm e)).
    pose proof (days_in_month_range (dy x) (dm x)). lia.
  - destruct (date_leb d e) eqn:E.
    + apply date_leb_spec in E.
      cbn [In]. rewrite IH; [|apply next_day_valid; exact Vd|exact Ve|].
      * split.
        -- intros [<-|(Vx & H1 & H2)]; [split; [exact Vd|split; [left; reflexivity|exact E]]|].
           split; [exact Vx|split; [|exact H2]].
           pose proof (next_day_lt d) as L. destruct H1 as [<-|H1]; right; [exact L|].
           eapply date_lt_trans; eassumption.
        -- intros (Vx & [<-|H1] & H2); [left; reflexivity|right].
           split; [exact Vx|split; [|exact H2]]. apply next_day_succ; assumption.
      * pose proof (next_day_lt d) as L. unfold next_day in *. destruct Vd as [V1 V2].
        pose proof (days_in_month_range (dy d) (dm d)).
        destruct (Z.ltb_spec (dd d) (days_in_month (dy d) (dm d))); [cbn [dy dm dd] in *; lia|].
        destruct (Z.ltb_spec (dm d) 12); cbn [dy dm dd] in *; lia.
    + split; [intros []|]. intros (Vx & H1 & H2). exfalso.
      assert (date_leb d e = true); [|congruence]. apply date_leb_spec.
      rewrite date_le_iff in *. lia.
Qed.

Lemma date_range_spec s e x : valid_date s -> valid_date e ->
  (In x (date_range s e) <-> valid_date x /\ date_le s x /\ date_le x e).
Proof.
  intros Vs Ve. destruct (Z.leb_spec (dy s) (dy e)).
  - apply date_range_in; [exact Vs|exact Ve|]. destruct Vs, Ve.
    pose proof (days_in_month_range (dy s) (dm s)). pose proof (days_in_month_range (dy e) (dm e)).
    rewrite Z2Nat.id by lia. lia.
  - unfold date_range. replace (Z.to_nat ((dy e - dy s + 1) * 372)) with O by lia.
    cbn [date_range_fuel]. split; [intros []|]. intros (_ & H1 & H2).
    rewrite date_le_iff in *. lia.
Qed.

(* --------------------------------------------------------------- day bins *)

Lemma SSlt_le l : StronglySorted Z.lt l -> StronglySorted Z.le l.
Proof.
  induction 1 as [|x l H IH F]; constructor; [exact IH|].
  eapply Forall_impl; [|exact F]. cbn. lia.
Qed.

Lemma countb_split bins x pre hi suf lo : StronglySorted Z.lt bins ->
  bins = pre ++ lo :: hi :: suf -> lo <= x < hi ->
  countb (fun b => b <=? x) bins = S (List.length pre).
Proof.
  intros S -> H. apply SSorted_app_inv in S as (S1 & S2 & S3).
  unfold countb. rewrite filter_app, app_length.
  rewrite filter_all.
  2: { intros a Ha. specialize (S3 a lo Ha (or_introl eq_refl)). lia. }
  inversion S2 as [|? ? S4 F4]; subst. inversion S4 as [|? ? S5 F5]; subst.
  cbn [filter]. destruct (Z.leb_spec lo x); [|lia]. destruct (Z.leb_spec hi x); [lia|].
  rewrite (filter_none _ suf).
  2: { intros a Ha. rewrite Forall_forall in F5. specialize (F5 a Ha). lia. }
  cbn [List.length]. lia.
Qed.

Lemma day_bin_label_spec bins start d lo hi : StronglySorted Z.lt bins -> valid_date d ->
  in_bin bins (dd d) lo hi -> 1 <= lo ->
  day_bin_label bins start d =
  Ok (mkDate (dy d) (dm d) (if start then lo else Z.min (hi - 1) (days_in_month (dy d) (dm d)))).
Proof.
  intros S [V1 V2] ((pre & suf & Hb) & Hx) Hlo. unfold day_bin_label, digitize.
  rewrite (proj2 (sortedb_spec bins)) by (apply SSlt_le; exact S).
  cbn [bindR]. rewrite (countb_split bins (dd d) pre hi suf lo S Hb Hx).
  unfold grp_label, py_index.
  assert (L : List.length bins = (List.length pre + (2 + List.length suf))%nat).
  { rewrite Hb, app_length. cbn [List.length]. lia. }
  destruct start.
  - rewrite (proj2 (Z.ltb_ge _ 0)) by lia.
    replace (0 <=? Z.of_nat (Datatypes.S (List.length pre)) + -1) with true by lia.
    replace (Z.of_nat (Datatypes.S (List.length pre)) + -1 <? Z.of_nat (List.length bins)) with true by lia.
    cbn [andb]. replace (Z.to_nat (Z.of_nat (Datatypes.S (List.length pre)) + -1)) with (List.length pre) by lia.
    rewrite Hb, nth_error_app2, Nat.sub_diag by lia. cbn [nth_error bindR].
    unfold make_date. rewrite Z.sub_0_r, Z.min_l by lia.
    replace ((1 <=? dm d) && (dm d <=? 12) && (1 <=? lo) && (lo <=? days_in_month (dy d) (dm d))) with true by lia.
    reflexivity.
  - rewrite (proj2 (Z.ltb_ge _ 0)) by lia.
    replace (0 <=? Z.of_nat (Datatypes.S (List.length pre)) + 0) with true by lia.
    replace (Z.of_nat (Datatypes.S (List.length pre)) + 0 <? Z.of_nat (List.length bins)) with true by lia.
    cbn [andb]. replace (Z.to_nat (Z.of_nat (Datatypes.S (List.length pre)) + 0)) with (Datatypes.S (List.length pre)) by lia.
    rewrite Hb. rewrite nth_error_app2 by lia.
    replace (Datatypes.S (List.length pre) - List.length pre)%nat with 1%nat by lia.
    cbn [nth_error bindR]. unfold make_date.
    pose proof (days_in_month_range (dy d) (dm d)).
    replace ((1 <=? dm d) && (dm d <=? 12) && (1 <=? Z.min (hi - 1) (days_in_month (dy d) (dm d)))
             && (Z.min (hi - 1) (days_in_month (dy d) (dm d)) <=? days_in_month (dy d) (dm d))) with true by lia.
    reflexivity.
Qed.

Lemma bin_exists bins x : hd 0 bins <= x -> x < last bins 0 -> exists lo hi, in_bin bins x lo hi.
Proof.
  induction bins as [|a [|b r] IH]; intros H1 H2.
  - cbn in *. lia.
  - cbn in *. lia.
  - cbn [hd] in H1. destruct (Z.ltb_spec x b).
    + exists a, b. split; [exists [], r; reflexivity|lia].
    + destruct IH as (lo & hi & ((pre & suf & E) & Hx)).
      * cbn [hd]. lia.
      * exact H2.
      * exists lo, hi. split; [|exact Hx]. exists (a :: pre), suf. rewrite E. reflexivity.
Qed.

Lemma in_bin_in bins x lo hi : in_bin bins x lo hi -> In lo bins /\ In hi bins.
Proof.
  intros ((pre & suf & ->) & _). rewrite !in_app_iff. cbn. tauto.
Qed.

Lemma in_bin_hd bins x lo hi : StronglySorted Z.lt bins -> in_bin bins x lo hi -> hd 0 bins <= lo.
Proof.
  intros S ((pre & suf & ->) & _). destruct pre as [|p pre]; cbn [app hd]; [lia|].
  apply SSorted_app_inv in S as (_ & _ & S). specialize (S p lo (or_introl eq_refl) (or_introl eq_refl)). lia.
Qed.

Lemma bins_disjoint bins x y lo hi lo' hi' : StronglySorted Z.lt bins ->
  in_bin bins x lo hi -> in_bin bins y lo' hi' ->
  (lo = lo' /\ hi = hi') \/ hi <= lo' \/ hi' <= lo.
Proof.
  intros S ((pre & suf & E) & Hx) ((pre' & suf' & E') & Hy).
  revert bins pre' E' S E. induction pre as [|p pre IH]; intros bins pre' E' S E.
  - destruct pre' as [|p' pre'].
    + cbn [app] in *. rewrite E in E', S; clear E bins. injection E' as -> -> ->. left; split; reflexivity.
    + right. left. cbn [app] in *. rewrite E in E', S; clear E bins. injection E' as <- E'.
      inversion S as [|? ? S1 F1]; subst. destruct pre' as [|q pre']; cbn [app] in E'.
      * injection E' as <- E'. lia.
      * injection E' as <- E'. inversion S1 as [|? ? S2 F2]; subst.
        rewrite Forall_forall in F2. assert (X : In lo' (pre' ++ lo' :: hi' :: suf')); [|specialize (F2 lo' X); lia].
        rewrite in_app_iff. cbn. tauto.
  - destruct pre' as [|p' pre'].
    + right. right. cbn [app] in *. rewrite E in E', S; clear E bins. injection E' as -> E'.
      inversion S as [|? ? S1 F1]; subst. destruct pre as [|q pre]; cbn [app] in E'.
      * injection E' as -> E'. lia.
      * injection E' as -> E'. inversion S1 as [|? ? S2 F2]; subst.
        rewrite Forall_forall in F2. assert (X : In lo (pre ++ lo :: hi :: suf)); [|specialize (F2 lo X); lia].
        rewrite in_app_iff. cbn. tauto.
    + cbn [app] in *. rewrite E in E', S; clear E bins. injection E' as -> E'. inversion S; subst.
      eapply (IH (pre ++ lo :: hi :: suf) pre'); [exact E'|assumption|reflexivity].
Qed.

Lemma in_bin_unique bins x lo hi lo' hi' : StronglySorted Z.lt bins ->
  in_bin bins x lo hi -> in_bin bins x lo' hi' -> lo = lo' /\ hi = hi'.
Proof.
  intros S A B. destruct (bins_disjoint _ _ _ _ _ _ _ S A B) as [H|H]; [exact H|].
  destruct A as [_ A], B as [_ B]. lia.
Qed.

Lemma label_boundary bins start d : month_bins bins -> valid_date d ->
  exists l, day_bin_label bins start d = Ok l /\ bin_boundary bins start d l.
Proof.
  intros (S & Hhd & Hlast) V. destruct (days_in_month_range (dy d) (dm d)) as [L1 L2].
  destruct V as [V1 V2].
  destruct (bin_exists bins (dd d)) as (lo & hi & B); [lia|lia|].
  assert (1 <= lo) by (rewrite <- Hhd; eapply in_bin_hd; eassumption).
  eexists. split; [eapply day_bin_label_spec; try eassumption; split; assumption|].
  destruct B as [B Bx]. unfold bin_boundary. cbn [dy dm dd].
  split; [|split].
  - split; cbn [dy dm dd]; [lia|]. destruct start; lia.
  - split; [split; reflexivity|]. exists lo, hi. cbn [dd].
    split; split; try assumption. destruct start; lia.
  - intros d' [W1 W2] [[M1 M2] (lo' & hi' & B1 & B2)].
    destruct (in_bin_unique _ _ _ _ _ _ S (conj B Bx) B1) as [<- <-].
    destruct B2 as [_ B2]. rewrite <- M1, <- M2 in W2.
    destruct start; rewrite date_le_iff; cbn [dy dm dd]; lia.
Qed.

Lemma boundary_unique bins start d l l' :
  bin_boundary bins start d l -> bin_boundary bins start d l' -> l = l'.
Proof.
  intros (V & B & M) (V' & B' & M'). specialize (M l' V' B'). specialize (M' l V B).
  destruct start; rewrite date_le_iff in *; apply date_ext; lia.
Qed.

Lemma same_bin_sym bins a b : same_bin bins a b -> same_bin bins b a.
Proof. intros [[A B] (lo & hi & C & D)]. split; [split; symmetry; assumption|]. exists lo, hi. tauto. Qed.

Lemma same_bin_trans bins a b c : StronglySorted Z.lt bins ->
  same_bin bins a b -> same_bin bins b c -> same_bin bins a c.
Proof.
  intros S [[A B] (lo & hi & C & D)] [[A' B'] (lo' & hi' & C' & D')].
  split; [split; congruence|]. destruct (in_bin_unique _ _ _ _ _ _ S D C') as [<- <-].
  exists lo, hi. tauto.
Qed.

Lemma labels_same_bin bins start a b la lb : month_bins bins -> valid_date a -> valid_date b ->
  day_bin_label bins start a = Ok la -> day_bin_label bins start b = Ok lb ->
  (la = lb <-> same_bin bins a b).
Proof.
  intros MB Va Vb Ha Hb. pose proof (proj1 MB) as S.
  destruct (label_boundary bins start a MB Va) as (l & E & B1). rewrite E in Ha; injection Ha as ->.
  destruct (label_boundary bins start b MB Vb) as (l & E' & B2). rewrite E' in Hb; injection Hb as ->.
  split.
  - intros <-. eapply same_bin_trans; [exact S|apply B1|]. apply same_bin_sym, B2.
  - intros H. destruct B1 as (V1 & S1 & M1), B2 as (V2 & S2 & M2).
    assert (X : date_le la lb /\ date_le lb la).
    { specialize (M1 lb V2 (same_bin_trans _ _ _ _ S H S2)).
      specialize (M2 la V1 (same_bin_trans _ _ _ _ S (same_bin_sym _ _ _ H) S1)).
      destruct start; tauto. }
    rewrite !date_le_iff in X. apply date_ext; lia.
Qed.

Lemma labels_monotone bins start a b la lb : month_bins bins -> valid_date a -> valid_date b ->
  day_bin_label bins start a = Ok la -> day_bin_label bins start b = Ok lb ->
  date_le a b -> date_le la lb.
Proof.
  intros (S & Hhd & Hlast) Va Vb Ha Hb H.
  destruct (days_in_month_range (dy a) (dm a)) as [L1 L2].
  destruct (days_in_month_range (dy b) (dm b)) as [L3 L4].
  destruct (bin_exists bins (dd a)) as (lo & hi & B); [destruct Va; lia|destruct Va; lia|].
  destruct (bin_exists bins (dd b)) as (lo' & hi' & B'); [destruct Vb; lia|destruct Vb; lia|].
  rewrite (day_bin_label_spec bins start a lo hi) in Ha; try assumption.
  2: { rewrite <- Hhd. eapply in_bin_hd; eassumption. }
  rewrite (day_bin_label_spec bins start b lo' hi') in Hb; try assumption.
  2: { rewrite <- Hhd. eapply in_bin_hd; eassumption. }
  injection Ha as <-. injection Hb as <-.
  pose proof (bins_disjoint _ _ _ _ _ _ _ S B B') as D. destruct B as [_ B], B' as [_ B'].
  rewrite date_le_iff in *. cbn [dy dm dd].
  assert (E : dy a = dy b -> dm a = dm b -> days_in_month (dy a) (dm a) = days_in_month (dy b) (dm b))
    by (intros -> ->; reflexivity).
  destruct start; destruct Va, Vb; lia.
Qed.

(* ---------------------------------------------------------------- groups *)

Lemma date_insert_in d l x : In x (date_insert d l) <-> x = d \/ In x l.
Proof.
  induction l as [|y l IH]; cbn [date_insert]; [cbn; intuition congruence|].
  destruct (date_ltb d y); [cbn; intuition congruence|].
  destruct (date_eqb d y) eqn:E.
  - apply date_eqb_spec in E as ->. cbn. intuition congruence.
  - cbn [In]. rewrite IH. tauto.
Qed.

Lemma date_insert_sorted d l : StronglySorted date_lt l -> StronglySorted date_lt (date_insert d l).
Proof.
  induction 1 as [|y l S IH F]; cbn [date_insert]; [constructor; constructor|].
  destruct (date_ltb d y) eqn:E.
  - apply date_ltb_spec in E. constructor; [constructor; assumption|].
    constructor; [exact E|]. eapply Forall_impl; [|exact F]. intros a. apply date_lt_trans. exact E.
  - destruct (date_eqb d y) eqn:E2; [constructor; assumption|].
    constructor; [exact IH|]. apply Forall_forall. intros x Hx. apply date_insert_in in Hx as [->|Hx].
    + destruct (date_total d y) as [H|[H|H]]; [|apply date_eqb_spec in H; congruence|exact H].
      apply date_ltb_spec in H. congruence.
    + rewrite Forall_forall in F. apply F. exact Hx.
Qed.

Lemma group_keys_in l x : In x (group_keys l) <-> In x l.
Proof.
  induction l as [|y l IH]; cbn [group_keys fold_right]; [tauto|].
  rewrite date_insert_in. unfold group_keys in IH. rewrite IH. cbn. intuition congruence.
Qed.

Lemma group_keys_sorted l : StronglySorted date_lt (group_keys l).
Proof. induction l; cbn; [constructor|]. apply date_insert_sorted; assumption. Qed.

Lemma seqR_map_ok {A B} (f : A -> res B) l :
  (forall a, In a l -> exists b, f a = Ok b) -> exists r, seqR (map f l) = Ok r /\
  Forall2 (fun a b => f a = Ok b) l r.
Proof.
  induction l as [|a l IH]; intros H; [exists []; split; [reflexivity|constructor]|].
  destruct (H a (or_introl eq_refl)) as [b Hb].
  destruct IH as (r & E & F); [intros; apply H; right; assumption|].
  exists (b :: r). cbn [map seqR]. rewrite Hb. cbn [bindR]. rewrite E. split; [reflexivity|].
  constructor; assumption.
Qed.

Lemma Forall2_len {A B} (R : A -> B -> Prop) l m : Forall2 R l m -> List.length l = List.length m.
Proof. induction 1; cbn; congruence. Qed.

Lemma group_by_day_bin_spec {A} bins start (df : list (date * A)) :
  month_bins bins -> (forall r, In r df -> valid_date (fst r)) ->
  exists groups, group_by_day_bin bins start df None = Ok groups /\
    StronglySorted date_lt (map fst groups) /\
    (forall k, In k (map fst groups) <-> exists r, In r df /\ bin_boundary bins start (fst r) k) /\
    (forall k rows, In (k, rows) groups ->
       exists sel : date * A -> bool,
         (forall r, In r df -> (sel r = true <-> bin_boundary bins start (fst r) k)) /\
         rows = map snd (filter sel df)).
Proof.
  intros MB V. unfold group_by_day_bin, day_bin_index.
  destruct (seqR_map_ok (day_bin_label bins start) (map fst df)) as (labels & E & F).
  { intros d Hd. apply in_map_iff in Hd as (r & <- & Hr).
    destruct (label_boundary bins start (fst r) MB (V r Hr)) as (l & El & _). exists l; exact El. }
  rewrite E. cbn [bindR]. pose proof (Forall2_len _ _ _ F) as L. rewrite map_length in L.
  rewrite <- L, Nat.eqb_refl. eexists; split; [reflexivity|].
  rewrite map_map. cbn [fst]. rewrite map_id. split; [apply group_keys_sorted|].
  assert (B : forall r l, In r df -> day_bin_label bins start (fst r) = Ok l ->
              forall k, (l = k <-> bin_boundary bins start (fst r) k)).
  { intros r l Hr El k. destruct (label_boundary bins start (fst r) MB (V r Hr)) as (l' & El' & Bl).
    rewrite El' in El. injection El as ->. split; [intros <-; exact Bl|].
    intros Bk. eapply boundary_unique; eassumption. }
  split.
  - intros k. rewrite group_keys_in. clear E L. revert labels F. clear MB.
    induction df as [|r df IH]; intros labels F; cbn [map] in F; inversion F as [|? l ? labs Hl F' ]; subst.
    + cbn. split; [intros []|intros (r & [] & _)].
    + cbn [In]. rewrite (IH (fun r' H' => V r' (or_intror H')) (fun r' l' H' => B r' l' (or_intror H')) labs F').
      specialize (B r l (or_introl eq_refl) Hl k).
      split.
      * intros [->|(r' & Hr' & Bk)]; [exists r; split; [left; reflexivity|apply B; reflexivity]|].
        exists r'; split; [right; exact Hr'|exact Bk].
      * intros (r' & [<-|Hr'] & Bk); [left; apply B; exact Bk|right; exists r'; split; assumption].
  - intros k rows Hk. apply in_map_iff in Hk as (k' & Ek & _). injection Ek as -> <-.
    exists (fun r => match day_bin_label bins start (fst r) with Ok l => date_eqb l k | Err _ => false end).
    split.
    + intros r Hr. destruct (label_boundary bins start (fst r) MB (V r Hr)) as (l & El & _).
      rewrite El, date_eqb_spec. apply B; assumption.
    + clear E L B. revert labels F. clear MB V.
      induction df as [|r df IH]; intros labels F; cbn [map] in F; inversion F as [|? l ? labs Hl F']; subst; [reflexivity|].
      cbn [map combine filter fst]. rewrite Hl. specialize (IH labs F').
      destruct (date_eqb l k); cbn [map snd]; rewrite IH; reflexivity.
Qed.

Lemma grouped_dates_between_spec s e bins start : month_bins bins -> valid_date s -> valid_date e ->
  exists out, grouped_dates_between s e bins start = Ok out /\
    StronglySorted date_lt out /\
    (forall k, In k out <-> exists d, valid_date d /\ date_le s d /\ date_le d e /\ bin_boundary bins start d k).
Proof.
  intros MB Vs Ve. unfold grouped_dates_between.
  destruct (group_by_day_bin_spec bins start (map (fun d => (d, tt)) (date_range s e)) MB) as (g & E & S & K & _).
  { intros r Hr. apply in_map_iff in Hr as (d & <- & Hd). cbn [fst].
    apply date_range_spec in Hd; tauto. }
  rewrite E. cbn [mapR]. eexists; split; [reflexivity|]. split; [exact S|].
  intros k. rewrite K. split.
  - intros (r & Hr & B). apply in_map_iff in Hr as (d & <- & Hd). apply date_range_spec in Hd; [|assumption|assumption].
    exists d. cbn [fst] in B. tauto.
  - intros (d & Vd & H1 & H2 & B). exists (d, tt). split; [|exact B].
    apply in_map_iff. exists d. split; [reflexivity|]. apply date_range_spec; tauto.
Qed.
