(* TripleCollocationMetrics. *)
From Coq Require Import Reals Qreals List Lra Lia.
From Verif Require Import Base BaseProofs GroupingModel RStats RStatsProofs MetricsModel MetricsProofs RollingModel TcolModel ConfintModel
  ConfintProofs ConfintProofs2 NamesProofs DfMetricsProofs TcolProofs.
From Verif Require Import CalcModel CalcSpec CalcProofs CalcProofs2 CalcProofs3.
Open Scope string_scope.
Open Scope list_scope.

Lemma update_effect e k : exists o, forall d, ds_get (ds_update d e) k = match o with Some v => Some v | None => ds_get d k end.
Proof.
  destruct (in_dec (list_eq_dec string_dec) k (map fst e)) as [J|J].
  - induction e as [|[a v] e IH]; [destruct J|].
    destruct (in_dec (list_eq_dec string_dec) k (map fst e)) as [J'|J'].
    + destruct (IH J') as [o H]. destruct (get_update_any e [] k J') as (w & _ & E).
      rewrite H in E. destruct o as [u|]; [|discriminate]. exists (Some u). intros d.
      change (ds_update d ((a, v) :: e)) with (ds_update (ds_set d a v) e). apply H.
    + exists (Some v). intros d. change (ds_update d ((a, v) :: e)) with (ds_update (ds_set d a v) e).
      rewrite get_update_out by exact J'. destruct J as [E|J]; [|contradiction]. cbn in E. subst a. apply get_set_same.
  - exists None. intros d. apply get_update_out, J.
Qed.

Lemma prepared_update d t e meta i : prepared_n d t meta i -> (forall s, ~ In [s] (map fst e)) -> (forall k v, In (k, v) e -> exists c, v = Arr [c]) ->
  prepared_n (ds_update d e) (ds_update t e) meta i.
Proof.
  intros (SG & ID & MC & OUT) NS SE. split; [|split; [|split]].
  - intros k [c E]. destruct (in_dec (list_eq_dec string_dec) k (map fst e)) as [J|J]; [apply single_update_in; assumption|].
    rewrite get_update_out in E by exact J. destruct (SG k (ex_intro _ c E)) as [c' E']. exists c'. rewrite get_update_out by exact J. exact E'.
  - refine (keep_identified d _ i _ ID). intros s _. apply get_update_out, NS.
  - refine (keep_meta d _ meta i _ MC). intros m s _ _. apply get_update_out, NS.
  - intros k H. destruct (update_effect e k) as [o E]. rewrite !E. destruct o; [reflexivity|]. apply OUT, H.
Qed.

Lemma remove_first_ok s l : In s l -> exists r, remove_first s l = Some r /\ List.length l = S (List.length r) /\
  (NoDup l -> NoDup (s :: r)) /\ (forall x, In x (s :: r) <-> In x l).
Proof.
  induction l as [|x l IH]; [intros []|]. intros I. cbn [remove_first]. destruct (String.eqb_spec x s) as [->|N].
  - exists l. split; [reflexivity|]. split; [reflexivity|]. split; [auto|]. intros y. reflexivity.
  - destruct I as [E|I]; [congruence|]. destruct (IH I) as (r & E & L & ND & M). exists (x :: r). rewrite E. split; [reflexivity|].
    split; [cbn; lia|]. split.
    + intros D. apply NoDup_cons_iff in D as [D1 D2]. specialize (ND D2). apply NoDup_cons_iff in ND as [ND1 ND2].
      constructor; [|constructor; [|exact ND2]].
      * intros [J|J]; [congruence|contradiction].
      * intros J. apply D1. apply M. right. exact J.
    + intros y. specialize (M y). cbn in *. intuition.
Qed.

Section Tc.
Variable min_obs : nat.
Variable meta : metadata.
Variable ppf : R -> option R.
Variable cdf : R -> R.
Variable draws : string -> list (list nat).

Definition tc_base : dataset := ds_update (base_template meta) (metric_template ["n_obs"]).
Definition tc_full (boot : bool) (names : list string) : dataset := ds_update tc_base (tc_template boot names).

Lemma tc_template_keys boot names k : In k (map fst (tc_template boot names)) <->
  exists m d, k = [m; d] /\ In d names /\ (In m tc_names \/ (boot = true /\ exists b, In b tc_names /\ In m (ci_names b))).
Proof.
  unfold tc_template. rewrite map_app, in_app_iff. split.
  - intros [I|I].
    + apply in_map_iff in I as ([k' v] & E & I). cbn in E. subst k'. apply in_flat_map in I as (m & M & I).
      apply in_map_iff in I as (d & E & D). injection E as <- _. exists m, d. auto.
    + destruct boot; [|destruct I]. apply in_map_iff in I as ([k' v] & E & I). cbn in E. subst k'. apply in_flat_map in I as (m & M & I).
      apply in_flat_map in I as (d & D & I). destruct I as [E|[E|[]]]; injection E as <- _; eexists _, d; (split; [reflexivity|]);
        (split; [exact D|]); right; (split; [reflexivity|]); exists m; (split; [exact M|]); cbn; auto.
  - intros (m & d & -> & D & [M|(-> & b & B & M)]).
    + left. apply in_map_iff. exists ([m; d], nan). split; [reflexivity|]. apply in_flat_map. exists m. split; [exact M|].
      apply in_map_iff. exists d. auto.
    + right. apply in_map_iff. exists ([m; d], nan). split; [reflexivity|]. apply in_flat_map. exists b. split; [exact B|].
      apply in_flat_map. exists d. split; [exact D|]. cbn in M. destruct M as [<-|[<-|[]]]; [left|right; left]; reflexivity.
Qed.
Lemma tc_template_single boot names k v : In (k, v) (tc_template boot names) -> exists c, v = Arr [c].
Proof.
  intros I. unfold tc_template in I. apply in_app_iff in I as [I|I].
  - apply in_flat_map in I as (m & _ & I). apply in_map_iff in I as (d & E & _). injection E as _ <-. eexists. reflexivity.
  - destruct boot; [|destruct I]. apply in_flat_map in I as (m & _ & I). apply in_flat_map in I as (d & _ & I).
    destruct I as [E|[E|[]]]; injection E as _ <-; eexists; reflexivity.
Qed.
Lemma tc_base_has : has_base tc_base meta.
Proof. apply has_base_update; [apply metric_template_single|apply base_has]. Qed.
Lemma tc_full_has boot names : has_base (tc_full boot names) meta.
Proof. apply has_base_update; [apply tc_template_single|apply tc_base_has]. Qed.

(* the columns, reference first *)
Definition tc_arrays (f : frame) (names : list string) : list (list cell) :=
  map (fun s => match column f s with Ok c => c | Err _ => [] end) names.
Lemma tc_columns f names : incl names (f_cols f) -> seqR (map (column f) names) = Ok (tc_arrays f names).
Proof.
  induction names as [|s names IH]; intros I; [reflexivity|]. cbn [map seqR tc_arrays].
  destruct (column_ok f s) as (c & E & _); [apply I; left; reflexivity|]. rewrite E. cbn [bindR].
  rewrite IH by (intros x J; apply I; right; exact J). reflexivity.
Qed.

(* what is stored for dataset number i and estimate number j *)
Lemma tc_values_in names t i j : (i < List.length names)%nat -> (j < 3)%nat ->
  In ([nth j tc_names ""; nth i names ""], RNum (nth i (component j t) None)) (tc_values names t).
Proof.
  intros I J. unfold tc_values. apply in_flat_map. exists (i, nth i names ""). split; [apply TcolProofs.combine_seq_in, I|].
  apply in_map_iff. exists (j, nth j tc_names ""). split; [reflexivity|].
  apply (TcolProofs.combine_seq_in tc_names j ""). exact J.
Qed.
Lemma tc_values_keys names t k v : In (k, v) (tc_values names t) -> exists m d, k = [m; d] /\ In d names /\ In m tc_names.
Proof.
  intros I. unfold tc_values in I. apply in_flat_map in I as ([i d] & ID & I). apply in_map_iff in I as ([j m] & E & JM).
  injection E as <- _. exists m, d. split; [reflexivity|]. split; [eapply in_combine_r, ID|eapply in_combine_r, JM].
Qed.
Lemma tc_values_map names t : map fst (tc_values names t) = flat_map (fun e => map (fun m => [m; snd e]) tc_names) (combine (seq 0 (List.length names)) names).
Proof.
  unfold tc_values. generalize (combine (seq 0 (List.length names)) names). intros l. induction l as [|e l IH]; [reflexivity|].
  cbn [flat_map]. rewrite map_app, IH. f_equal.
Qed.
Lemma flat_combine {B} (g : string -> list B) names : forall a, flat_map (fun e => g (snd e)) (combine (seq a (List.length names)) names) = flat_map g names.
Proof. induction names as [|s names IH]; intros a; [reflexivity|]. cbn. rewrite IH. reflexivity. Qed.
Lemma tc_values_nodup names t : NoDup names -> NoDup (map fst (tc_values names t)).
Proof.
  intros N. rewrite tc_values_map, (flat_combine (fun d => map (fun m => [m; d]) tc_names)). apply nodup_flat_map; [exact N| |].
  - intros d _. apply nodup_map_inj; [intros; congruence|]. apply nodupb_ok. reflexivity.
  - intros x y b _ _ B1 B2. apply in_map_iff in B1 as (m & <- & _). apply in_map_iff in B2 as (m' & E & _). congruence.
Qed.

Definition boot_keys : list string := flat_map (fun m => m :: ci_names m) tc_names.
Lemma tc_boot_map names r : map fst (tc_boot_values names r) = flat_map (fun d => map (fun m => [m; d]) boot_keys) names.
Proof.
  rewrite <- (flat_combine (fun d => map (fun m => [m; d]) boot_keys) names 0). unfold tc_boot_values.
  generalize (combine (seq 0 (List.length names)) names). intros l. induction l as [|e l IH]; [reflexivity|].
  cbn [flat_map]. rewrite map_app, IH. f_equal.
Qed.
Lemma tc_boot_nodup names r : NoDup names -> NoDup (map fst (tc_boot_values names r)).
Proof.
  intros N. rewrite tc_boot_map. apply nodup_flat_map; [exact N| |].
  - intros d _. apply nodup_map_inj; [intros; congruence|]. apply nodupb_ok. vm_compute. reflexivity.
  - intros x y b _ _ B1 B2. apply in_map_iff in B1 as (m & <- & _). apply in_map_iff in B2 as (m' & E & _). congruence.
Qed.
Lemma tc_boot_in names r i j : (i < List.length names)%nat -> (j < 3)%nat ->
  let part := nth j r ([], []) in let ci := nth i (snd part) (None, None) in let m := nth j tc_names "" in let d := nth i names "" in
  In ([m; d], RNum (nth i (fst part) None)) (tc_boot_values names r) /\
  In ([(m ++ "_ci_lower")%string; d], RNum (fst ci)) (tc_boot_values names r) /\
  In ([(m ++ "_ci_upper")%string; d], RNum (snd ci)) (tc_boot_values names r).
Proof.
  intros I J. cbv zeta. unfold tc_boot_values.
  assert (IN : In (i, nth i names "") (combine (seq 0 (List.length names)) names)) by (apply TcolProofs.combine_seq_in, I).
  assert (JN : In (j, nth j tc_names "") (combine (seq 0 3) tc_names)) by (apply (TcolProofs.combine_seq_in tc_names j ""); exact J).
  repeat split; (apply in_flat_map; exists (i, nth i names ""); split; [exact IN|]; apply in_flat_map; exists (j, nth j tc_names ""); split; [exact JN|]; cbn; auto).
Qed.

Notation run := (tc_calc min_obs meta ppf cdf draws).

(* everything up to the calculation itself *)
Lemma tc_start refname boot o f i : good_meta meta i ["n_obs"] -> In refname (f_cols f) -> NoDup (f_cols f) -> List.length (f_cols f) = 3%nat ->
  exists others d a b c, let names := refname :: others in
    names = [a; b; c] /\ NoDup names /\ (forall x, In x names <-> In x (f_cols f)) /\
    prepared_n d (tc_full boot names) meta i /\ holds d ["n_obs"] (count f) /\
    run refname boot o f i =
      (if Nat.ltb (nrows f) min_obs then set_status d INSUFFICIENT_DATA else
       match tc_arrays f names with
       | [x; y; z] =>
          let failed := Ok (ds_set d ["status"] (Scalar (RInt METRICS_CALCULATION_FAILED))) in
          if boot then
            match tc_rows x y z with
            | None => Err EOther
            | Some rows =>
                match tcol_with_bootstrapped_ci ppf cdf rows 0 (o_alpha o) "percentile" (None, None) (o_boot_min o) (draws "tcol") with
                | Ok r => bindR (assigns d (tc_boot_values names r)) (fun d => set_status d OK)
                | Err EValue => failed
                | Err e => Err e
                end
            end
          else
            match (match tc_rows x y z with None => Ok tc_nan | Some rows => tcol_metrics rows 0 end) with
            | Ok t => bindR (assigns d (tc_values names t)) (fun d => set_status d OK)
            | Err EValue => failed
            | Err e => Err e
            end
      | _ => Err EType
      end).
Proof.
  intros G IR ND L3. unfold tc_calc. fold tc_base.
  destruct (meta_calc_ok tc_base meta i _ tc_base_has G) as (d & E & PREP). rewrite E. cbn [bindR].
  destruct (set_n_obs d tc_base meta i ["n_obs"] (count f) PREP G) as (d1 & E1 & PREP1 & HN); [left; reflexivity|apply names_single; left; reflexivity|].
  rewrite E1. cbn [bindR]. destruct (remove_first_ok refname (f_cols f) IR) as (others & ER & LO & NDO & MEM). rewrite ER. cbv zeta.
  assert (NS : forall s, ~ In [s] (map fst (tc_template boot (refname :: others)))).
  { intros s I. apply (proj1 (tc_template_keys _ _ _)) in I as (m & x & EQ & _). discriminate. }
  destruct others as [|b [|c [|? ?]]]; cbn in LO; try lia.
  exists [b; c], (ds_update d1 (tc_template boot [refname; b; c])), refname, b, c. split; [reflexivity|]. split; [apply NDO, ND|]. split; [exact MEM|].
  split; [apply prepared_update; [exact PREP1|exact NS|apply tc_template_single]|].
  split; [unfold holds; rewrite get_update_out by apply NS; exact HN|].
  destruct (Nat.ltb (nrows f) min_obs); [reflexivity|].
  rewrite tc_columns by (intros x J; apply MEM, J). cbn [bindR]. reflexivity.
Qed.

Lemma tc_arrays_three f a b c : exists x y z, tc_arrays f [a; b; c] = [x; y; z].
Proof. eexists _, _, _. reflexivity. Qed.

(* the estimates stored without bootstrapping *)
Definition estimates (f : frame) (names : list string) : tc_result :=
  match tc_arrays f names with
  | [x; y; z] => match tc_rows x y z with Some rows => tc_of rows 0 | None => tc_nan end
  | _ => tc_nan
  end.

Lemma tc_ok refname o f i : good_meta meta i ["n_obs"] -> In refname (f_cols f) -> NoDup (f_cols f) -> List.length (f_cols f) = 3%nat ->
  exists others d, let names := refname :: others in run refname false o f i = Ok d /\
    NoDup names /\ (forall x, In x names <-> In x (f_cols f)) /\
    identified d i /\ meta_copied d meta i /\ holds d ["n_obs"] (RInt (Z.of_nat (nrows f))) /\
    ((nrows f < min_obs)%nat -> insufficient d (tc_full false names) meta) /\
    ((min_obs <= nrows f)%nat -> holds d ["status"] (RInt 0) /\
       forall k j, (k < 3)%nat -> (j < 3)%nat ->
         holds d [nth j tc_names ""; nth k names ""] (RNum (nth k (component j (estimates f names)) None))).
Proof.
  intros G IR ND L3. destruct (tc_start refname false o f i G IR ND L3) as (others & d & a & b & c & H). cbv zeta in H.
  destruct H as (NM & NDN & MEM & PREP & HN & RUN). exists others. cbv zeta. rewrite RUN.
  destruct (Nat.ltb_spec (nrows f) min_obs) as [L|L].
  - destruct (finish_insufficient d _ meta i _ PREP (tc_full_has _ _) G) as (d' & E' & ID & MC & INS & KEEP).
    exists d'. split; [exact E'|]. split; [exact NDN|]. split; [exact MEM|]. split; [exact ID|]. split; [exact MC|].
    split; [unfold holds; rewrite KEEP by discriminate; exact HN|]. split; [intros _; exact INS|lia].
  - unfold estimates. rewrite NM in *. destruct (tc_arrays_three f a b c) as (x & y & z & EA). rewrite EA.
    assert (T : (match tc_rows x y z with None => Ok tc_nan | Some rows => tcol_metrics rows 0 end) =
                Ok (match tc_rows x y z with Some rows => tc_of rows 0 | None => tc_nan end)).
    { destruct (tc_rows x y z); [apply tc_of_ok; lia|reflexivity]. }
    rewrite T. set (t := match tc_rows x y z with Some rows => tc_of rows 0 | None => tc_nan end).
    destruct (finish_ok d (tc_full false [a; b; c]) meta i ["n_obs"] (tc_values [a; b; c] t) PREP (tc_full_has _ _) G)
      as (d0 & d' & E0 & E1 & ID & MC & SS & VAL & SG & KEEP).
    + intros k v I. destruct (tc_values_keys _ _ _ _ I) as (m & s & -> & S0 & M). split; [|discriminate].
      apply single_update_in; [apply tc_template_single|]. apply tc_template_keys. exists m, s. auto.
    + cbn. intuition discriminate.
    + intros s I J. cbn in I, J. intuition (subst; discriminate).
    + apply tc_values_nodup, NDN.
    + exists d'. rewrite E0. cbn [bindR]. split; [exact E1|]. split; [exact NDN|]. split; [exact MEM|]. split; [exact ID|]. split; [exact MC|].
      split.
      { unfold holds. rewrite KEEP; [exact HN|discriminate|]. intros I. apply in_map_iff in I as ([k v] & EQ & I). cbn in EQ. subst k.
        destruct (tc_values_keys _ _ _ _ I) as (m & s & EQ & _). discriminate. }
      split; [lia|]. intros _. split; [exact SS|]. intros k j K J. apply VAL, tc_values_in; [exact K|exact J].
Qed.

(* with bootstrapping, data without missing values *)
Lemma tc_boot_ok refname o f i : good_meta meta i ["n_obs"] -> In refname (f_cols f) -> NoDup (f_cols f) -> List.length (f_cols f) = 3%nat ->
  (0 <= o_alpha o <= 1)%R -> wf_frame f -> (forall r c, In r (f_rows f) -> In c (snd r) -> notna c = true) -> (0 < nrows f)%nat ->
  exists others d, let names := refname :: others in run refname true o f i = Ok d /\
    NoDup names /\ (forall x, In x names <-> In x (f_cols f)) /\
    identified d i /\ meta_copied d meta i /\ holds d ["n_obs"] (RInt (Z.of_nat (nrows f))) /\
    ((nrows f < min_obs)%nat -> insufficient d (tc_full true names) meta) /\
    ((min_obs <= nrows f)%nat -> (nrows f < o_boot_min o)%nat -> ds_get d ["status"] = Some (Scalar (RInt 2))) /\
    ((min_obs <= nrows f)%nat -> (o_boot_min o <= nrows f)%nat -> holds d ["status"] (RInt 0) /\
       (forall k j, (k < 3)%nat -> (j < 3)%nat ->
         holds d [nth j tc_names ""; nth k names ""] (RNum (nth k (component j (estimates f names)) None))) /\
       exists x y z rows, seqR (map (column f) names) = Ok [x; y; z] /\ tc_rows x y z = Some rows /\
         forall k j, (k < 3)%nat -> (j < 3)%nat ->
           let v := vals (map (fun idx => nth k (component j (tc_of (take_rows rows idx) 0)) None) (draws "tcol")) in
           let ci := if andb (Nat.eqb j 2) (Nat.eqb k 0) then (Some 1%R, Some 1%R)
                     else match v with [] => (None, None) | _ => (Some (quantile v (o_alpha o / 2)), Some (quantile v (1 - o_alpha o / 2))) end in
           holds d [(nth j tc_names "" ++ "_ci_lower")%string; nth k names ""] (RNum (fst ci)) /\
           holds d [(nth j tc_names "" ++ "_ci_upper")%string; nth k names ""] (RNum (snd ci))).
Proof.
  intros G IR ND L3 AL WF NA POS. destruct (tc_start refname true o f i G IR ND L3) as (others & d & a & b & c & H). cbv zeta in H.
  destruct H as (NM & NDN & MEM & PREP & HN & RUN). exists others. cbv zeta. rewrite RUN.
  destruct (Nat.ltb_spec (nrows f) min_obs) as [L|L].
  - destruct (finish_insufficient d _ meta i _ PREP (tc_full_has _ _) G) as (d' & E' & ID & MC & INS & KEEP).
    exists d'. split; [exact E'|]. split; [exact NDN|]. split; [exact MEM|]. split; [exact ID|]. split; [exact MC|].
    split; [unfold holds; rewrite KEEP by discriminate; exact HN|]. split; [intros _; exact INS|split; lia].
  - unfold estimates. rewrite NM in *. destruct (tc_arrays_three f a b c) as (x & y & z & EA). rewrite EA.
    assert (FULL : forall s, In s [a; b; c] -> exists u, all_some (rcol (match column f s with Ok l => l | Err _ => [] end)) = Some u /\ List.length u = nrows f).
    { intros s I. apply MEM in I. destruct (index_of_in _ _ I) as (p & EP & LP & _). unfold column. rewrite EP.
      assert (D : f_rows (dropna f) = f_rows f).
      { cbn. apply filter_all. intros r J. apply forallb_forall. intros q Q. exact (NA r q J Q). }
      destruct (col_complete f p WF LP) as (g & Eg & _). unfold col_at in Eg |- *. rewrite D in Eg. 
      refine (ex_intro _ (map (fun r => Q2R (g r)) (f_rows f)) (conj _ (map_length _ _))).
      refine (eq_trans (f_equal (fun l => all_some (rcol l)) Eg) _). unfold rcol. rewrite map_map. cbn [omap]. apply all_some_map. }
    assert (EX : x = (match column f a with Ok l => l | Err _ => [] end) /\ y = (match column f b with Ok l => l | Err _ => [] end) /\ z = (match column f c with Ok l => l | Err _ => [] end)).
    { unfold tc_arrays in EA. cbn [map] in EA. split; [congruence|split; congruence]. }
    destruct EX as (X & Y & Z).
    destruct (FULL a) as (u & EU & LU); [cbn; auto|]. destruct (FULL b) as (v & EV & LV); [cbn; auto|]. destruct (FULL c) as (w & EW & LW); [cbn; auto|].
    rewrite <- X in EU. rewrite <- Y in EV. rewrite <- Z in EW.
    assert (ROWS : exists rows, tc_rows x y z = Some rows /\ List.length rows = nrows f).
    { unfold tc_rows. rewrite EU, EV, EW. cbn [obind omap]. eexists. split; [reflexivity|].
      rewrite map_length, !combine_length. lia. }
    destruct ROWS as (rows & ER & LR). rewrite ER.
    destruct (Nat.lt_ge_cases (nrows f) (o_boot_min o)) as [S0|S0].
    + unfold tcol_with_bootstrapped_ci. rewrite LR, (proj2 (Nat.ltb_lt _ _) S0). eexists. split; [reflexivity|].
      split; [exact NDN|]. split; [exact MEM|]. destruct PREP as (SG & ID & MC & OUT). split; [|split; [|split; [|split; [lia|split; [|lia]]]]].
      * refine (keep_identified d _ i _ ID). intros s I. apply get_set_other. intros EQ. assert (s = "status") by congruence. subst s. cbn in I. intuition discriminate.
      * refine (keep_meta d _ meta i _ MC). intros m s EM I. apply get_set_other. intros EQ. assert (s = "status") by congruence. subst s.
        destruct (G m EM) as (_ & DIS & _). apply (DIS _ I). cbn. auto.
      * unfold holds. rewrite get_set_other by discriminate. exact HN.
      * intros _ _. apply get_set_same.
    + destruct (tcol_percentile ppf cdf rows 0 (o_alpha o) (None, None) (o_boot_min o) (draws "tcol")) as (r & E & LRR & VALS); [destruct rows; [cbn [List.length] in LR; lia|discriminate]|lia|lia|exact AL|].
      rewrite E.
      destruct (finish_ok d (tc_full true [a; b; c]) meta i ["n_obs"] (tc_boot_values [a; b; c] r) PREP (tc_full_has _ _) G)
        as (d0 & d' & E0 & E1 & ID & MC & SS & VAL & SG & KEEP).
      * intros k q I. assert (IK : In k (map fst (tc_boot_values [a; b; c] r))) by (apply in_map_iff; exists (k, q); auto).
        rewrite tc_boot_map in IK. apply in_flat_map in IK as (s & IS & IK). apply in_map_iff in IK as (m & <- & IM). split; [|discriminate].
        apply single_update_in; [apply tc_template_single|]. apply tc_template_keys. exists m, s. split; [reflexivity|]. split; [exact IS|].
        unfold boot_keys in IM. apply in_flat_map in IM as (m0 & M0 & IM). destruct IM as [<-|IM]; [left; exact M0|right]. split; [reflexivity|]. exists m0. auto.
      * cbn. intuition discriminate.
      * intros s I J. cbn in I, J. intuition (subst; discriminate).
      * apply tc_boot_nodup, NDN.
      * exists d'. rewrite E0. cbn [bindR]. split; [exact E1|]. split; [exact NDN|]. split; [exact MEM|]. split; [exact ID|]. split; [exact MC|].
        split.
        { unfold holds. rewrite KEEP; [exact HN|discriminate|]. rewrite tc_boot_map. intros I. apply in_flat_map in I as (s & _ & I).
          apply in_map_iff in I as (m & EQ & _). discriminate. }
        split; [lia|]. split; [lia|]. intros _ _. split; [exact SS|]. split.
        { intros k j K J. destruct (tc_boot_in [a; b; c] r k j K J) as (I1 & _). destruct (VALS j k J K) as (V1 & _). apply VAL. rewrite <- V1. exact I1. }
        exists x, y, z, rows. split; [rewrite <- EA; apply tc_columns; intros s I; apply MEM; exact I|]. split; [exact ER|].
        intros k j K J. destruct (tc_boot_in [a; b; c] r k j K J) as (_ & I2 & I3). destruct (VALS j k J K) as (_ & V2).
        cbv zeta. rewrite <- V2. split; apply VAL; assumption.
Qed.
End Tc.
