(* HSAF_Metrics. *)
From Coq Require Import Reals Qreals List Lra Lia.
From Verif Require Import Base BaseProofs Calendar NamesModel GroupingModel RStats MetricsModel RollingModel TcolModel TcolProofs ConfintModel
  ConfintProofs2 DfMetricsModel DfMetricsProofs DfMetricsProofs2.
From Verif Require Import CalcModel CalcSpec CalcProofs CalcProofs2 CalcProofs3 CalcProofs4 CalcPairsModel CalcPairsSpec.
Open Scope string_scope.
Open Scope list_scope.

Lemma NoDup_app_remove_l {A} (l m : list A) : NoDup (l ++ m) -> NoDup m.
Proof. induction l as [|a l IH]; cbn; intros N; [exact N|]. apply NoDup_cons_iff in N as [_ N]. exact (IH N). Qed.
Lemma NoDup_app_remove_r {A} (l m : list A) : NoDup (l ++ m) -> NoDup l.
Proof.
  induction l as [|a l IH]; cbn; intros N; [constructor|]. apply NoDup_cons_iff in N as [N1 N]. constructor; [|exact (IH N)].
  intros I. apply N1. apply in_app_iff. left. exact I.
Qed.
Lemma flat_map_filter_nodup {A B} (g : A -> list B) (p : A -> bool) l : NoDup (flat_map g l) -> NoDup (flat_map g (filter p l)).
Proof.
  induction l as [|a l IH]; intros N; [constructor|]. cbn [flat_map] in N.
  pose proof (NoDup_app_remove_l _ _ N) as N2. cbn [filter]. destruct (p a); [|apply IH, N2].
  cbn [flat_map]. apply NamesProofs.nodup_app.
  - apply (NoDup_app_remove_r _ _ N).
  - apply IH, N2.
  - intros x X Y. apply in_flat_map in Y as (b & Y1 & Y2). apply filter_In in Y1 as [Y1 _].
    assert (Z : In x (flat_map g l)) by (apply in_flat_map; eauto). clear - N X Z.
    induction (g a) as [|c l' IH]; [contradiction|]. cbn in N. apply NoDup_cons_iff in N as [N1 N2]. destruct X as [->|X].
    + apply N1. apply in_app_iff. right. exact Z.
    + exact (IH N2 X).
Qed.
Lemma app_nodup_disjoint {A} (l m : list A) x : NoDup (l ++ m) -> In x l -> In x m -> False.
Proof.
  induction l as [|c l IH]; [contradiction|]. cbn. intros N X Z. apply NoDup_cons_iff in N as [N1 N2]. destruct X as [->|X].
  - apply N1. apply in_app_iff. right. exact Z.
  - exact (IH N2 X Z).
Qed.
Lemma flat_map_nodup_same {A B} (g : A -> list B) l a b x : NoDup (flat_map g l) -> In a l -> In b l -> In x (g a) -> In x (g b) -> a = b.
Proof.
  induction l as [|c l IH]; [contradiction|]. cbn [flat_map]. intros N IA IB XA XB.
  assert (IN : forall d, In d l -> In x (g d) -> In x (flat_map g l)) by (intros; apply in_flat_map; eauto).
  destruct IA as [->|IA], IB as [->|IB].
  - reflexivity.
  - exfalso. eapply app_nodup_disjoint; [exact N|exact XA|eauto].
  - exfalso. eapply app_nodup_disjoint; [exact N|exact XB|eauto].
  - apply IH; try assumption. exact (NoDup_app_remove_l _ _ N).
Qed.

(* ---- the rows of a season ---- *)
Lemma in_season_spec season r : In season seasons -> (1 <= dm (t_date (fst r)) <= 12)%Z ->
  in_season season r = existsb (Z.eqb (dm (t_date (fst r)))) (season_months season).
Proof.
  intros I. unfold in_season. generalize (dm (t_date (fst r))). intros m M.
  assert (C : (m = 1 \/ m = 2 \/ m = 3 \/ m = 4 \/ m = 5 \/ m = 6 \/ m = 7 \/ m = 8 \/ m = 9 \/ m = 10 \/ m = 11 \/ m = 12)%Z) by lia.
  cbn in I. destruct I as [<-|[<-|[<-|[<-|[<-|[]]]]]];
    repeat (destruct C as [->|C]; [reflexivity|]); rewrite C; reflexivity.
Qed.
Lemma mask_select_two {A B} (p : A -> bool) (g : A -> B) l : mask_select (map p l) (map g l) = map g (filter p l).
Proof. induction l as [|a l IH]; cbn; [reflexivity|]. destruct (p a); cbn; rewrite IH; reflexivity. Qed.
Lemma season_filter season f : In season seasons -> dated f -> filter (in_season season) (f_rows f) = f_rows (season_data season f).
Proof.
  intros I D. unfold season_data. cbn [f_rows]. apply filter_ext_in. intros r R. apply in_season_spec; [exact I|exact (D r R)].
Qed.
Lemma season_count season f : In season seasons -> dated f -> true_count (season_mask season f) = nrows (season_data season f).
Proof.
  intros I D. unfold true_count, season_mask, nrows. rewrite <- (season_filter season f I D).
  generalize (f_rows f). intros l. induction l as [|r l IH]; [reflexivity|]. cbn [map filter]. destruct (in_season season r); cbn [List.length]; rewrite IH; reflexivity.
Qed.
Lemma season_column season f c : In season seasons -> dated f ->
  mapR (mask_select (season_mask season f)) (column f c) = column (season_data season f) c.
Proof.
  intros I D. unfold column. cbn [season_data f_cols]. destruct (index_of (f_cols f) c) as [i|]; [|reflexivity]. cbn [mapR]. f_equal.
  unfold col_at, season_mask. refine (eq_trans (mask_select_two _ _ _) _). rewrite (season_filter season f I D). reflexivity.
Qed.

Lemma component_length t j : tcol_arrays = tcol_arrays -> (forall x y z, tcol_arrays x y z = Ok t -> List.length (component j t) = 3%nat).
Proof.
  intros _ x y z. unfold tcol_arrays. destruct (tc_rows x y z) as [rows|].
  - destruct (tcol_ok rows 0) as (t' & E & A & B & C); [lia|]. rewrite E. intros H. assert (t' = t) by congruence. subst t'.
    destruct j as [|[|j]]; assumption.
  - intros H. assert (t = tc_nan) by congruence. subst t. destruct j as [|[|j]]; reflexivity.
Qed.

Definition covers (named : list (string * metric_dict)) (lay : layout) : Prop :=
  forall nd p, In nd named -> In p (l_pairs lay) -> exists v, lookup_pair (snd nd) (fst p) = Ok v.
Definition value_at (nd : string * metric_dict) (p : key) : rcell :=
  match lookup_pair (snd nd) p with Ok v => v | Err _ => RNum None end.

Lemma pair_entries_ok named lay p : covers named lay -> In p (l_pairs lay) ->
  pair_entries named (fst p) = Ok (map (fun nd => (fst nd, value_at nd (fst p))) named).
Proof.
  intros C I. unfold pair_entries. apply TemporalProofs.seqR_map_ok. intros nd N. destruct (C nd p N I) as [v E].
  unfold value_at. rewrite E. reflexivity.
Qed.

Lemma df_metric_length m k f ds : df_metric m k f = Ok ds -> List.length ds = k.
Proof.
  unfold df_metric. destruct (nwise_apply _ _ _ _ _ _) as [l|]; cbn [bindR]; [|discriminate].
  destruct (Nat.eqb_spec (List.length l) k) as [E|]; [|discriminate]. intros H. assert (l = ds) by congruence. subst. reflexivity.
Qed.
Lemma combine_names {A B} (l : list A) : forall m : list B, List.length m = List.length l -> map fst (combine l m) = l.
Proof. induction l as [|a l IH]; intros [|b m] L; cbn in *; try discriminate; [reflexivity|]. rewrite IH by lia. reflexivity. Qed.

Section Hsaf.
Variables m_pearson m_spearman m_bias m_ubrmsd : list (list cell) -> res (list (option R)).
Variable scale_min_max : frame -> res frame.
Variable min_obs : nat.
Variable meta : metadata.
Notation tables := (hsaf_tables m_pearson m_spearman m_bias m_ubrmsd scale_min_max).
Notation values := (hsaf_values m_pearson m_spearman m_bias m_ubrmsd scale_min_max).
Notation loop := (hsaf_loop m_pearson m_spearman m_bias m_ubrmsd scale_min_max min_obs).
Notation calc := (hsaf_calc m_pearson m_spearman m_bias m_ubrmsd scale_min_max min_obs meta).

Lemma tables_names f named : tables f = Ok named -> map fst named = tds_names.
Proof.
  unfold hsaf_tables. intros H.
  destruct (df_metric m_pearson 2 f) as [p|] eqn:EP; [cbn [bindR] in H|discriminate].
  destruct (df_metric m_spearman 2 f) as [s|] eqn:ES; [cbn [bindR] in H|discriminate].
  destruct (scale_min_max f) as [fs|] eqn:EF; [cbn [bindR] in H|discriminate].
  destruct (df_metric m_bias 1 fs) as [b|] eqn:EB; [cbn [bindR] in H|discriminate].
  destruct (df_metric m_ubrmsd 1 fs) as [u|] eqn:EU; [cbn [bindR] in H|discriminate].
  apply df_metric_length in EP, ES, EB, EU. assert (HE : combine tds_names (p ++ s ++ b ++ u) = named) by congruence. rewrite <- HE. apply combine_names. rewrite !app_length, EP, ES, EB, EU. reflexivity.
Qed.

Definition hsaf_keys (lay : layout) : list string := flat_map (fun s => n_key s :: season_keys lay s) seasons.
(* the constructor does not create the same name twice *)
Definition distinct_keys (lay : layout) : Prop :=
  NoDup (hsaf_keys lay) /\ (forall s, In s (location_keys ++ ["status"]) -> ~ In s (hsaf_keys lay)).

Definition season_sds (lay : layout) (season : string) (t : tc_result) : list (key * rcell) :=
  flat_map (fun e => map (fun jm => ([s_key (snd e) season (snd jm)], RNum (nth (fst e) (component (fst jm) t) None))) (combine (seq 0 3) sds_names))
           (combine (seq 0 (List.length (l_names lay))) (l_names lay)).
Definition season_tds (lay : layout) (season : string) (named : list (string * metric_dict)) : list (key * rcell) :=
  flat_map (fun p => map (fun nd => ([s_key (snd p) season (fst nd)], value_at nd (fst p))) named) (l_pairs lay).
Definition season_values (lay : layout) (named : list (string * metric_dict)) (f : frame) (season : string) : list (key * rcell) :=
  ([n_key season], RInt (Z.of_nat (nrows (season_data season f)))) ::
  season_sds lay season (estimates (season_data season f) (l_cols lay)) ++ season_tds lay season named.

Lemma sds_values_ok lay season t : List.length (l_names lay) = 3%nat -> (forall j, List.length (component j t) = 3%nat) ->
  sds_values (l_names lay) season t = Ok (season_sds lay season t).
Proof.
  intros L3 C. unfold sds_values, season_sds.
  rewrite (TemporalProofs.seqR_map_ok _ (fun e => map (fun jm => ([s_key (snd e) season (snd jm)], RNum (nth (fst e) (component (fst jm) t) None))) (combine (seq 0 3) sds_names))).
  - cbn [mapR]. rewrite <- flat_map_concat_map. reflexivity.
  - intros [i n] I. apply in_combine_l in I. apply in_seq in I. apply TemporalProofs.seqR_map_ok. intros [j m] _. cbn [fst snd].
    unfold at_result. rewrite (nth_error_nth' _ None) by (rewrite C; lia). reflexivity.
Qed.

Lemma hsaf_values_ok lay named f season : List.length (l_cols lay) = 3%nat -> List.length (l_names lay) = 3%nat -> incl (l_cols lay) (f_cols f) ->
  In season seasons -> dated f -> tables f = Ok named -> covers named lay ->
  values lay season f = Ok (season_values lay named f season).
Proof.
  intros LC LN IC IS D T CV. unfold hsaf_values.
  rewrite (map_ext _ (column (season_data season f))) by (intros; apply season_column; assumption).
  rewrite (tc_columns (season_data season f)) by exact IC. cbn [bindR].
  destruct (l_cols lay) as [|a [|b [|c [|]]]] eqn:EC; try discriminate. destruct (tc_arrays_three (season_data season f) a b c) as (x & y & z & EA).
  rewrite EA. cbv zeta. assert (ET : tcol_arrays x y z = Ok (estimates (season_data season f) [a; b; c])).
  { unfold tcol_arrays, estimates. rewrite EA. destruct (tc_rows x y z); [apply tc_of_ok; lia|reflexivity]. }
  rewrite ET. cbn [bindR]. rewrite (sds_values_ok lay season _ LN) by (intros j; exact (component_length _ j eq_refl x y z ET)). cbn [bindR].
  rewrite T. cbn [bindR].
  rewrite (TemporalProofs.seqR_map_ok _ (fun p => map (fun nd => ([s_key (snd p) season (fst nd)], value_at nd (fst p))) named)).
  - cbn [bindR]. unfold season_values, season_tds. rewrite flat_map_concat_map, season_count, EC by assumption. reflexivity.
  - intros p P. rewrite (pair_entries_ok named lay p CV P). cbn [mapR]. rewrite map_map. reflexivity.
Qed.

Lemma hsaf_loop_ok lay f V : forall l d, (forall s, In s l -> (min_obs <= true_count (season_mask s f))%nat -> values lay s f = Ok (V s)) ->
  loop lay f d l = assigns d (flat_map V (filter (fun s => negb (Nat.ltb (true_count (season_mask s f)) min_obs)) l)).
Proof.
  induction l as [|s l IH]; intros d H; [reflexivity|]. cbn [hsaf_loop filter]. destruct (Nat.ltb_spec (true_count (season_mask s f)) min_obs) as [L|L]; cbn [negb].
  - apply IH. intros; apply H; [right|]; assumption.
  - rewrite (H s (or_introl eq_refl) L). cbn [bindR flat_map]. rewrite assigns_app. destruct (assigns d (V s)); cbn [bindR]; [|reflexivity].
    apply IH. intros; apply H; [right|]; assumption.
Qed.

Lemma season_values_keys lay named f season : List.length (l_names lay) = 3%nat -> map fst named = tds_names ->
  map fst (season_values lay named f season) = map (fun k => [k]) (n_key season :: season_keys lay season).
Proof.
  intros LN NM. unfold season_values. cbn [map fst]. f_equal. unfold season_keys, season_sds, season_tds. rewrite !map_app. f_equal.
  - destruct (l_names lay) as [|a [|b [|c [|]]]]; try discriminate. reflexivity.
  - rewrite !flat_map_concat_map, !concat_map, !map_map. f_equal. apply map_ext. intros p. rewrite !map_map. cbn [fst].
    rewrite <- NM, map_map. reflexivity.
Qed.

Lemma hsaf_template_keys lay : map fst (flat_map (fun season => ([n_key season], int0) :: map (fun k => ([k], nan)) (season_keys lay season)) seasons)
  = map (fun k => [k]) (hsaf_keys lay).
Proof.
  unfold hsaf_keys. rewrite !flat_map_concat_map, !concat_map, !map_map. f_equal. apply map_ext. intros s. cbn [map fst]. rewrite map_map. reflexivity.
Qed.
Lemma hsaf_template_single lay k v : In (k, v) (flat_map (fun season => ([n_key season], int0) :: map (fun k => ([k], nan)) (season_keys lay season)) seasons) ->
  exists c, v = Arr [c].
Proof.
  intros I. apply in_flat_map in I as (s & _ & I). destruct I as [E|I]; [injection E as _ <-; eexists; reflexivity|].
  apply in_map_iff in I as (k' & E & _). injection E as _ <-. eexists. reflexivity.
Qed.
Lemma hsaf_has_base lay : has_base (hsaf_template meta lay) meta.
Proof. apply has_base_update; [apply hsaf_template_single|apply base_has]. Qed.

Lemma hsaf_ok lay named f i : List.length (l_cols lay) = 3%nat -> List.length (l_names lay) = 3%nat -> incl (l_cols lay) (f_cols f) -> distinct_keys lay ->
  good_meta meta i (hsaf_keys lay) -> dated f -> tables f = Ok named -> covers named lay ->
  exists d, calc lay f i = Ok d /\ identified d i /\ meta_copied d meta i /\ holds d ["status"] (RInt 0) /\
    forall season, In season seasons -> let g := season_data season f in
      ((nrows g < min_obs)%nat -> holds d [n_key season] (RInt 0) /\ forall k, In k (season_keys lay season) -> holds d [k] (RNum None)) /\
      ((min_obs <= nrows g)%nat -> forall k v, In (k, v) (season_values lay named f season) -> holds d k v).
Proof.
  intros LC LN IC [DK DL] G D T CV. unfold hsaf_calc.
  destruct (meta_calc_ok (hsaf_template meta lay) meta i _ (hsaf_has_base lay) G) as (d & E & PREP). rewrite E. cbn [bindR].
  set (el := fun s => negb (Nat.ltb (true_count (season_mask s f)) min_obs)).
  set (V := season_values lay named f).
  rewrite (hsaf_loop_ok lay f V seasons d) by (intros s IS _; apply hsaf_values_ok; assumption). fold el.
  assert (PN : prepared_n d (hsaf_template meta lay) meta i) by (apply prepared_weaken; exact PREP).
  assert (TN : map fst named = tds_names) by (eapply tables_names; exact T).
  assert (VK : forall s, map fst (V s) = map (fun k => [k]) (n_key s :: season_keys lay s)) by (intros; apply season_values_keys; assumption).
  assert (KEYS : forall l, map fst (flat_map V l) = map (fun k => [k]) (flat_map (fun s => n_key s :: season_keys lay s) l)).
  { induction l as [|s l IH]; [reflexivity|]. cbn [flat_map]. rewrite !map_app, IH, VK. reflexivity. }
  assert (INJ : forall a b : string, [a] = [b] :> key -> a = b) by (intros; congruence).
  assert (SGT : forall k, In k (hsaf_keys lay) -> single (hsaf_template meta lay) [k]).
  { intros k K. apply single_update_in; [apply hsaf_template_single|]. rewrite hsaf_template_keys. apply in_map_iff. eauto. }
  assert (SUB : forall k, In k (flat_map (fun s => n_key s :: season_keys lay s) (filter el seasons)) -> In k (hsaf_keys lay)).
  { intros k K. apply in_flat_map in K as (s & S1 & S2). apply filter_In in S1 as [S1 _]. apply in_flat_map. eauto. }
  destruct (finish_ok d (hsaf_template meta lay) meta i (hsaf_keys lay) (flat_map V (filter el seasons)) PN (hsaf_has_base lay) G) as (d0 & d' & E0 & E1 & ID & MC & ST & VAL & _ & KEEP).
  - intros k v I. assert (K : In k (map fst (flat_map V (filter el seasons)))) by (apply in_map_iff; exists (k, v); auto).
    rewrite KEYS in K. apply in_map_iff in K as (s & <- & K). split; [apply SGT, SUB, K|]. intros s' EQ. apply INJ in EQ. subst s'. apply SUB, K.
  - apply DL. cbn. auto.
  - intros s I. apply DL. apply in_app_iff. left. exact I.
  - rewrite KEYS. apply FinFun.Injective_map_NoDup; [intros a b; apply INJ|]. apply (flat_map_filter_nodup _ el), DK.
  - exists d'. rewrite E0. cbn [bindR]. split; [exact E1|]. split; [exact ID|]. split; [exact MC|]. split; [exact ST|].
    intros season IS. cbv zeta. set (g := season_data season f). split.
    + intros L.
      assert (NI : forall k, In k (n_key season :: season_keys lay season) -> ~ In [k] (map fst (flat_map V (filter el seasons)))).
      { intros k K J. rewrite KEYS in J. apply in_map_iff in J as (k' & EQ & J). apply INJ in EQ. subst k'.
        apply in_flat_map in J as (s & S1 & S2). apply filter_In in S1 as [S1 SE].
        assert (s = season) by (eapply (flat_map_nodup_same (fun s => n_key s :: season_keys lay s) seasons); [exact DK|exact S1|exact IS|exact S2|exact K]). subst s.
        unfold el in SE. rewrite (season_count season f IS D) in SE. fold g in SE. destruct (Nat.ltb_spec (nrows g) min_obs); [discriminate|lia]. }
      assert (DEF : forall k v, In ([k], v) (([n_key season], int0) :: map (fun k => ([k], nan)) (season_keys lay season)) -> ds_get d' [k] = Some v).
      { intros k v I. assert (K : In k (n_key season :: season_keys lay season)).
        { destruct I as [EQ|I]; [injection EQ as <- _; left; reflexivity|]. apply in_map_iff in I as (k' & EQ & I). injection EQ as <- _. right. exact I. }
        assert (KH : In k (hsaf_keys lay)) by (apply in_flat_map; eauto).
        rewrite KEEP.
        - destruct PREP as (_ & _ & _ & OUT). rewrite OUT.
          + apply get_update_in; [rewrite hsaf_template_keys; apply FinFun.Injective_map_NoDup; [intros a b; apply INJ|exact DK]|].
            apply in_flat_map. exists season. split; [exact IS|exact I].
          + intros s EQ. apply INJ in EQ. subst s. split.
            * intros J. apply (DL k); [apply in_app_iff; left; exact J|exact KH].
            * intros m M J. destruct (G m M) as (_ & DIS & _). apply (DIS k J). apply in_app_iff. right. right. exact KH.
        - intros EQ. apply INJ in EQ. subst k. apply (DL "status"); [cbn; auto|exact KH].
        - apply NI, K. }
      split; [apply DEF; left; reflexivity|]. intros k K. apply DEF. right. apply in_map_iff. eauto.
    + intros L k v I. apply VAL. apply in_flat_map. exists season. split; [|exact I]. apply filter_In. split; [exact IS|].
      unfold el. rewrite (season_count season f IS D). fold g. destruct (Nat.ltb_spec (nrows g) min_obs); [lia|reflexivity].
Qed.
End Hsaf.
