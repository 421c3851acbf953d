(* The dictionaries of the data frame metrics, and IntercomparisonMetrics. *)
From Coq Require Import Reals Qreals List Lra Lia.
From Verif Require Import Base BaseProofs Calendar NamesModel NamesProofs GroupingModel RStats MetricsModel RollingModel TcolModel TcolProofs ConfintModel
  ConfintProofs2 StoredProofs DfMetricsModel DfMetricsSpec DfMetricsProofs DfMetricsProofs2.
From Verif Require Import CalcModel CalcSpec CalcProofs CalcProofs2 CalcProofs3 CalcProofs4 CalcPairsModel CalcPairsSpec CalcPairsProofs.
Open Scope string_scope.
Open Scope list_scope.

Lemma map_nth_seq {A} (d : A) (l : list A) : l = map (fun i => nth i l d) (seq 0 (List.length l)).
Proof. induction l as [|x l IH]; [reflexivity|]. cbn [List.length seq map nth]. f_equal. rewrite <- seq_shift, map_map. exact IH. Qed.
Lemma combinations_map {A B} (g : A -> B) : forall k l, combinations k (map g l) = map (map g) (combinations k l).
Proof.
  intros k l. revert k. induction l as [|x l IH]; intros [|k]; try reflexivity. cbn [map combinations]. rewrite !IH, map_app, !map_map. reflexivity.
Qed.
Lemma combine_map_snd {A B} (l : list A) : forall m : list B, List.length m = List.length l -> map snd (combine l m) = m.
Proof. induction l as [|a l IH]; intros [|b m] L; cbn in *; try discriminate; [reflexivity|]. rewrite IH by lia. reflexivity. Qed.

(* ---- tables ---- *)
Lemma table_fst f : map fst (table f) = f_cols f.
Proof. apply combine_names. rewrite map_length, seq_length. reflexivity. Qed.
Lemma table_snd f : map snd (table f) = map (col_at f) (seq 0 (List.length (f_cols f))).
Proof. apply combine_map_snd. rewrite map_length, seq_length. reflexivity. Qed.
Lemma table_ncols f : ncols (table f) = List.length (f_cols f).
Proof. unfold ncols. rewrite <- (map_length fst), table_fst. reflexivity. Qed.
Lemma table_wf f : NoDup (f_cols f) -> well_formed (table f) (nrows f).
Proof.
  intros N. split; [rewrite table_fst; exact N|]. intros c I. apply (in_map snd) in I. rewrite table_snd in I. apply in_map_iff in I as (i & E & _).
  rewrite <- E. unfold col_at. apply map_length.
Qed.
Lemma table_names f : map (colname (table f)) (seq 0 (List.length (f_cols f))) = f_cols f.
Proof. unfold colname. rewrite table_fst. symmetry. apply map_nth_seq. Qed.

(* ---- the keys of a data frame metric ---- *)
Lemma loop_keys {V} (m : list (list cell) -> res (list V)) f nres : forall combs masks rows, nwise_loop m f nres masks combs = Ok rows -> map fst rows = combs.
Proof.
  induction combs as [|c combs IH]; intros masks rows H; cbn [nwise_loop] in H; [injection H as <-; reflexivity|].
  destruct (logical_and masks c) as [vm|]; [|discriminate]. cbn [bindR] in H.
  match type of H with bindR ?x _ = _ => destruct x as [row|]; [|discriminate] end. cbn [bindR] in H.
  destruct (nwise_loop m f nres (snd vm) combs) as [rs|] eqn:E; [|discriminate]. cbn [mapR] in H. assert (rows = (c, row) :: rs) by congruence. subst rows.
  cbn [map fst]. f_equal. exact (IH _ _ E).
Qed.
Lemma apply_keys {V} (m : list (list cell) -> res (list V)) f mi ds d : NoDup (map fst f) -> nwise_apply m m f 2 true mi = Ok ds -> In d ds ->
  map fst d = map (map (colname f)) (combs_of f 2 true mi).
Proof.
  intros N H I. unfold nwise_apply in H. destruct (nwise_rows m m f 2 true mi) as [[nres rows]|] eqn:E; [|discriminate]. cbn [mapR fst snd] in H.
  assert (K : map fst rows = combs_of f 2 true mi).
  { unfold nwise_rows in E. destruct (Nat.ltb _ _); [discriminate|]. destruct (array_dropna _) as [args|]; [|discriminate]. cbn [bindR] in E.
    destruct (m args) as [c0|]; [|discriminate]. cbn [bindR] in E. match type of E with mapR _ ?x = _ => destruct x as [rs|] eqn:E' end; [|discriminate].
    cbn [mapR] in E. assert (rs = rows) by congruence. subst rs. exact (loop_keys _ _ _ _ _ _ E'). }
  match type of H with Ok ?x = Ok _ => assert (DS : x = ds) by congruence end. rewrite <- DS in I. apply in_map_iff in I as (q & <- & _).
  assert (KD : map fst (dict_of q rows) = combs_of f 2 true mi) by (unfold dict_of; rewrite map_map; exact K).
  rewrite (fold_dict_new (map (colname f))).
  - cbn [app]. rewrite map_map. cbn [fst]. rewrite <- KD, map_map. reflexivity.
  - cbn [map app]. rewrite KD. apply nodup_map_inj; [|apply combs_of_nodup].
    intros a b Ia Ib E0. apply combs_of_in in Ia as (_ & _ & Ba & _), Ib as (_ & _ & Bb & _). unfold ncols in *. rewrite <- (map_length fst) in Ba, Bb.
    apply (map_nth_inj (map fst f)); [exact N|exact Ba|exact Bb|exact E0].
Qed.
Lemma find_key {V} (d : list (key * V)) k : In k (map fst d) -> exists e, find (fun e => key_eqb (fst e) k) d = Some e /\ fst e = k.
Proof.
  induction d as [|[a v] d IH]; intros I; [destruct I|]. cbn [find fst]. unfold key_eqb at 1. destruct (list_eq_dec string_dec a k) as [->|N].
  - eexists. split; reflexivity.
  - destruct I as [E|I]; [contradiction|]. exact (IH I).
Qed.
Lemma lookup_present (d : metric_dict) k : In k (map fst d) -> exists v, lookup_pair d k = Ok v.
Proof. intros I. destruct (find_key d k I) as ([a v] & E & _). unfold lookup_pair. rewrite E. eexists. reflexivity. Qed.

(* every pair of columns is a key, in the order of the columns *)
Lemma df_metric_covers m k f ds d p : NoDup (f_cols f) -> df_metric m k f = Ok ds -> In d ds -> In p (combinations 2 (f_cols f)) ->
  exists v, lookup_pair d p = Ok v.
Proof.
  intros N H I P. unfold df_metric in H. destruct (nwise_apply m m (table f) 2 true MNone) as [l|] eqn:E; [|discriminate]. cbn [bindR] in H.
  destruct (Nat.eqb _ _); [|discriminate]. assert (l = ds) by congruence. subst l. apply lookup_present.
  rewrite (apply_keys m (table f) MNone ds d) by (first [rewrite table_fst; exact N|assumption]).
  unfold combs_of. cbn [negb]. unfold n_combinations. rewrite filter_all by (intros; reflexivity). rewrite <- combinations_map, table_ncols, table_names. exact P.
Qed.

Lemma labels_fst lut sep combs ps : labels lut sep combs = Ok ps -> map fst ps = combs.
Proof.
  intros H. apply seqR_inv in H. induction H as [|c [c' s] combs ps E _ IH]; [reflexivity|]. cbn [map fst]. f_equal; [|exact IH].
  destruct (seqR _) as [l|]; [|discriminate]. cbn [mapR] in E. congruence.
Qed.

(* ---- HSAF_Metrics: the constructor ---- *)
Lemma hsaf_init_ok o1 o2 names lay : hsaf_init o1 o2 names = Ok lay ->
  l_cols lay = ["ref"; o1; o2] /\ (forall p, In p (l_pairs lay) -> In (fst p) (combinations 2 (l_cols lay))).
Proof.
  unfold hsaf_init. set (lut := combine _ _). clearbody lut. destruct (labels lut "_" (combinations 2 ["ref"; o1; o2])) as [ps|] eqn:E; [|discriminate]. cbn [mapR].
  intros H. injection H as <-. cbn [l_cols l_pairs]. split; [reflexivity|]. intros p I. apply labels_fst in E. rewrite <- E. apply in_map. exact I.
Qed.
Section HsafCovers.
Variables m_pearson m_spearman m_bias m_ubrmsd : list (list cell) -> res (list (option R)).
Variable scale_min_max : frame -> res frame.
Lemma hsaf_covers lay f named : (forall g, scale_min_max f = Ok g -> f_cols g = f_cols f) -> NoDup (f_cols f) ->
  (forall p, In p (l_pairs lay) -> In (fst p) (combinations 2 (f_cols f))) ->
  hsaf_tables m_pearson m_spearman m_bias m_ubrmsd scale_min_max f = Ok named -> covers named lay.
Proof.
  intros SC N PI H nd p IN IP. specialize (PI p IP). unfold hsaf_tables in H.
  destruct (df_metric m_pearson 2 f) as [r|] eqn:EP; [cbn [bindR] in H|discriminate].
  destruct (df_metric m_spearman 2 f) as [s|] eqn:ES; [cbn [bindR] in H|discriminate].
  destruct (scale_min_max f) as [fs|] eqn:EF; [cbn [bindR] in H|discriminate].
  destruct (df_metric m_bias 1 fs) as [b|] eqn:EB; [cbn [bindR] in H|discriminate].
  destruct (df_metric m_ubrmsd 1 fs) as [u|] eqn:EU; [cbn [bindR] in H|discriminate].
  assert (HE : combine tds_names (r ++ s ++ b ++ u) = named) by congruence. rewrite <- HE in IN. destruct nd as [n d]. apply in_combine_r in IN. cbn [snd].
  specialize (SC fs eq_refl). rewrite !in_app_iff in IN. destruct IN as [I|[I|[I|I]]].
  - exact (df_metric_covers _ _ _ _ _ _ N EP I PI).
  - exact (df_metric_covers _ _ _ _ _ _ N ES I PI).
  - rewrite <- SC in N, PI. exact (df_metric_covers _ _ _ _ _ _ N EB I PI).
  - rewrite <- SC in N, PI. exact (df_metric_covers _ _ _ _ _ _ N EU I PI).
Qed.
End HsafCovers.

(* ---- data[df_columns] ---- *)
Lemma select_ok f names : incl names (f_cols f) -> NoDup names ->
  exists g, select f names = Ok g /\ f_cols g = names /\ nrows g = nrows f /\ map fst (f_rows g) = map fst (f_rows f) /\ (forall c, In c names -> column g c = column f c).
Proof.
  intros I ND. unfold select. rewrite (tc_columns f names I). cbn [mapR]. eexists. split; [reflexivity|]. cbn [f_cols f_rows]. split; [reflexivity|].
  assert (LC : forall a, List.length (combine (seq a (List.length (f_rows f))) (f_rows f)) = List.length (f_rows f)) by (intros; rewrite combine_length, seq_length; lia).
  split; [unfold nrows; cbn [f_rows]; rewrite map_length; apply LC|]. split.
  - rewrite map_map. cbn [fst]. change (fun x : nat * frow => fst (snd x)) with (fun x : nat * frow => (fun y : frow => fst y) (snd x)).
    rewrite <- (map_map snd (fun y : frow => fst y)). unfold nrows. rewrite combine_map_snd by (rewrite seq_length; reflexivity). reflexivity.
  - intros c C. destruct (index_of_in _ _ C) as (i & E & L & NI). destruct (column_ok f c) as (v & EV & LV); [apply I, C|].
    rewrite EV. unfold column. cbn [f_cols]. rewrite E. f_equal. unfold col_at. cbn [f_rows]. rewrite map_map. cbn [snd].
    assert (VI : nth i (tc_arrays f names) [] = v).
    { unfold tc_arrays. rewrite (nth_map_in (fun s => match column f s with Ok c => c | Err _ => [] end) names i "" []) by exact L. rewrite NI, EV. reflexivity. }
    assert (X : forall ir : nat * frow, nth i (map (fun c0 : list cell => nth (fst ir) c0 None) (tc_arrays f names)) None = nth (fst ir) v None).
    { intros ir. rewrite (nth_map_in (fun c0 : list cell => nth (fst ir) c0 None) (tc_arrays f names) i [] None); [rewrite VI; reflexivity|].
      unfold tc_arrays. rewrite map_length. exact L. }
    rewrite (map_ext _ (fun ir : nat * frow => nth (fst ir) v None)) by exact X.
    rewrite <- (map_map fst (fun j => nth j v None)). unfold nrows in *.
    rewrite combine_names by (rewrite seq_length; reflexivity). rewrite <- LV. symmetry. apply map_nth_seq.
Qed.

(* ---- names of the metrics of a pair ---- *)
Definition pair_keys (lay : layout) : list string := flat_map (fun p => map (fun m => p_key m (snd p)) pair_names) (l_pairs lay).

Lemma app_cancel (a b c : string) : (a ++ b)%string = (a ++ c)%string -> b = c.
Proof. induction a as [|x a IH]; cbn; intros E; [exact E|]. injection E as E. exact (IH E). Qed.
Lemma p_key_inj m m' l l' : In m pair_names -> In m' pair_names -> p_key m l = p_key m' l' -> m = m' /\ l = l'.
Proof.
  intros I I' E. unfold p_key in E.
  assert (M : m = m'); [|subst m'; split; [reflexivity|]; apply app_cancel in E; apply app_cancel in E; exact E].
  cbn [pair_names In] in I, I'.
  repeat (destruct I as [<-|I]; [repeat (destruct I' as [<-|I']; [first [reflexivity|discriminate E]|]); destruct I'|]). destruct I.
Qed.
Lemma pair_keys_nodup lay : NoDup (map snd (l_pairs lay)) -> NoDup (pair_keys lay).
Proof.
  unfold pair_keys. generalize (l_pairs lay). intros ps N. induction ps as [|[p s] ps IH]; [constructor|]. cbn [map snd] in N. apply NoDup_cons_iff in N as [N1 N2].
  cbn [flat_map]. apply nodup_app.
  - apply nodup_map_inj; [|cbn; nodup_strings]. intros a b A B E. apply p_key_inj in E; tauto.
  - apply IH, N2.
  - intros k K1 K2. apply in_map_iff in K1 as (m & <- & M). apply in_flat_map in K2 as ([p' s'] & P & K2). apply in_map_iff in K2 as (m' & E & M').
    cbn [snd] in *. apply p_key_inj in E as [_ ->]; try assumption. apply N1. apply in_map_iff. exists (p', s). auto.
Qed.
Lemma p_key_clash m l s : In m pair_names -> In s (location_keys ++ ["status"; "n_obs"]) -> p_key m l <> s.
Proof.
  intros I J E. unfold p_key in E. cbn [pair_names In] in I. cbn in J.
  repeat (destruct I as [<-|I]; [repeat (destruct J as [<-|J]; [discriminate E|]); destruct J|]). destruct I.
Qed.
Lemma pair_keys_clash lay s : In s (location_keys ++ ["status"; "n_obs"]) -> ~ In s (pair_keys lay).
Proof.
  intros J I. apply in_flat_map in I as (p & _ & I). apply in_map_iff in I as (m & E & M). exact (p_key_clash m (snd p) s M J E).
Qed.

Section Intercomparison.
Variables m_pearson m_spearman m_kendall m_bias m_ubrmsd m_rmsd m_mse m_rss : list (list cell) -> res (list (option R)).
Variable scale_mean_std : frame -> res frame.
Variable min_obs : nat.
Variable meta : metadata.
Notation tables := (pair_tables m_pearson m_spearman m_kendall m_bias m_ubrmsd m_rmsd m_mse m_rss scale_mean_std).
Notation calc := (intercomparison_calc m_pearson m_spearman m_kendall m_bias m_ubrmsd m_rmsd m_mse m_rss scale_mean_std min_obs meta).

Lemma pair_template_single_in lay k : In k ("n_obs" :: pair_keys lay) -> single (pair_template meta lay) [k].
Proof.
  intros I. unfold pair_template. set (e := flat_map _ (l_pairs lay)).
  assert (SE : forall k v, In (k, v) e -> exists c, v = Arr [c]).
  { intros k0 v J. apply in_flat_map in J as (p & _ & J). apply in_map_iff in J as (m & E & _). injection E as _ <-. eexists. reflexivity. }
  destruct I as [<-|I].
  - apply single_update; [exact SE|]. apply names_single. left. reflexivity.
  - apply single_update_in; [exact SE|]. apply in_flat_map in I as (p & P & I). apply in_map_iff in I as (m & <- & M).
    apply in_map_iff. exists ([p_key m (snd p)], nan). split; [reflexivity|]. apply in_flat_map. exists p. split; [exact P|]. apply in_map_iff. eauto.
Qed.
Lemma pair_has_base lay : has_base (pair_template meta lay) meta.
Proof.
  apply has_base_update.
  - intros k0 v J. apply in_flat_map in J as (p & _ & J). apply in_map_iff in J as (m & E & _). injection E as _ <-. eexists. reflexivity.
  - apply has_base_update; [apply metric_template_single|apply base_has].
Qed.

(* the names of the tables *)
Lemma tables_ok calc_rho calc_tau f named : tables calc_rho calc_tau f = Ok named ->
  exists p b q mse rss rho tau fs u,
    df_metric m_pearson 2 f = Ok p /\ df_metric m_bias 1 f = Ok b /\ df_metric m_rmsd 1 f = Ok q /\ df_metric m_mse 4 f = Ok mse /\
    df_metric m_rss 1 f = Ok rss /\ (if calc_rho then df_metric m_spearman 2 f else Ok []) = Ok rho /\
    (if calc_tau then df_metric m_kendall 2 f else Ok []) = Ok tau /\ scale_mean_std f = Ok fs /\ df_metric m_ubrmsd 1 fs = Ok u /\
    named = combine ["R"; "p_R"; "BIAS"; "RMSD"; "mse"; "mse_corr"; "mse_bias"; "mse_var"; "RSS"; "urmsd"] (p ++ b ++ q ++ mse ++ rss ++ u)
      ++ combine ["rho"; "p_rho"] rho ++ combine ["tau"; "p_tau"] tau.
Proof.
  unfold pair_tables. intros H.
  destruct (df_metric m_pearson 2 f) as [p|] eqn:E1; [cbn [bindR] in H|discriminate].
  destruct (df_metric m_bias 1 f) as [b|] eqn:E2; [cbn [bindR] in H|discriminate].
  destruct (df_metric m_rmsd 1 f) as [q|] eqn:E3; [cbn [bindR] in H|discriminate].
  destruct (df_metric m_mse 4 f) as [mse|] eqn:E4; [cbn [bindR] in H|discriminate].
  destruct (df_metric m_rss 1 f) as [rss|] eqn:E5; [cbn [bindR] in H|discriminate].
  destruct (if calc_rho then df_metric m_spearman 2 f else Ok []) as [rho|] eqn:E6; [cbn [bindR] in H|discriminate].
  destruct (if calc_tau then df_metric m_kendall 2 f else Ok []) as [tau|] eqn:E7; [cbn [bindR] in H|discriminate].
  destruct (scale_mean_std f) as [fs|] eqn:E8; [cbn [bindR] in H|discriminate].
  destruct (df_metric m_ubrmsd 1 fs) as [u|] eqn:E9; [cbn [bindR] in H|discriminate].
  exists p, b, q, mse, rss, rho, tau, fs, u. assert (X : forall a b : list (string * metric_dict), Ok a = Ok b -> b = a) by congruence.
  apply X in H. auto 15.
Qed.
Definition table_names_of (calc_rho calc_tau : bool) : list string :=
  ["R"; "p_R"; "BIAS"; "RMSD"; "mse"; "mse_corr"; "mse_bias"; "mse_var"; "RSS"; "urmsd"] ++ (if calc_rho then ["rho"; "p_rho"] else []) ++ (if calc_tau then ["tau"; "p_tau"] else []).
Lemma pair_tables_names calc_rho calc_tau f named : tables calc_rho calc_tau f = Ok named -> map fst named = table_names_of calc_rho calc_tau.
Proof.
  intros H. apply tables_ok in H as (p & b & q & mse & rss & rho & tau & fs & u & E1 & E2 & E3 & E4 & E5 & E6 & E7 & E8 & E9 & ->).
  apply df_metric_length in E1, E2, E3, E4, E5, E9. rewrite !map_app. unfold table_names_of. f_equal; [|f_equal].
  - apply combine_names. rewrite !app_length, E1, E2, E3, E4, E5, E9. reflexivity.
  - destruct calc_rho; [apply df_metric_length in E6; apply combine_names; exact E6|]. assert (rho = []) by congruence. subst rho. reflexivity.
  - destruct calc_tau; [apply df_metric_length in E7; apply combine_names; exact E7|]. assert (tau = []) by congruence. subst tau. reflexivity.
Qed.
Lemma table_names_of_incl r t : incl (table_names_of r t) pair_names.
Proof. intros s I. destruct r, t; cbn in I |- *; intuition. Qed.
Lemma table_names_of_nodup r t : NoDup (table_names_of r t).
Proof. destruct r, t; cbn; nodup_strings. Qed.

Lemma pair_covers calc_rho calc_tau lay f named : (forall g, scale_mean_std f = Ok g -> f_cols g = f_cols f) -> NoDup (f_cols f) ->
  (forall p, In p (l_pairs lay) -> In (fst p) (combinations 2 (f_cols f))) -> tables calc_rho calc_tau f = Ok named -> covers named lay.
Proof.
  intros SC N PI H nd p IN IP. specialize (PI p IP).
  apply tables_ok in H as (r & b & q & mse & rss & rho & tau & fs & u & E1 & E2 & E3 & E4 & E5 & E6 & E7 & E8 & E9 & ->).
  specialize (SC fs E8). destruct nd as [n d]. cbn [snd]. rewrite !in_app_iff in IN. destruct IN as [I|[I|I]].
  - apply in_combine_r in I. rewrite !in_app_iff in I. destruct I as [I|[I|[I|[I|[I|I]]]]].
    + exact (df_metric_covers _ _ _ _ _ _ N E1 I PI).
    + exact (df_metric_covers _ _ _ _ _ _ N E2 I PI).
    + exact (df_metric_covers _ _ _ _ _ _ N E3 I PI).
    + exact (df_metric_covers _ _ _ _ _ _ N E4 I PI).
    + exact (df_metric_covers _ _ _ _ _ _ N E5 I PI).
    + rewrite <- SC in N, PI. exact (df_metric_covers _ _ _ _ _ _ N E9 I PI).
  - apply in_combine_r in I. destruct calc_rho; [exact (df_metric_covers _ _ _ _ _ _ N E6 I PI)|]. assert (rho = []) by congruence. subst rho. destruct I.
  - apply in_combine_r in I. destruct calc_tau; [exact (df_metric_covers _ _ _ _ _ _ N E7 I PI)|]. assert (tau = []) by congruence. subst tau. destruct I.
Qed.

Definition all_pair_values (lay : layout) (named : list (string * metric_dict)) : list (key * rcell) :=
  flat_map (fun p => map (fun nd => ([p_key (fst nd) (snd p)], value_at nd (fst p))) named) (l_pairs lay).
Lemma pair_values_ok lay named : covers named lay -> pair_values lay named = Ok (all_pair_values lay named).
Proof.
  intros C. unfold pair_values, all_pair_values.
  rewrite (TemporalProofs.seqR_map_ok _ (fun p => map (fun nd => ([p_key (fst nd) (snd p)], value_at nd (fst p))) named)).
  - cbn [mapR]. rewrite flat_map_concat_map. reflexivity.
  - intros p P. rewrite (pair_entries_ok named lay p C P). cbn [mapR]. rewrite map_map. reflexivity.
Qed.
Lemma all_pair_values_keys lay named r t : NoDup (map snd (l_pairs lay)) -> map fst named = table_names_of r t ->
  NoDup (map fst (all_pair_values lay named)) /\
  (forall k v, In (k, v) (all_pair_values lay named) -> exists s, k = [s] /\ In s (pair_keys lay)).
Proof.
  intros N TN. unfold all_pair_values, pair_keys. revert N. generalize (l_pairs lay). intros ps. induction ps as [|[p s] ps IH]; intros N.
  - split; [constructor|]. intros k v [].
  - cbn [map snd] in N. apply NoDup_cons_iff in N as [N1 N2]. destruct (IH N2) as [IH1 IH2]. split.
    + cbn [flat_map]. rewrite map_app, map_map. cbn [fst snd]. apply nodup_app.
      * rewrite <- (map_map fst (fun n => [p_key n s])), TN. apply nodup_map_inj; [|apply table_names_of_nodup].
        intros a b A B E. assert (E' : p_key a s = p_key b s) by congruence. apply p_key_inj in E'; [tauto|apply (table_names_of_incl r t), A|apply (table_names_of_incl r t), B].
      * exact IH1.
      * intros k K1 K2. apply in_map_iff in K1 as (nd & <- & M). apply (in_map fst) in M. rewrite TN in M. apply table_names_of_incl in M.
        apply in_map_iff in K2 as ([k' v] & E & I). cbn [fst] in E. subst k'. apply in_flat_map in I as ([p' s'] & P & I).
        apply in_map_iff in I as (nd' & E & M'). apply (in_map fst) in M'. rewrite TN in M'. apply table_names_of_incl in M'. cbn [snd] in E.
        assert (E' : p_key (fst nd') s' = p_key (fst nd) s) by congruence. apply p_key_inj in E' as [_ ->]; try assumption.
        apply N1. apply in_map_iff. exists (p', s). auto.
    + intros k v I. cbn [flat_map] in I. apply in_app_iff in I as [I|I].
      * apply in_map_iff in I as (nd & E & M). cbn [snd] in E. injection E as <- _. eexists. split; [reflexivity|]. cbn [flat_map snd]. apply in_app_iff. left.
        apply in_map_iff. exists (fst nd). split; [reflexivity|]. apply (table_names_of_incl r t). rewrite <- TN. apply in_map, M.
      * destruct (IH2 k v I) as (s' & -> & S'). exists s'. split; [reflexivity|]. cbn [flat_map]. apply in_app_iff. right. exact S'.
Qed.

Lemma intercomparison_ok lay calc_rho calc_tau f i :
  good_meta meta i ("n_obs" :: pair_keys lay) -> NoDup (map snd (l_pairs lay)) -> NoDup (l_cols lay) -> incl (l_cols lay) (f_cols f) ->
  (forall p, In p (l_pairs lay) -> In (fst p) (combinations 2 (l_cols lay))) ->
  (forall g h, scale_mean_std g = Ok h -> f_cols h = f_cols g) ->
  exists data, select f (l_cols lay) = Ok data /\ f_cols data = l_cols lay /\ nrows data = nrows f /\ (forall c, In c (l_cols lay) -> column data c = column f c) /\
  forall named, ((min_obs <= nrows f)%nat -> tables calc_rho calc_tau data = Ok named) ->
  exists d, calc lay calc_rho calc_tau f i = Ok d /\ identified d i /\ meta_copied d meta i /\ holds d ["n_obs"] (RInt (Z.of_nat (nrows f))) /\
    ((nrows f < min_obs)%nat -> insufficient d (pair_template meta lay) meta) /\
    ((min_obs <= nrows f)%nat -> holds d ["status"] (RInt 0) /\
      forall nd p, In nd named -> In p (l_pairs lay) -> holds d [p_key (fst nd) (snd p)] (value_at nd (fst p))).
Proof.
  intros G NL NC IC PI SC. destruct (select_ok f (l_cols lay) IC NC) as (data & ES & CD & ND & _ & CO).
  exists data. split; [exact ES|]. split; [exact CD|]. split; [exact ND|]. split; [exact CO|]. intros named TB. unfold intercomparison_calc.
  destruct (meta_calc_ok (pair_template meta lay) meta i _ (pair_has_base lay) G) as (d & E & PREP). rewrite E. cbn [bindR].
  destruct (set_n_obs d (pair_template meta lay) meta i _ (count f) PREP G (or_introl eq_refl)) as (d1 & E1 & PN & HN).
  { apply pair_template_single_in. left. reflexivity. }
  rewrite E1. cbn [bindR]. destruct (Nat.ltb_spec (nrows f) min_obs) as [L|L].
  - destruct (finish_insufficient d1 _ meta i _ PN (pair_has_base lay) G) as (d' & E' & ID & MC & INS & KEEP).
    exists d'. split; [exact E'|]. split; [exact ID|]. split; [exact MC|]. split; [unfold holds; rewrite KEEP by discriminate; exact HN|].
    split; [intros _; exact INS|]. lia.
  - rewrite ES. cbn [bindR]. specialize (TB L). rewrite TB. cbn [bindR].
    assert (CV : covers named lay).
    { apply (pair_covers calc_rho calc_tau lay data named); [intros; apply SC; assumption|rewrite CD; exact NC|rewrite CD; exact PI|exact TB]. }
    rewrite (pair_values_ok lay named CV). cbn [bindR].
    destruct (all_pair_values_keys lay named calc_rho calc_tau NL (pair_tables_names _ _ _ _ TB)) as [K1 K2].
    destruct (finish_ok d1 (pair_template meta lay) meta i _ (all_pair_values lay named) PN (pair_has_base lay) G) as (d0 & d' & E0 & E2 & ID & MC & ST & VAL & _ & KEEP).
    + intros k v I. destruct (K2 k v I) as (s & -> & S'). split; [apply pair_template_single_in; right; exact S'|]. intros s' EQ. assert (s = s') by congruence. subst s'. right. exact S'.
    + intros [X|X]; [discriminate|]. apply (pair_keys_clash lay "status"); [cbn; auto|exact X].
    + intros s I [X|X]; [subst s; cbn in I; intuition discriminate|]. apply (pair_keys_clash lay s); [apply in_app_iff; left; exact I|exact X].
    + exact K1.
    + exists d'. rewrite E0. cbn [bindR]. split; [exact E2|]. split; [exact ID|]. split; [exact MC|]. split.
      { unfold holds. rewrite KEEP; [exact HN|discriminate|]. intros I. apply in_map_iff in I as ([k v] & EQ & I). cbn [fst] in EQ. subst k.
        destruct (K2 _ _ I) as (s & EQ & S'). assert (s = "n_obs") by congruence. subst s. apply (pair_keys_clash lay "n_obs"); [cbn; tauto|exact S']. }
      split; [lia|]. intros _. split; [exact ST|]. intros nd p I P. apply VAL. apply in_flat_map. exists p. split; [exact P|]. apply in_map_iff. eauto.
Qed.
End Intercomparison.

(* the value stored for a pair: the metric of the rows in which both columns have a value *)
Lemma value_at_pair m k f ds q i j c0 : NoDup (f_cols f) -> (i < j)%nat -> (j < List.length (f_cols f))%nat -> (q < k)%nat ->
  df_metric m k f = Ok ds ->
  (forall args, array_dropna [col (table f) 0; col (table f) 1] = Ok args -> m args = Ok c0) ->
  total_method (table f) (nrows f) m (List.length c0) (combs_of (table f) 2 true MNone) ->
  forall name, value_at (name, nth q ds []) [nth i (f_cols f) ""; nth j (f_cols f) ""] =
    RNum (obind (value_of (table f) (nrows f) m q [i; j]) (fun v => v)).
Proof.
  intros N IJ JL QK H M0 TM name. pose proof (df_metric_length _ _ _ _ H) as LK. unfold df_metric in H.
  assert (C2 : (2 <= ncols (table f))%nat) by (rewrite table_ncols; lia).
  destruct (dropna_ok (table f) (nrows f) 2 (table_wf f N) C2 (or_introl eq_refl)) as (args & EA).
  assert (CL : forall comb, In comb (combs_of (table f) 2 true MNone) -> logical_and (masks0 (table f)) comb = Ok (complete_mask (table f) (nrows f) comb, masks0 (table f))).
  { intros comb I. apply combs_of_in in I as (L & _ & B & _). apply clean2; [apply table_wf, N|assumption|assumption]. }
  destruct (apply_ok m m (table f) (nrows f) 2 true MNone args c0 (table_wf f N) C2 EA (M0 args EA) CL TM) as [_ EQ].
  rewrite EQ in H. cbn [bindR] in H. set (D := fun q => map (fun comb => (map (colname (table f)) comb, value_of (table f) (nrows f) m q comb)) (combs_of (table f) 2 true MNone)) in H.
  destruct (Nat.eqb_spec (List.length (map D (seq 0 (List.length c0)))) k) as [LE|]; [|discriminate]. rewrite map_length, seq_length in LE.
  assert (DS : map D (seq 0 (List.length c0)) = ds) by congruence. rewrite <- DS.
  rewrite (nth_map_in D (seq 0 (List.length c0)) q 0%nat []) by (rewrite seq_length; lia). rewrite seq_nth by lia. cbn [Nat.add].
  assert (IC : In [i; j] (combs_of (table f) 2 true MNone)).
  { unfold combs_of, n_combinations. cbn [negb]. apply filter_In. split; [|reflexivity]. apply combinations_in. split; [|reflexivity].
    rewrite table_ncols. replace (List.length (f_cols f)) with (i + S (j - i - 1 + S (List.length (f_cols f) - j - 1)))%nat by lia.
    rewrite seq_app. cbn [Nat.add]. assert (SK : forall a b c : list nat, sublist a b -> sublist a (c ++ b)) by (intros a b c X; induction c; cbn; [exact X|constructor; assumption]).
    apply SK. cbn [seq]. apply sub_take. rewrite seq_app. apply SK.
 replace (S i + (j - i - 1))%nat with j by lia.
 cbn [seq]. apply sub_take. apply sub_nil. }
  assert (ND : NoDup (map fst (D q))).
  { unfold D. rewrite map_map. cbn [fst]. apply nodup_map_inj; [|apply combs_of_nodup].
    intros a b Ia Ib E0. apply combs_of_in in Ia as (_ & _ & Ba & _), Ib as (_ & _ & Bb & _). unfold ncols in *. rewrite <- (map_length fst) in Ba, Bb.
    apply (map_nth_inj (map fst (table f))); [rewrite table_fst; exact N|exact Ba|exact Bb|exact E0]. }
  assert (KEY : map (colname (table f)) [i; j] = [nth i (f_cols f) ""; nth j (f_cols f) ""]) by (unfold colname; rewrite table_fst; reflexivity).
  unfold value_at, lookup_pair. cbn [snd].
  assert (FD : find (fun e => key_eqb (fst e) [nth i (f_cols f) ""; nth j (f_cols f) ""]) (D q) = Some (map (colname (table f)) [i; j], value_of (table f) (nrows f) m q [i; j])).
  { rewrite KEY. assert (IN : In ([nth i (f_cols f) ""; nth j (f_cols f) ""], value_of (table f) (nrows f) m q [i; j]) (D q)).
    { unfold D. apply in_map_iff. exists [i; j]. rewrite KEY. split; [reflexivity|exact IC]. }
    revert IN ND. generalize [nth i (f_cols f) ""; nth j (f_cols f) ""]. generalize (value_of (table f) (nrows f) m q [i; j]). generalize (D q). clear.
    intros l v k I N. induction l as [|[a w] l IH]; [destruct I|]. cbn [map fst] in N. apply NoDup_cons_iff in N as [N1 N2]. cbn [find fst].
    unfold key_eqb at 1. destruct (list_eq_dec string_dec a k) as [->|NE].
    - destruct I as [E|I]; [congruence|]. exfalso. apply N1. apply in_map_iff. exists (k, v). auto.
    - destruct I as [E|I]; [congruence|]. exact (IH I N2). }
  rewrite FD. reflexivity.
Qed.
