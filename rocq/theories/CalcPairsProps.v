(* C58, C59: HSAF_Metrics and IntercomparisonMetrics. *)
From Coq Require Import Reals Qreals List Lra Lia.
From Verif Require Import Base BaseProofs Calendar NamesModel NamesProofs GroupingModel RStats RStatsProofs MetricsSpec MetricsModel MetricsProofs MetricsProofs2
  RollingModel TcolModel TcolProofs ConfintModel ConfintProofs2 DfMetricsModel DfMetricsSpec DfMetricsProofs DfMetricsProofs2.
From Verif Require Import CalcModel CalcSpec CalcProofs CalcProofs2 CalcProofs3 CalcProofs4 CalcPairsModel CalcPairsSpec CalcPairsProofs CalcPairsProofs2.
Open Scope string_scope.
Open Scope list_scope.

(* ---- HSAF_Metrics ---- *)
Section Hsaf.
Variables m_pearson m_spearman m_bias m_ubrmsd : list (list cell) -> res (list (option R)).
Variable scale_min_max : frame -> res frame.
Variable min_obs : nat.
Variable meta : metadata.
Notation tables := (hsaf_tables m_pearson m_spearman m_bias m_ubrmsd scale_min_max).
Notation calc := (hsaf_calc m_pearson m_spearman m_bias m_ubrmsd scale_min_max min_obs meta).
Hypothesis scale_keeps_columns : forall g h, scale_min_max g = Ok h -> f_cols h = f_cols g.

(* C59, proved part: the number of observations and the triple collocation estimates of a season come from
   the observations of that season only.  Missing: the metrics of pairs of datasets, see below. *)
Theorem C59_partial o1 o2 names lay named f i :
  hsaf_init o1 o2 names = Ok lay -> List.length (l_names lay) = 3%nat -> distinct_keys lay ->
  f_cols f = ["ref"; o1; o2] -> NoDup (f_cols f) -> dated f -> good_meta meta i (hsaf_keys lay) -> tables f = Ok named ->
  exists d, calc lay f i = Ok d /\ forall season, In season seasons -> let g := season_data season f in
    ((nrows g < min_obs)%nat -> holds d [n_key season] (RInt 0) /\ forall k, In k (season_keys lay season) -> holds d [k] (RNum None)) /\
    ((min_obs <= nrows g)%nat -> holds d [n_key season] (RInt (Z.of_nat (nrows g))) /\
      forall j k, (j < 3)%nat -> (k < 3)%nat ->
        holds d [s_key (nth k (l_names lay) "") season (nth j sds_names "")]
                (RNum (nth k (component j (estimates g ["ref"; o1; o2])) None))).
Proof.
  intros HI LN DK FC NC D G T. destruct (hsaf_init_ok o1 o2 names lay HI) as [LC PI].
  assert (CV : covers named lay).
  { apply (hsaf_covers m_pearson m_spearman m_bias m_ubrmsd scale_min_max lay f named); [intros; apply scale_keeps_columns; assumption|exact NC| |exact T].
    rewrite FC, <- LC. exact PI. }
  destruct (hsaf_ok m_pearson m_spearman m_bias m_ubrmsd scale_min_max min_obs meta lay named f i) as (d & E & _ & _ & _ & H);
    [rewrite LC; reflexivity|exact LN|rewrite LC, FC; intros x X; exact X|exact DK|exact G|exact D|exact T|exact CV|].
  exists d. split; [exact E|]. intros season IS. specialize (H season IS). cbv zeta in H |- *. destruct H as [H1 H2]. split; [exact H1|].
  intros L. specialize (H2 L). split; [apply H2; left; reflexivity|]. intros j k J K. apply H2. right. apply in_app_iff. left.
  unfold season_sds. apply in_flat_map. exists (k, nth k (l_names lay) ""). split; [apply combine_seq_in; rewrite LN; exact K|].
  apply in_map_iff. exists (j, nth j sds_names ""). split; [rewrite LC; reflexivity|]. apply (combine_seq_in sds_names j ""). exact J.
Qed.

(* what happens to the pairs: every season with enough observations gets the metrics of all the data *)
Theorem C59_pairs_use_all_data o1 o2 names lay named f i :
  hsaf_init o1 o2 names = Ok lay -> List.length (l_names lay) = 3%nat -> distinct_keys lay ->
  f_cols f = ["ref"; o1; o2] -> NoDup (f_cols f) -> dated f -> good_meta meta i (hsaf_keys lay) -> tables f = Ok named ->
  exists d, calc lay f i = Ok d /\ forall season nd p v, In season seasons -> (min_obs <= nrows (season_data season f))%nat ->
    In nd named -> In p (l_pairs lay) -> lookup_pair (snd nd) (fst p) = Ok v -> holds d [s_key (snd p) season (fst nd)] v.
Proof.
  intros HI LN DK FC NC D G T. destruct (hsaf_init_ok o1 o2 names lay HI) as [LC PI].
  assert (CV : covers named lay).
  { apply (hsaf_covers m_pearson m_spearman m_bias m_ubrmsd scale_min_max lay f named); [intros; apply scale_keeps_columns; assumption|exact NC| |exact T].
    rewrite FC, <- LC. exact PI. }
  destruct (hsaf_ok m_pearson m_spearman m_bias m_ubrmsd scale_min_max min_obs meta lay named f i) as (d & E & _ & _ & _ & H);
    [rewrite LC; reflexivity|exact LN|rewrite LC, FC; intros x X; exact X|exact DK|exact G|exact D|exact T|exact CV|].
  exists d. split; [exact E|]. intros season nd p v IS L IN IP EV. specialize (H season IS). cbv zeta in H. destruct H as [_ H2]. specialize (H2 L).
  apply H2. right. apply in_app_iff. right. apply in_flat_map. exists p. split; [exact IP|]. apply in_map_iff. exists nd. split; [|exact IN].
  unfold value_at. rewrite EV. reflexivity.
Qed.

(* C58: location, metadata; the status is 0 in any case *)
Theorem C58_hsaf_partial o1 o2 names lay named f i :
  hsaf_init o1 o2 names = Ok lay -> List.length (l_names lay) = 3%nat -> distinct_keys lay ->
  f_cols f = ["ref"; o1; o2] -> NoDup (f_cols f) -> dated f -> good_meta meta i (hsaf_keys lay) -> tables f = Ok named ->
  exists d, calc lay f i = Ok d /\ identified d i /\ meta_copied d meta i /\ holds d ["status"] (RInt 0).
Proof.
  intros HI LN DK FC NC D G T. destruct (hsaf_init_ok o1 o2 names lay HI) as [LC PI].
  assert (CV : covers named lay).
  { apply (hsaf_covers m_pearson m_spearman m_bias m_ubrmsd scale_min_max lay f named); [intros; apply scale_keeps_columns; assumption|exact NC| |exact T].
    rewrite FC, <- LC. exact PI. }
  destruct (hsaf_ok m_pearson m_spearman m_bias m_ubrmsd scale_min_max min_obs meta lay named f i) as (d & E & A & B & C & H);
    [rewrite LC; reflexivity|exact LN|rewrite LC, FC; intros x X; exact X|exact DK|exact G|exact D|exact T|exact CV|]. eauto 6.
Qed.
End Hsaf.
Print Assumptions C59_partial.
Print Assumptions C59_pairs_use_all_data.
Print Assumptions C58_hsaf_partial.

(* the default names are distinct *)
Definition default_layout : layout :=
  Layout ["ref"; "k1"; "k2"] ["ref"; "k1"; "k2"] [("ref", "ref"); ("k1", "k1"); ("k2", "k2")]
    [(["ref"; "k1"], "ref_k1"); (["ref"; "k2"], "ref_k2"); (["k1"; "k2"], "k1_k2")] [].
Lemma default_init : hsaf_init "k1" "k2" None = Ok default_layout.
Proof. reflexivity. Qed.
Lemma default_distinct : distinct_keys default_layout.
Proof.
  split.
  - apply nodupb_ok. vm_compute. reflexivity.
  - intros s I. apply notinb_ok. cbn in I. destruct I as [<-|[<-|[<-|[<-|[]]]]]; vm_compute; reflexivity.
Qed.

(* Pearson's correlation as the metric; the other metrics do not matter here *)
Definition corr_method (args : list (list cell)) : res (list (option R)) :=
  match args with [x; y] => Ok [obind (complete x y) sp_pearsonr; None] | _ => Err EType end.
Definition two_nan (args : list (list cell)) : res (list (option R)) := Ok [None; None].
Definition one_nan (args : list (list cell)) : res (list (option R)) := Ok [None].

(* ten winter days on which k1 follows ref, ten summer days on which it does the opposite *)
Definition winter_rows : list frow :=
  map (fun n => (mkTs (mkDate 2000 1 (1 + n)) 0, [Some (inject_Z (n mod 2)); Some (inject_Z (n mod 2)); Some (inject_Z n)])) [0; 1; 2; 3; 4; 5; 6; 7; 8; 9]%Z.
Definition summer_rows : list frow :=
  map (fun n => (mkTs (mkDate 2000 7 (1 + n)) 0, [Some (inject_Z (n mod 2)); Some (inject_Z ((n + 1) mod 2)); Some (inject_Z n)])) [0; 1; 2; 3; 4; 5; 6; 7; 8; 9]%Z.
Definition year_data : frame := Frame ["ref"; "k1"; "k2"] (winter_rows ++ summer_rows).
Definition here : gpi_info := Info 7 (12 / 1)%R (48 / 1)%R None.

Lemma year_dated : dated year_data.
Proof. intros r I. cbn in I. repeat (destruct I as [<-|I]; [cbn; lia|]). destruct I. Qed.

Fixpoint reps {A} (n : nat) (l : list A) : list A := match n with 0%nat => [] | S m => l ++ reps m l end.
Definition up : pairs := reps 5 [(Q2R 0, Q2R 0); (Q2R 1, Q2R 1)].
Definition down : pairs := reps 5 [(Q2R 0, Q2R 1); (Q2R 1, Q2R 0)].
Lemma winter_pairs : complete (col_at (season_data "DJF" year_data) 0) (col_at (season_data "DJF" year_data) 1) = Some up.
Proof. reflexivity. Qed.
Lemma year_pairs : complete (col_at year_data 0) (col_at year_data 1) = Some (up ++ down).
Proof. reflexivity. Qed.

Lemma q20 : Q2R 0 = 0%R. Proof. unfold Q2R. cbn. lra. Qed.
Lemma q21 : Q2R 1 = 1%R. Proof. unfold Q2R. cbn. lra. Qed.
Open Scope R_scope.
Lemma up_ne l : In (Q2R 0) l -> In (Q2R 1) l -> ~ constant l.
Proof. intros A B C. specialize (C _ _ A B). rewrite q20, q21 in C. lra. Qed.
Lemma winter_correlation : correlation up = 1.
Proof.
  unfold correlation. assert (NC : ~ constant (xs up)) by (apply up_ne; cbn; tauto).
  assert (YX : ys up = xs up) by reflexivity. assert (CV : cov up = var (xs up)) by reflexivity.
  rewrite YX, CV. unfold std. pose proof (var_nonneg (xs up)) as V. pose proof (var_ne0 (xs up) ltac:(discriminate) NC) as V0.
  rewrite sqrt_sqrt by exact V. field. exact V0.
Qed.
Lemma year_correlation : sp_pearsonr (up ++ down) = Some 0.
Proof.
  rewrite sp_pearsonr_correct; [|discriminate|apply up_ne; cbn; tauto|apply up_ne; cbn; tauto]. f_equal. unfold correlation.
  assert (CV : cov (up ++ down) = 0).
  { unfold cov, rmean, rlen. cbn [up down reps app xs ys map fst snd List.length rsum fold_right]. rewrite q20, q21. cbn. field. }
  rewrite CV. unfold Rdiv. ring.
Qed.

Lemma year_tables : hsaf_tables corr_method two_nan one_nan one_nan (fun f => Ok f) year_data =
  Ok [("R", [(["ref"; "k1"], Some (sp_pearsonr (up ++ down))); (["ref"; "k2"], Some (obind (complete (col_at year_data 0) (col_at year_data 2)) sp_pearsonr));
             (["k1"; "k2"], Some (obind (complete (col_at year_data 1) (col_at year_data 2)) sp_pearsonr))]);
      ("p_R", [(["ref"; "k1"], Some None); (["ref"; "k2"], Some None); (["k1"; "k2"], Some None)]);
      ("rho", [(["ref"; "k1"], Some None); (["ref"; "k2"], Some None); (["k1"; "k2"], Some None)]);
      ("p_rho", [(["ref"; "k1"], Some None); (["ref"; "k2"], Some None); (["k1"; "k2"], Some None)]);
      ("bias", [(["ref"; "k1"], Some None); (["ref"; "k2"], Some None); (["k1"; "k2"], Some None)]);
      ("ubrmsd", [(["ref"; "k1"], Some None); (["ref"; "k2"], Some None); (["k1"; "k2"], Some None)])].
Proof. reflexivity. Qed.

(* C59 fails for pairs: the winter correlation is 1, the one stored for the winter is 0 *)
Theorem C59_refuted : exists f i d, dated f /\ (10 <= nrows (season_data "DJF" f))%nat /\
  hsaf_calc corr_method two_nan one_nan one_nan (fun f => Ok f) 10 None default_layout f i = Ok d /\
  (exists w, complete (col_at (season_data "DJF" f) 0) (col_at (season_data "DJF" f) 1) = Some w /\ correlation w = 1) /\
  holds d ["ref_k1_DJF_R"] (RNum (Some 0)).
Proof.
  exists year_data, here.
  destruct (C59_pairs_use_all_data corr_method two_nan one_nan one_nan (fun f => Ok f) 10 None) with (o1 := "k1") (o2 := "k2") (names := @None (list string)) (lay := default_layout)
    (f := year_data) (i := here) (1 := fun g h (E : Ok g = Ok h) => f_equal f_cols (f_equal (fun r => match r with Ok x => x | Err _ => g end) (eq_sym E))) (9 := year_tables) as (d & E & H).
  - reflexivity.
  - reflexivity.
  - apply default_distinct.
  - reflexivity.
  - cbn. nodup_strings.
  - apply year_dated.
  - intros m M. discriminate.
  - exists d. split; [apply year_dated|]. split; [cbn; lia|]. split; [exact E|]. split; [exists up; split; [apply winter_pairs|apply winter_correlation]|].
    refine (H "DJF" _ (["ref"; "k1"], "ref_k1") (RNum (Some 0)) _ _ (or_introl eq_refl) (or_introl eq_refl) _).
    + cbn; tauto.
    + cbn; lia.
    + cbn [snd fst]. rewrite year_correlation. reflexivity.
Qed.
Print Assumptions C59_refuted.

(* C58 fails: without enough observations in any season the status is still 0 *)
Theorem C58_hsaf_refuted : exists f i d, nrows f = 1%nat /\
  hsaf_calc corr_method two_nan one_nan one_nan (fun f => Ok f) 10 None default_layout f i = Ok d /\ holds d ["status"] (RInt 0) /\ holds d ["ALL_n_obs"] (RInt 0).
Proof.
  exists (Frame ["ref"; "k1"; "k2"] [(mkTs (mkDate 2000 1 1) 0, [Some 1%Q; Some 2%Q; Some 3%Q])]), here. eexists.
  split; [reflexivity|]. split; [vm_compute; reflexivity|]. split; reflexivity.
Qed.

(* ---- IntercomparisonMetrics ---- *)
Section Intercomparison.
Variables m_pearson m_spearman m_kendall m_bias m_ubrmsd m_rmsd m_mse m_rss : list (list cell) -> res (list (option R)).
Variable scale_mean_std : frame -> res frame.
Variable min_obs : nat.
Variable meta : metadata.
Notation tables := (pair_tables m_pearson m_spearman m_kendall m_bias m_ubrmsd m_rmsd m_mse m_rss scale_mean_std).
Notation calc := (intercomparison_calc m_pearson m_spearman m_kendall m_bias m_ubrmsd m_rmsd m_mse m_rss scale_mean_std min_obs meta).
Hypothesis scale_keeps_columns : forall g h, scale_mean_std g = Ok h -> f_cols h = f_cols g.

Lemma intercomparison_pairs ref others nonref names lay : intercomparison_init ref others nonref names = Ok lay ->
  l_cols lay = ref :: others /\
  (forall p, In p (l_pairs lay) -> In (fst p) (combinations 2 (l_cols lay))) /\
  map fst (l_pairs lay) = n_combinations String.eqb truthy (ref :: others) 2 (if nonref then MNone else MOne ref) false.
Proof.
  unfold intercomparison_init. set (lut := combine _ _). clearbody lut. destruct (labels _ _ _) as [ps|] eqn:E; [|discriminate]. cbn [mapR].
  intros H. injection H as <-. cbn [l_cols l_pairs]. apply labels_fst in E. split; [reflexivity|]. split; [|exact E].
  intros p I. assert (J : In (fst p) (map fst ps)) by (apply in_map, I). rewrite E in J. unfold n_combinations in J. apply filter_In in J as [J _]. exact J.
Qed.

Theorem C58_intercomparison ref others nonref names lay calc_rho calc_tau f i :
  intercomparison_init ref others nonref names = Ok lay -> NoDup (map snd (l_pairs lay)) -> NoDup (ref :: others) -> incl (ref :: others) (f_cols f) ->
  good_meta meta i ("n_obs" :: pair_keys lay) ->
  exists data, f_cols data = ref :: others /\ nrows data = nrows f /\ (forall c, In c (ref :: others) -> column data c = column f c) /\
  forall named, ((min_obs <= nrows f)%nat -> tables calc_rho calc_tau data = Ok named) ->
  exists d, calc lay calc_rho calc_tau f i = Ok d /\ identified d i /\ meta_copied d meta i /\ holds d ["n_obs"] (RInt (Z.of_nat (nrows f))) /\
    ((nrows f < min_obs)%nat -> insufficient d (pair_template meta lay) meta) /\
    ((min_obs <= nrows f)%nat -> succeeded d (nrows f) /\
      forall nd p v, In nd named -> In p (l_pairs lay) -> lookup_pair (snd nd) (fst p) = Ok v -> holds d [p_key (fst nd) (snd p)] v).
Proof.
  intros HI NL NC IC G. destruct (intercomparison_pairs ref others nonref names lay HI) as (LC & PI & _). rewrite <- LC in NC, IC.
  destruct (intercomparison_ok m_pearson m_spearman m_kendall m_bias m_ubrmsd m_rmsd m_mse m_rss scale_mean_std min_obs meta lay calc_rho calc_tau f i G NL NC IC PI scale_keeps_columns)
    as (data & _ & CD & ND & CO & H). rewrite LC in CD, CO. exists data. split; [exact CD|]. split; [exact ND|]. split; [exact CO|].
  intros named T. destruct (H named T) as (d & E & ID & MC & HN & INS & SUC). exists d. split; [exact E|]. split; [exact ID|]. split; [exact MC|]. split; [exact HN|].
  split; [exact INS|]. intros L. destruct (SUC L) as [ST V]. split; [split; [exact ST|exact HN]|]. intros nd p v IN IP EV. specialize (V nd p IN IP).
  unfold value_at in V. rewrite EV in V. exact V.
Qed.
End Intercomparison.
Print Assumptions C58_intercomparison.

(* the pairs: each pair of columns, with the reference unless metrics_between_nonref is set *)
Theorem C58_intercomparison_pairs ref others nonref names lay : ref <> "" -> intercomparison_init ref others nonref names = Ok lay ->
  forall p, In p (map fst (l_pairs lay)) <-> selection p (ref :: others) /\ List.length p = 2%nat /\ (nonref = false -> In ref p).
Proof.
  intros NE HI p. destruct (intercomparison_pairs ref others nonref names lay HI) as (_ & _ & E). rewrite E. unfold n_combinations.
  rewrite filter_In, combinations_in, selection_sublist. destruct nonref.
  - cbn [forallb]. intuition discriminate.
  - unfold truthy. destruct (String.eqb_spec ref "") as [->|_]; [congruence|]. cbn [negb forallb]. rewrite Bool.andb_true_r, existsb_exists. split.
    + intros [[S0 L] (x & X & EQ)]. apply String.eqb_eq in EQ. subst x. auto.
    + intros (S0 & L & R0). split; [auto|]. exists ref. split; [auto|apply String.eqb_refl].
Qed.

(* every value is the metric of the rows in which both datasets have one *)
Theorem C58_intercomparison_values m k f ds q i j c0 : NoDup (f_cols f) -> (i < j)%nat -> (j < List.length (f_cols f))%nat -> (q < k)%nat ->
  df_metric m k f = Ok ds ->
  (forall args, array_dropna [col (table f) 0; col (table f) 1] = Ok args -> m args = Ok c0) ->
  total_method (table f) (nrows f) m (List.length c0) (n_combinations Nat.eqb (fun i => negb (Nat.eqb i 0)) (seq 0 (List.length (f_cols f))) 2 MNone false) ->
  exists v, lookup_pair (nth q ds []) [nth i (f_cols f) ""; nth j (f_cols f) ""] = Ok (RNum v) /\
    v = match complete_rows (table f) (nrows f) [i; j] with
        | [] => None
        | _ => match m (complete_cases (table f) (nrows f) [i; j]) with Ok c => nth q c None | Err _ => None end
        end.
Proof.
  intros N IJ JL QK H M0 TM. eexists. split; [|reflexivity].
  assert (TM' : total_method (table f) (nrows f) m (List.length c0) (combs_of (table f) 2 true MNone)) by (unfold combs_of; rewrite table_ncols; exact TM).
  pose proof (value_at_pair m k f ds q i j c0 N IJ JL QK H M0 TM' "") as V. unfold value_at in V. cbn [snd] in V.
  destruct (df_metric_covers m k f ds (nth q ds []) [nth i (f_cols f) ""; nth j (f_cols f) ""] N H) as (v & EV).
  - apply nth_In. rewrite (df_metric_length _ _ _ _ H). exact QK.
  - rewrite (map_nth_seq "" (f_cols f)) at 3. rewrite combinations_map. apply in_map_iff. exists [i; j]. split; [reflexivity|].
    apply combinations_in. split; [|reflexivity].
    replace (List.length (f_cols f)) with (i + S (j - i - 1 + S (List.length (f_cols f) - j - 1)))%nat by lia.
    rewrite seq_app. cbn [Nat.add]. assert (SK : forall a b c : list nat, sublist a b -> sublist a (c ++ b)) by (intros a b c X; induction c; cbn; [exact X|constructor; assumption]).
    apply SK. cbn [seq]. apply sub_take. rewrite seq_app. apply SK. replace (S i + (j - i - 1))%nat with j by lia. cbn [seq]. apply sub_take, sub_nil.
  - rewrite EV in V |- *. rewrite V. unfold value_of. destruct (complete_rows _ _ _) as [|r rs]; [reflexivity|]. destruct (m _) as [c|]; [|reflexivity].
    f_equal. f_equal. destruct (nth_error c q) as [x|] eqn:EN; cbn [obind].
    + symmetry. apply nth_error_nth. exact EN.
    + apply nth_error_None in EN. symmetry. apply nth_overflow. exact EN.
Qed.
Print Assumptions C58_intercomparison_values.

(* a case that meets the hypotheses *)
Example C58_intercomparison_example :
  exists lay, intercomparison_init "ref" ["k1"; "k2"] false (Some ["a"; "b"; "c"]) = Ok lay /\ l_pairs lay = [(["ref"; "k1"], "a_and_b"); (["ref"; "k2"], "a_and_c")] /\
  NoDup (map snd (l_pairs lay)) /\ good_meta None here ("n_obs" :: pair_keys lay) /\ incl ["ref"; "k1"; "k2"] (f_cols year_data) /\ (10 <= nrows year_data)%nat.
Proof.
  eexists. split; [reflexivity|]. split; [reflexivity|]. split; [cbn; nodup_strings|]. split; [intros m M; discriminate|]. split; [intros x X; exact X|]. cbn; lia.
Qed.
Example C59_example : hsaf_init "k1" "k2" None = Ok default_layout /\ distinct_keys default_layout /\ dated year_data /\ nrows (season_data "JJA" year_data) = 10%nat /\
  nrows (season_data "MAM" year_data) = 0%nat.
Proof. split; [reflexivity|]. split; [exact default_distinct|]. split; [exact year_dated|]. split; reflexivity. Qed.
