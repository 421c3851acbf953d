(* C125: HSAF_Metrics compared with the other calculators. *)
From Coq Require Import Reals Qreals List Lra Lia.
From Verif Require TcolProps.
From Verif Require Import Base BaseProofs Calendar NamesModel NamesProofs RStats MetricsSpec MetricsModel RStatsProofs MetricsProofs MetricsProofs2 RollingModel TcolModel ConfintModel ConfintProofs2.
From Verif Require Import DfMetricsModel DfMetricsSpec DfMetricsProofs CalcModel CalcSpec CalcProofs CalcProofs2 CalcProofs3 CalcProofs4 CalcProps CalcValueProps.
From Verif Require Import CalcPairsModel CalcPairsSpec CalcPairsProofs CalcPairsProofs2 CalcTcmProofs CalcPairsProps CalcTcmProps AgreeSpec AgreeProofs AgreeProps AgreeTripleProps.
Open Scope string_scope.
Open Scope list_scope.


Section Hsaf.
Variables sp_spearman sp_kendall : list cell -> list cell -> option R * option R.
Variables (min_obs : nat) (meta : metadata).
Variable betainc : R -> R -> R -> R.
Variable norm_ppf : R -> R.
Variables t_ppf chi2_ppf : R -> nat -> R.
Variable ppf : R -> option R.
Variable cdf : R -> R.
Variable draws : string -> list (list nat).
Notation pairwise := (pairwise_calc sp_spearman sp_kendall min_obs meta betainc norm_ppf t_ppf chi2_ppf ppf cdf draws).
Notation scipy_pearson := (scipy_pearson betainc).
Notation pairwise_complete := (pairwise_complete sp_spearman sp_kendall min_obs meta betainc norm_ppf t_ppf chi2_ppf ppf cdf draws).
Variables m_bias m_ubrmsd : list (list cell) -> res (list (option R)).
Variable scale_min_max : frame -> res frame.
Hypothesis scale_keeps_columns : forall g h, scale_min_max g = Ok h -> f_cols h = f_cols g.
Notation tables := (hsaf_tables (two_metric scipy_pearson) (two_metric sp_spearman) m_bias m_ubrmsd scale_min_max).
Notation hsaf := (hsaf_calc (two_metric scipy_pearson) (two_metric sp_spearman) m_bias m_ubrmsd scale_min_max min_obs meta).

(* The correlations that HSAF_Metrics reports for a pair of datasets are those of PairwiseIntercomparisonMetrics
   for the two columns of the whole data, in every season with enough observations. *)
Theorem C125_hsaf_pairs o1 o2 names lay named o f i a b label g season :
  hsaf_init o1 o2 names = Ok lay -> List.length (l_names lay) = 3%nat -> distinct_keys lay ->
  f_cols f = ["ref"; o1; o2] -> NoDup ["ref"; o1; o2] -> dated f -> good_meta meta i (hsaf_keys lay) -> tables f = Ok named ->
  (min_obs <= nrows f)%nat -> (0 < nrows f)%nat -> wf_frame f -> no_gaps f -> good_meta meta i (pairwise_used o) ->
  o_bootstrap o = false \/ ((0 <= o_alpha o <= 2)%R /\ (o_boot_min o <= nrows f)%nat) ->
  In season seasons -> (min_obs <= nrows (season_data season f))%nat -> In ([a; b], label) (l_pairs lay) -> select f [a; b] = Ok g ->
  exists d e, hsaf lay f i = Ok d /\ pairwise o g i = Ok e /\
    (forall m, In m ["R"; "p_R"] -> same_entry d [s_key label season m] e [m]) /\
    (o_spearman o = true -> forall m, In m ["rho"; "p_rho"] -> same_entry d [s_key label season m] e [m]).
Proof.
  intros HI LN DK FC NC DT G1 T M NZ W C G2 B IS MS IP SG.
  destruct (hsaf_init_ok o1 o2 names lay HI) as (LC & PI).
  assert (IPC : In [a; b] (combinations 2 ["ref"; o1; o2])) by (rewrite <- LC; exact (PI _ IP)).
  destruct (pair_positions min_obs t_ppf chi2_ppf draws _ _ _ IPC) as (j & k & JK & KL & NJ & NK).
  assert (NF : NoDup (f_cols f)) by (rewrite FC; exact NC).
  destruct (C59_pairs_use_all_data (two_metric scipy_pearson) (two_metric sp_spearman) m_bias m_ubrmsd scale_min_max min_obs meta scale_keeps_columns o1 o2 names lay named f i
    HI LN DK FC NF DT G1 T) as (d & D & V0). pose proof (fun nd v IN => V0 season nd ([a; b], label) v IS MS IN IP) as V. clear V0. cbn [fst snd] in V.
  destruct (select_complete f _ g W C SG) as [WG CG].
  (* the columns of the two frames *)
  assert (IA : In a ["ref"; o1; o2]) by (rewrite <- NJ; apply nth_In; lia). assert (IB : In b ["ref"; o1; o2]) by (rewrite <- NK; apply nth_In; lia).
  assert (AB : NoDup [a; b]).
  { constructor; [|constructor; [intros []|constructor]]. intros [X|[]]. assert (j = k); [|lia]. apply (proj1 (NoDup_nth ["ref"; o1; o2] "") NC); [lia|lia|congruence]. }
  assert (IAB : incl [a; b] (f_cols f)) by (intros x [<-|[<-|[]]]; rewrite FC; assumption).
  destruct (select_ok f [a; b] IAB AB) as (g' & SG' & CGc & NG & _ & COG). assert (g' = g) by congruence. subst g'.
  assert (IXA : index_of ["ref"; o1; o2] a = Some j) by (rewrite <- NJ; apply index_of_nth; [exact NC|lia]).
  assert (IXB : index_of ["ref"; o1; o2] b = Some k) by (rewrite <- NK; apply index_of_nth; [exact NC|lia]).
  assert (GA : col_at g 0 = col_at f j).
  { pose proof (COG a (or_introl eq_refl)) as X. unfold column in X. rewrite CGc, FC, IXA in X. cbn [index_of] in X. rewrite String.eqb_refl in X. congruence. }
  assert (GB : col_at g 1 = col_at f k).
  { pose proof (COG b (or_intror (or_introl eq_refl))) as X. unfold column in X. rewrite CGc, FC, IXB in X. cbn [index_of] in X. rewrite String.eqb_refl in X.
    replace (String.eqb a b) with false in X by (symmetry; apply String.eqb_neq; intros ->; apply NoDup_cons_iff in AB as [AB _]; apply AB; left; reflexivity).
    cbn [option_map] in X. congruence. }
  assert (MG : (min_obs <= nrows g)%nat) by (rewrite NG; exact M). assert (ZG : (0 < nrows g)%nat) by (rewrite NG; exact NZ).
  rewrite <- NG in B. assert (C2 : (2 <= List.length (f_cols g))%nat) by (rewrite CGc; cbn; lia).
  destruct (pairwise_complete o g i G2 WG CG C2 MG ZG B) as (e & p & E & CP & PN & LP & [STE NOE] & H1 & H2 & H3 & H4 & H5 & H6 & H7 & H8 & H9 & H10 & RHO & TAU).
  rewrite GA, GB in CP, H9, H10, RHO, TAU. rewrite NG in NOE.
  exists d, e. split; [exact D|]. split; [exact E|].
  (* the tables *)
  assert (NDc : NoDup (f_cols f)) by (rewrite FC; exact NC). assert (KD : (k < List.length (f_cols f))%nat) by (rewrite FC; exact KL).
  assert (ZD : (0 < nrows f)%nat) by exact NZ.
  assert (STO : forall m n v q ds, pair_metric m n v -> (q < n)%nat -> df_metric m n f = Ok ds ->
            forall nm, In (nm, nth q ds []) named -> holds d [s_key label season nm] (RNum (nth q (v (col_at f j) (col_at f k)) None))).
  { intros m n v q ds PM QN ED nm IN. pose proof (stored_pair m n v f ds q j k PM W C ZD NDc JK KD QN ED) as L. rewrite FC, NJ, NK in L.
    exact (V (nm, nth q ds []) _ IN L). }
  unfold hsaf_tables in T.
  destruct (df_metric (two_metric scipy_pearson) 2 f) as [tp|] eqn:E1; [cbn [bindR] in T|discriminate].
  destruct (df_metric (two_metric sp_spearman) 2 f) as [ts|] eqn:E2; [cbn [bindR] in T|discriminate].
  destruct (scale_min_max f) as [fs|] eqn:E3; [cbn [bindR] in T|discriminate].
  destruct (df_metric m_bias 1 fs) as [tb|] eqn:E4; [cbn [bindR] in T|discriminate].
  destruct (df_metric m_ubrmsd 1 fs) as [tu|] eqn:E5; [cbn [bindR] in T|discriminate].
  pose proof (df_metric_length _ _ _ _ E1) as L1. pose proof (df_metric_length _ _ _ _ E2) as L2. pose proof (df_metric_length _ _ _ _ E4) as L4. pose proof (df_metric_length _ _ _ _ E5) as L5.
  destruct tp as [|p1 [|p2 [|]]]; try discriminate L1. destruct ts as [|s1 [|s2 [|]]]; try discriminate L2. destruct tb as [|b1 [|]]; try discriminate L4. destruct tu as [|u1 [|]]; try discriminate L5.
  cbn [app combine tds_names] in T. assert (EN : named = [("R", p1); ("p_R", p2); ("rho", s1); ("p_rho", s2); ("bias", b1); ("ubrmsd", u1)]) by congruence. clear T.
  split.
  - intros m I. cbn in I. destruct I as [<-|[<-|[]]]; (eexists; split; [|eassumption]).
    + exact (STO _ 2%nat _ 0%nat _ (two_is scipy_pearson) ltac:(lia) E1 "R" ltac:(rewrite EN; cbn; tauto)).
    + exact (STO _ 2%nat _ 1%nat _ (two_is scipy_pearson) ltac:(lia) E1 "p_R" ltac:(rewrite EN; cbn; tauto)).
  - intros S0. destruct (RHO S0) as [A1 A2]. intros m I. cbn in I. destruct I as [<-|[<-|[]]]; (eexists; split; [|eassumption]).
    + exact (STO _ 2%nat _ 0%nat _ (two_is sp_spearman) ltac:(lia) E2 "rho" ltac:(rewrite EN; cbn; tauto)).
    + exact (STO _ 2%nat _ 1%nat _ (two_is sp_spearman) ltac:(lia) E2 "p_rho" ltac:(rewrite EN; cbn; tauto)).
Qed.

(* The triple collocation estimates of a season are those of TripleCollocationMetrics for the data of the season;
   what is stored as "err_var" is the standard deviation of the error. *)
Theorem C125_hsaf_triple o1 o2 names lay named o f i season :
  hsaf_init o1 o2 names = Ok lay -> List.length (l_names lay) = 3%nat -> distinct_keys lay ->
  f_cols f = ["ref"; o1; o2] -> NoDup ["ref"; o1; o2] -> dated f -> good_meta meta i (hsaf_keys lay) -> good_meta meta i ["n_obs"] -> tables f = Ok named ->
  In season seasons -> (min_obs <= nrows (season_data season f))%nat ->
  exists d e, hsaf lay f i = Ok d /\ tc_calc min_obs meta ppf cdf draws "ref" false o (season_data season f) i = Ok e /\
    same_entry d [n_key season] e ["n_obs"] /\
    forall k name column, (k < 3)%nat -> nth k (l_names lay) "" = name -> nth k ["ref"; o1; o2] "" = column ->
      same_entry d [s_key name season "snr"] e ["snr"; column] /\ same_entry d [s_key name season "beta"] e ["beta"; column] /\
      same_entry d [s_key name season "err_var"] e ["err_std"; column].
Proof.
  intros HI LN DK FC NC DT G1 G2 T IS MS. assert (NF : NoDup (f_cols f)) by (rewrite FC; exact NC).
  destruct (C59_partial (two_metric scipy_pearson) (two_metric sp_spearman) m_bias m_ubrmsd scale_min_max min_obs meta scale_keeps_columns o1 o2 names lay named f i
    HI LN DK FC NF DT G1 T) as (d & D & V0). destruct (V0 season IS) as [_ V]. destruct (V MS) as [HN VS]. clear V0 V.
  set (g := season_data season f) in *. assert (FG : f_cols g = ["ref"; o1; o2]) by exact FC.
  destruct (tc_arrays_three g "ref" o1 o2) as (u & v & w & EA).
  assert (IN3 : incl ["ref"; o1; o2] (f_cols g)) by (rewrite FG; intros x X; exact X).
  pose proof (tc_columns g _ IN3) as SC. rewrite EA in SC. cbn [map seqR] in SC.
  destruct (CalcModel.column g "ref") as [u'|] eqn:CU; [cbn [bindR] in SC|discriminate]. destruct (CalcModel.column g o1) as [v'|] eqn:CV; [cbn [bindR mapR] in SC|discriminate].
  destruct (CalcModel.column g o2) as [w'|] eqn:CW; [cbn [bindR mapR] in SC|discriminate]. assert (X : u' = u /\ v' = v /\ w' = w) by (repeat split; congruence). destruct X as (-> & -> & ->).
  assert (TE : (match tc_rows u v w with None => Ok tc_nan | Some rows => tcol_metrics rows 0 end) = Ok (estimates g ["ref"; o1; o2])).
  { unfold estimates. rewrite EA. destruct (tc_rows u v w) as [rows|]; [|reflexivity]. apply tc_of_ok. lia. }
  destruct (triple_exact min_obs meta ppf cdf draws "ref" o1 o2 o g i u v w _ G2 FG NC MS CU CV CW TE) as (e & E & EN & ES & EV).
  exists d, e. split; [exact D|]. split; [exact E|]. split; [eexists; split; [exact HN|exact EN]|].
  intros k name column K <- <-. split; [|split].
  - eexists. split; [exact (VS 0%nat k ltac:(lia) K)|exact (EV k 0%nat K ltac:(lia))].
  - eexists. split; [exact (VS 2%nat k ltac:(lia) K)|exact (EV k 2%nat K ltac:(lia))].
  - eexists. split; [exact (VS 1%nat k ltac:(lia) K)|exact (EV k 1%nat K ltac:(lia))].
Qed.
(* so the entry is not the variance, unless that is 0 or 1 *)
Theorem C125_err_var_refuted o1 o2 names lay named o f i season :
  hsaf_init o1 o2 names = Ok lay -> List.length (l_names lay) = 3%nat -> distinct_keys lay ->
  f_cols f = ["ref"; o1; o2] -> NoDup ["ref"; o1; o2] -> dated f -> good_meta meta i (hsaf_keys lay) -> good_meta meta i ["n_obs"] -> tables f = Ok named ->
  In season seasons -> (min_obs <= nrows (season_data season f))%nat ->
  exists d e, hsaf lay f i = Ok d /\ tc_calc min_obs meta ppf cdf draws "ref" false o (season_data season f) i = Ok e /\
    forall k name column std, (k < 3)%nat -> nth k (l_names lay) "" = name -> nth k ["ref"; o1; o2] "" = column ->
      holds e ["err_std"; column] (RNum (Some std)) -> std <> 0%R -> std <> 1%R -> ~ holds d [s_key name season "err_var"] (RNum (Some (std * std)%R)).
Proof.
  intros HI LN DK FC NC DT G1 G2 T IS MS.
  destruct (C125_hsaf_triple o1 o2 names lay named o f i season HI LN DK FC NC DT G1 G2 T IS MS) as (d & e & D & E & _ & V). exists d, e. split; [exact D|]. split; [exact E|].
  intros k name column s K N1 N2 H Z0 Z1 X. destruct (V k name column K N1 N2) as (_ & _ & v & A & B). unfold holds in *.
  assert (Y : Some s = Some (s * s)%R) by congruence. assert (Y' : s = (s * s)%R) by congruence. assert (P : (s * (s - 1) = 0)%R) by lra. apply Rmult_integral in P. destruct P as [P|P]; [congruence|]. apply Z1. lra.
Qed.
End Hsaf.
Print Assumptions C125_hsaf_pairs.
Print Assumptions C125_hsaf_triple.
Print Assumptions C125_err_var_refuted.
Example C125_hsaf_example : hsaf_init "k1" "k2" None = Ok default_layout /\ List.length (l_names default_layout) = 3%nat /\ distinct_keys default_layout /\ dated year_data /\
  wf_frame year_data /\ no_gaps year_data /\ (10 <= nrows (season_data "JJA" year_data))%nat /\ exists label g, In (["ref"; "k1"], label) (l_pairs default_layout) /\ select year_data ["ref"; "k1"] = Ok g.
Proof.
  split; [reflexivity|]. split; [reflexivity|]. split; [exact default_distinct|]. split; [exact year_dated|]. split; [|split; [|split; [cbn; lia|]]].
  - intros r I. cbn in I. repeat (destruct I as [<-|I]; [reflexivity|]). destruct I.
  - intros r c I J. cbn in I. repeat (destruct I as [<-|I]; [cbn in J; repeat (destruct J as [<-|J]; [reflexivity|]); destruct J|]). destruct I.
  - do 2 eexists. split; [left; reflexivity|reflexivity].
Qed.
(* an error that is neither 0 nor 1 (eight rows of a factorial design) *)
Example C125_err_var_example : exists snr err1 err2 beta std, tcol_metrics TcolProps.rows8 0 = Ok (snr, [Some std; err1; err2], beta) /\ std <> 0%R /\ std <> 1%R.
Proof.
  destruct TcolProps.rows8_model as [EM BE]. rewrite (TcolProps.C51_recovers_data TcolProps.rows8 (8 / 7) TcolProps.gains3 TcolProps.errors3 0) by (assumption || lra || (cbn; lia)).
  do 5 eexists. split; [reflexivity|]. cbn.
  assert (1 < sqrt (8 / 7))%R by (rewrite <- sqrt_1 at 1; apply sqrt_lt_1; lra). split; intros X; [|]; match type of X with ?l = _ => replace l with (sqrt (8 / 7)) in X by (try reflexivity; field) end; lra.
Qed.
