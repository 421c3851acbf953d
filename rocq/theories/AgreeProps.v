(* C125: the metric calculators agree on the metrics they share, except for "urmsd". *)
From Coq Require Import Reals Qreals List Lra Lia.
From Verif Require Import Base BaseProofs NamesModel NamesProofs RStats MetricsSpec MetricsModel RStatsProofs MetricsProofs MetricsProofs2 MeanStdModel ThreeProps RollingModel TcolModel ConfintModel ConfintProofs2.
From Verif Require Import DfMetricsModel DfMetricsSpec DfMetricsProofs CalcModel CalcSpec CalcProofs CalcProofs2 CalcProofs3 CalcProofs4 CalcProps CalcValueProps.
From Verif Require Import CalcPairsModel CalcPairsProofs CalcPairsProofs2 CalcPairsProps CalcTcmProofs AgreeSpec AgreeProofs.
Open Scope string_scope.
Open Scope list_scope.

Notation frame := CalcModel.frame.

Section Agree.
Variables sp_spearman sp_kendall : list cell -> list cell -> option R * option R.
Variables (min_obs : nat) (meta : metadata).
Variable betainc : R -> R -> R -> R.
Variable norm_ppf : R -> R.
Variables t_ppf chi2_ppf : R -> nat -> R.
Variable ppf : R -> option R.
Variable cdf : R -> R.
Variable draws : string -> list (list nat).

(* scipy's pearsonr: the correlation and the p-value of the incomplete beta function *)
Definition scipy_pearson (x y : list cell) : option R * option R :=
  match complete x y with Some p => (omap fst (pearson_of betainc p), omap snd (pearson_of betainc p)) | None => (None, None) end.

Notation pairwise := (pairwise_calc sp_spearman sp_kendall min_obs meta betainc norm_ppf t_ppf chi2_ppf ppf cdf draws).

(* what PairwiseIntercomparisonMetrics stores for complete data *)
Lemma pairwise_complete o f i : good_meta meta i (pairwise_used o) -> wf_frame f -> no_gaps f -> (2 <= List.length (f_cols f))%nat -> (min_obs <= nrows f)%nat -> (0 < nrows f)%nat ->
  o_bootstrap o = false \/ ((0 <= o_alpha o <= 2)%R /\ (o_boot_min o <= nrows f)%nat) ->
  exists r d, pairwise o f i = Ok r /\ complete (col_at f 0) (col_at f 1) = Some d /\ d <> [] /\ List.length d = nrows f /\ succeeded r (nrows f) /\
    holds r ["BIAS"] (RNum (bias d)) /\ holds r ["mse"] (RNum (msd d)) /\ holds r ["mse_corr"] (RNum (mse_corr d)) /\
    holds r ["mse_bias"] (RNum (mse_bias d)) /\ holds r ["mse_var"] (RNum (mse_var d)) /\ holds r ["RMSD"] (RNum (rmsd d 0)) /\
    holds r ["RSS"] (RNum (Some (RSS d))) /\ holds r ["urmsd"] (RNum (ubrmsd d 0)) /\
    holds r ["R"] (RNum (fst (scipy_pearson (col_at f 0) (col_at f 1)))) /\ holds r ["p_R"] (RNum (snd (scipy_pearson (col_at f 0) (col_at f 1)))) /\
    (o_spearman o = true -> holds r ["rho"] (RNum (fst (sp_spearman (col_at f 0) (col_at f 1)))) /\ holds r ["p_rho"] (RNum (snd (sp_spearman (col_at f 0) (col_at f 1))))) /\
    (o_kendall o = true -> holds r ["tau"] (RNum (fst (sp_kendall (col_at f 0) (col_at f 1)))) /\ holds r ["p_tau"] (RNum (snd (sp_kendall (col_at f 0) (col_at f 1))))).
Proof.
  intros G W C C2 M NZ B. destruct (observations_complete f 0 1 W ltac:(lia) ltac:(lia)) as [CO LN]. rewrite (dropna_complete f C) in CO, LN.
  assert (NE : observations f 0 1 <> []) by (intros X; rewrite X in LN; cbn in LN; lia).
  rewrite <- LN in B. pose proof M as M'. rewrite <- LN in M'.
  destruct (C71_pairwise sp_spearman sp_kendall min_obs meta betainc norm_ppf t_ppf chi2_ppf ppf cdf draws o f i G W C2 NE M' B)
    as (r & E & H1 & H2 & H3 & H4 & H5 & H6 & H7 & H8 & H9 & H10).
  destruct (C71_intervals sp_spearman sp_kendall min_obs meta betainc norm_ppf t_ppf chi2_ppf ppf cdf draws o f i G W C2 NE M' B) as (r' & E' & RHO & TAU & _).
  assert (r' = r) by congruence. subst r'. change (complete_column f 0) with (col_at (dropna f) 0) in RHO, TAU. change (complete_column f 1) with (col_at (dropna f) 1) in RHO, TAU.
  rewrite (dropna_complete f C) in RHO, TAU.
  destruct (C58_pairwise sp_spearman sp_kendall min_obs meta betainc norm_ppf t_ppf chi2_ppf ppf cdf draws o f i G W C2) as (r' & E2 & _ & _ & _ & SU).
  { right. destruct B as [B|[B1 B2]]; [left; exact B|right; repeat split; try lra; [lia|exact B2]]. }
  assert (r' = r) by congruence. subst r'. specialize (SU M'). rewrite LN in SU.
  exists r, (observations f 0 1). unfold scipy_pearson. rewrite CO. cbn [fst snd]. split; [exact E|]. split; [reflexivity|]. repeat (split; [assumption|]). exact TAU.
Qed.

(* BasicMetrics and PairwiseIntercomparisonMetrics: the same location, status, number of observations and metrics *)
Theorem C125_basic calc_tau o other f i :
  good_meta meta i basic_names -> good_meta meta i (pairwise_used o) -> f_cols f = ["ref"; other] -> other <> "ref" -> wf_frame f -> no_gaps f ->
  (min_obs <= nrows f)%nat -> (0 < nrows f)%nat -> o_bootstrap o = false \/ ((0 <= o_alpha o <= 2)%R /\ (o_boot_min o <= nrows f)%nat) ->
  exists d e, basic_calc scipy_pearson sp_spearman sp_kendall min_obs meta other calc_tau f i = Ok d /\ pairwise o f i = Ok e /\
    (forall m, In m ["status"; "n_obs"; "R"; "p_R"; "BIAS"; "RMSD"] -> same_entry d [m] e [m]) /\
    (o_spearman o = true -> forall m, In m ["rho"; "p_rho"] -> same_entry d [m] e [m]) /\
    (o_kendall o = true -> calc_tau = true -> forall m, In m ["tau"; "p_tau"] -> same_entry d [m] e [m]).
Proof.
  intros G1 G2 FC NE W C M NZ B. assert (C2 : (2 <= List.length (f_cols f))%nat) by (rewrite FC; cbn; lia).
  destruct (pairwise_complete o f i G2 W C C2 M NZ B) as (e & p & E & CP & PN & LP & [ST NO] & H1 & H2 & H3 & H4 & H5 & H6 & H7 & H8 & H9 & H10 & RHO & TAU).
  assert (IR : In "ref" (f_cols f)) by (rewrite FC; left; reflexivity). assert (IO : In other (f_cols f)) by (rewrite FC; right; left; reflexivity).
  destruct (C58_basic scipy_pearson sp_spearman sp_kendall min_obs meta other calc_tau f i G1 IR IO) as (d & D & _ & _ & _ & SU).
  destruct (SU M) as (x & y & X & Y & [ST' NO'] & V). unfold column in X, Y. rewrite FC in X, Y. cbn [index_of] in X, Y.
  change (String.eqb "ref" "ref") with true in X. cbn in X. replace (String.eqb "ref" other) with false in Y by (symmetry; apply String.eqb_neq; congruence).
  rewrite String.eqb_refl in Y. cbn in Y. assert (x = col_at f 0) by congruence. assert (y = col_at f 1) by congruence. subst x y. clear X Y.
  exists d, e. split; [exact D|]. split; [exact E|]. split; [|split].
  - intros m I. cbn in I. destruct I as [<-|[<-|[<-|[<-|[<-|[<-|[]]]]]]].
    + eexists. split; [exact ST'|exact ST].
    + eexists. split; [exact NO'|exact NO].
    + eexists. split; [apply V; unfold basic_values; cbn; tauto|exact H9].
    + eexists. split; [apply V; unfold basic_values; cbn; tauto|exact H10].
    + exists (RNum (bias p)). split; [apply V; unfold basic_values, on_pairs; rewrite CP; cbn; tauto|exact H1].
    + exists (RNum (rmsd p 0)). split; [apply V; unfold basic_values, on_pairs; rewrite CP; cbn; tauto|exact H6].
  - intros S0 m I. destruct (RHO S0) as [A1 A2]. cbn in I. destruct I as [<-|[<-|[]]]; eexists; (split; [apply V; unfold basic_values; cbn; tauto|]); [exact A1|exact A2].
  - intros S0 -> m I. destruct (TAU S0) as [A1 A2]. cbn in I. destruct I as [<-|[<-|[]]]; eexists; (split; [apply V; unfold basic_values; cbn; tauto|]); [exact A1|exact A2].
Qed.

(* BasicMetricsPlusMSE: in addition the parts of the mean squared difference *)
Theorem C125_plus_mse o other f i :
  good_meta meta i (basic_names ++ mse_names) -> good_meta meta i (pairwise_used o) -> f_cols f = ["ref"; other] -> other <> "ref" -> wf_frame f -> no_gaps f ->
  (min_obs <= nrows f)%nat -> (0 < nrows f)%nat -> o_bootstrap o = false \/ ((0 <= o_alpha o <= 2)%R /\ (o_boot_min o <= nrows f)%nat) ->
  exists d e, plus_mse_calc scipy_pearson sp_spearman sp_kendall min_obs meta other f i = Ok d /\ pairwise o f i = Ok e /\
    (forall m, In m ["R"; "p_R"; "BIAS"; "RMSD"; "mse"; "mse_corr"; "mse_bias"; "mse_var"] -> same_entry d [m] e [m]) /\
    (o_spearman o = true -> forall m, In m ["rho"; "p_rho"] -> same_entry d [m] e [m]).
Proof.
  intros G1 G2 FC NE W C M NZ B. assert (C2 : (2 <= List.length (f_cols f))%nat) by (rewrite FC; cbn; lia).
  destruct (pairwise_complete o f i G2 W C C2 M NZ B) as (e & p & E & CP & PN & LP & _ & H1 & H2 & H3 & H4 & H5 & H6 & H7 & H8 & H9 & H10 & RHO & TAU).
  assert (IR : In "ref" (f_cols f)) by (rewrite FC; left; reflexivity). assert (IO : In other (f_cols f)) by (rewrite FC; right; left; reflexivity).
  destruct (C58_plus_mse_values scipy_pearson sp_spearman sp_kendall min_obs meta other f i G1 IR IO M) as (d & x & y & D & X & Y & V1 & V2 & V3 & V4 & V5 & _).
  unfold column in X, Y. rewrite FC in X, Y. cbn [index_of] in X, Y.
  change (String.eqb "ref" "ref") with true in X. cbn in X. replace (String.eqb "ref" other) with false in Y by (symmetry; apply String.eqb_neq; congruence).
  rewrite String.eqb_refl in Y. cbn in Y. assert (x = col_at f 0) by congruence. assert (y = col_at f 1) by congruence. subst x y. clear X Y.
  destruct (V5 p CP PN) as (W1 & W2 & W3 & W4 & W5 & W6).
  exists d, e. split; [exact D|]. split; [exact E|]. split.
  - intros m I. cbn in I. destruct I as [<-|[<-|[<-|[<-|[<-|[<-|[<-|[<-|[]]]]]]]]]; eexists; (split; [eassumption|assumption]).
  - intros S0 m I. destruct (RHO S0) as [A1 A2]. cbn in I. destruct I as [<-|[<-|[]]]; eexists; (split; [eassumption|assumption]).
Qed.

(* the positions of a pair of columns *)
Lemma pair_positions (l : list string) a b : In [a; b] (combinations 2 l) -> exists j k, (j < k)%nat /\ (k < List.length l)%nat /\ nth j l "" = a /\ nth k l "" = b.
Proof.
  intros H. apply combinations_in in H as [S0 _]. remember [a; b] as c eqn:Q. revert Q. induction S0 as [l0|x c l0 S1 IH|x c l0 S1 IH]; intros Q; [discriminate| |].
  - injection Q as -> Q. subst c. assert (X : forall c m, sublist c m -> c = [b] -> exists k, (k < List.length m)%nat /\ nth k m "" = b).
    { intros c m S2. induction S2 as [m|y c m S3 IH2|y c m S3 IH2]; intros Q; [discriminate| |].
      - injection Q as -> _. exists 0%nat. split; [cbn; lia|reflexivity].
      - destruct (IH2 Q) as (k & K1 & K2). exists (S k). split; [cbn; lia|exact K2]. }
    destruct (X _ _ S1 eq_refl) as (k & K1 & K2). exists 0%nat, (S k). repeat split; cbn; try lia. exact K2.
  - destruct (IH Q) as (j & k & L1 & L2 & N1 & N2). exists (S j), (S k). repeat split; cbn; try lia; assumption.
Qed.

(* IntercomparisonMetrics: for every pair of columns what PairwiseIntercomparisonMetrics gives for these two columns *)
Theorem C125_intercomparison m_ubrmsd scale_mean_std ref others nonref names lay calc_rho calc_tau o f i d a b label g :
  (forall g h, scale_mean_std g = Ok h -> f_cols h = f_cols g) ->
  intercomparison_init ref others nonref names = Ok lay -> NoDup (map snd (l_pairs lay)) -> NoDup (ref :: others) -> incl (ref :: others) (f_cols f) ->
  good_meta meta i ("n_obs" :: pair_keys lay) -> good_meta meta i (pairwise_used o) -> wf_frame f -> no_gaps f ->
  (min_obs <= nrows f)%nat -> (0 < nrows f)%nat -> o_bootstrap o = false \/ ((0 <= o_alpha o <= 2)%R /\ (o_boot_min o <= nrows f)%nat) ->
  intercomparison_calc (two_metric scipy_pearson) (two_metric sp_spearman) (two_metric sp_kendall) (one_metric bias) m_ubrmsd (one_metric (fun p => rmsd p 0)) mse_metric
    (one_metric (fun p => Some (RSS p))) scale_mean_std min_obs meta lay calc_rho calc_tau f i = Ok d ->
  In ([a; b], label) (l_pairs lay) -> select f [a; b] = Ok g ->
  exists e, pairwise o g i = Ok e /\ same_entry d ["n_obs"] e ["n_obs"] /\ same_entry d ["status"] e ["status"] /\
    (forall m, In m ["R"; "p_R"; "BIAS"; "RMSD"; "mse"; "mse_corr"; "mse_bias"; "mse_var"; "RSS"] -> same_entry d [p_key m label] e [m]) /\
    (calc_rho = true -> o_spearman o = true -> forall m, In m ["rho"; "p_rho"] -> same_entry d [p_key m label] e [m]) /\
    (calc_tau = true -> o_kendall o = true -> forall m, In m ["tau"; "p_tau"] -> same_entry d [p_key m label] e [m]).
Proof.
  intros SK HI NL NC IC G1 G2 W C M NZ B D IP SG.
  pose proof (intercomparison_pairs ref others nonref names lay HI) as (LC & PI & _).
  destruct (pair_positions _ _ _ (PI _ IP)) as (j & k & JK & KL & NJ & NK). rewrite LC in KL, NJ, NK.
  set (mp := two_metric scipy_pearson) in *. set (ms := two_metric sp_spearman) in *. set (mk := two_metric sp_kendall) in *. set (mb := one_metric bias) in *.
  set (mr := one_metric (fun p => rmsd p 0)) in *. set (mq := one_metric (fun p => Some (RSS p))) in *.
  pose proof NC as NC'. pose proof IC as IC'. rewrite <- LC in NC', IC'.
  destruct (intercomparison_ok mp ms mk mb m_ubrmsd mr mse_metric mq scale_mean_std min_obs meta lay calc_rho calc_tau f i G1 NL NC' IC' PI SK)
    as (data & SD & CD & ND & CO & H). rewrite LC in CD, CO.
  assert (T : exists named, pair_tables mp ms mk mb m_ubrmsd mr mse_metric mq scale_mean_std calc_rho calc_tau data = Ok named).
  { unfold intercomparison_calc in D. destruct (meta_calc _ _ _) as [d0|]; [|discriminate]. cbn [bindR] in D. destruct (set0 d0 _ _) as [d1|]; [|discriminate]. cbn [bindR] in D.
    rewrite (proj2 (Nat.ltb_ge _ _) M) in D. rewrite SD in D. cbn [bindR] in D. destruct (pair_tables _ _ _ _ _ _ _ _ _ _ _ _) as [named|]; [|discriminate]. eauto. }
  destruct T as (named & T). destruct (H named (fun _ => T)) as (d' & D' & _ & _ & HN & _ & SU). assert (d' = d) by congruence. subst d'. clear D'.
  destruct (SU M) as [ST V]. clear SU H.
  destruct (select_complete f _ data W C SD) as [WD CDa]. destruct (select_complete f _ g W C SG) as [WG CG].
  (* the columns of the two frames *)
  assert (IA : In a (ref :: others)) by (rewrite <- NJ; apply nth_In; lia). assert (IB : In b (ref :: others)) by (rewrite <- NK; apply nth_In; lia).
  assert (AB : NoDup [a; b]).
  { constructor; [|constructor; [intros []|constructor]]. intros [X|[]]. assert (j = k); [|lia]. apply (proj1 (NoDup_nth (ref :: others) "") NC); [lia|lia|congruence]. }
  assert (IAB : incl [a; b] (f_cols f)) by (intros x [<-|[<-|[]]]; apply IC; assumption).
  destruct (select_ok f [a; b] IAB AB) as (g' & SG' & CGc & NG & _ & COG). assert (g' = g) by congruence. subst g'.
  assert (IXA : index_of (ref :: others) a = Some j) by (rewrite <- NJ; apply index_of_nth; [exact NC|lia]).
  assert (IXB : index_of (ref :: others) b = Some k) by (rewrite <- NK; apply index_of_nth; [exact NC|lia]).
  assert (GA : col_at g 0 = col_at data j).
  { pose proof (COG a (or_introl eq_refl)) as X. rewrite <- (CO a IA) in X. unfold column in X. rewrite CGc, CD, IXA in X. cbn [index_of] in X. rewrite String.eqb_refl in X. congruence. }
  assert (GB : col_at g 1 = col_at data k).
  { pose proof (COG b (or_intror (or_introl eq_refl))) as X. rewrite <- (CO b IB) in X. unfold column in X. rewrite CGc, CD, IXB in X. cbn [index_of] in X. rewrite String.eqb_refl in X.
    replace (String.eqb a b) with false in X by (symmetry; apply String.eqb_neq; intros ->; apply NoDup_cons_iff in AB as [AB _]; apply AB; left; reflexivity).
    cbn [option_map] in X. congruence. }
  assert (MG : (min_obs <= nrows g)%nat) by (rewrite NG; exact M). assert (ZG : (0 < nrows g)%nat) by (rewrite NG; exact NZ).
  rewrite <- NG in B. assert (C2 : (2 <= List.length (f_cols g))%nat) by (rewrite CGc; cbn; lia).
  destruct (pairwise_complete o g i G2 WG CG C2 MG ZG B) as (e & p & E & CP & PN & LP & [STE NOE] & H1 & H2 & H3 & H4 & H5 & H6 & H7 & H8 & H9 & H10 & RHO & TAU).
  rewrite GA, GB in CP, H9, H10, RHO, TAU. rewrite NG in NOE.
  exists e. split; [exact E|]. split; [eexists; split; [exact HN|exact NOE]|]. split; [eexists; split; [exact ST|exact STE]|].
  (* the tables *)
  assert (NDc : NoDup (f_cols data)) by (rewrite CD; exact NC). assert (KD : (k < List.length (f_cols data))%nat) by (rewrite CD; exact KL).
  assert (ZD : (0 < nrows data)%nat) by (rewrite ND; exact NZ).
  assert (STO : forall m n v q ds, pair_metric m n v -> (q < n)%nat -> df_metric m n data = Ok ds ->
            forall nm, In (nm, nth q ds []) named -> holds d [p_key nm label] (RNum (nth q (v (col_at data j) (col_at data k)) None))).
  { intros m n v q ds PM QN ED nm IN. pose proof (stored_pair m n v data ds q j k PM WD CDa ZD NDc JK KD QN ED) as L. rewrite CD, NJ, NK in L.
    pose proof (V _ _ IN IP) as X. unfold value_at in X. cbn [fst snd] in X. rewrite L in X. exact X. }
  apply tables_ok in T as (tp & tb & tq & tm & tr & trho & ttau & fs & tu & E1 & E2 & E3 & E4 & E5 & E6 & E7 & E8 & E9 & EN).
  pose proof (df_metric_length _ _ _ _ E1) as L1. pose proof (df_metric_length _ _ _ _ E2) as L2. pose proof (df_metric_length _ _ _ _ E3) as L3.
  pose proof (df_metric_length _ _ _ _ E4) as L4. pose proof (df_metric_length _ _ _ _ E5) as L5. pose proof (df_metric_length _ _ _ _ E9) as L9.
  destruct tp as [|p1 [|p2 [|]]]; try discriminate L1. destruct tb as [|b1 [|]]; try discriminate L2. destruct tq as [|q1 [|]]; try discriminate L3.
  destruct tm as [|m1 [|m2 [|m3 [|m4 [|]]]]]; try discriminate L4. destruct tr as [|r1 [|]]; try discriminate L5. destruct tu as [|u1 [|]]; try discriminate L9.
  cbn [app combine] in EN. rewrite <- app_comm_cons in EN || idtac.
  destruct (mse_decomposition_eq p PN) as (c & bb & v & ED & EC & EB & EV & _).
  assert (MSE : msd p = Some (mean_square_diff p)) by (apply msd_correct; exact PN).
  split; [|split].
  - intros m I. cbn in I. destruct I as [<-|[<-|[<-|[<-|[<-|[<-|[<-|[<-|[<-|[]]]]]]]]]]; (eexists; split; [|eassumption]).
    + exact (STO _ 2%nat _ 0%nat _ (two_is scipy_pearson) ltac:(lia) E1 "R" ltac:(rewrite EN; cbn; tauto)).
    + exact (STO _ 2%nat _ 1%nat _ (two_is scipy_pearson) ltac:(lia) E1 "p_R" ltac:(rewrite EN; cbn; tauto)).
    + pose proof (STO _ 1%nat _ 0%nat _ (one_is bias) ltac:(lia) E2 "BIAS" ltac:(rewrite EN; cbn; tauto)) as X. cbn [nth] in X. unfold on_pairs in X. rewrite CP in X. exact X.
    + pose proof (STO _ 1%nat _ 0%nat _ (one_is (fun p => rmsd p 0)) ltac:(lia) E3 "RMSD" ltac:(rewrite EN; cbn; tauto)) as X. cbn [nth] in X. unfold on_pairs in X. rewrite CP in X. exact X.
    + pose proof (STO _ 4%nat _ 0%nat _ mse_is ltac:(lia) E4 "mse" ltac:(rewrite EN; cbn; tauto)) as X. cbv zeta in X. cbn [nth] in X. rewrite CP in X. cbn [obind] in X. rewrite ED in X.
      rewrite MSE. exact X.
    + pose proof (STO _ 4%nat _ 1%nat _ mse_is ltac:(lia) E4 "mse_corr" ltac:(rewrite EN; cbn; tauto)) as X. cbv zeta in X. cbn [nth] in X. rewrite CP in X. cbn [obind] in X. rewrite ED in X.
      rewrite EC. exact X.
    + pose proof (STO _ 4%nat _ 2%nat _ mse_is ltac:(lia) E4 "mse_bias" ltac:(rewrite EN; cbn; tauto)) as X. cbv zeta in X. cbn [nth] in X. rewrite CP in X. cbn [obind] in X. rewrite ED in X.
      rewrite EB. exact X.
    + pose proof (STO _ 4%nat _ 3%nat _ mse_is ltac:(lia) E4 "mse_var" ltac:(rewrite EN; cbn; tauto)) as X. cbv zeta in X. cbn [nth] in X. rewrite CP in X. cbn [obind] in X. rewrite ED in X.
      rewrite EV. exact X.
    + pose proof (STO _ 1%nat _ 0%nat _ (one_is (fun p => Some (RSS p))) ltac:(lia) E5 "RSS" ltac:(rewrite EN; cbn; tauto)) as X. cbn [nth] in X. unfold on_pairs in X. rewrite CP in X. exact X.
  - intros -> S0. destruct (RHO S0) as [A1 A2]. pose proof (df_metric_length _ _ _ _ E6) as L6. destruct trho as [|h1 [|h2 [|]]]; try discriminate L6.
    intros m I. cbn in I. destruct I as [<-|[<-|[]]]; (eexists; split; [|eassumption]).
    + refine (STO _ 2%nat _ 0%nat _ (two_is sp_spearman) ltac:(lia) E6 "rho" _). rewrite EN. cbn [nth combine In app]. tauto.
    + refine (STO _ 2%nat _ 1%nat _ (two_is sp_spearman) ltac:(lia) E6 "p_rho" _). rewrite EN. cbn [nth combine In app]. tauto.
  - intros -> S0. destruct (TAU S0) as [A1 A2]. pose proof (df_metric_length _ _ _ _ E7) as L7. destruct ttau as [|h1 [|h2 [|]]]; try discriminate L7.
    intros m I. cbn in I. destruct I as [<-|[<-|[]]]; (eexists; split; [|eassumption]).
    + refine (STO _ 2%nat _ 0%nat _ (two_is sp_kendall) ltac:(lia) E7 "tau" _). rewrite EN. cbn [nth combine In app]. rewrite in_app_iff. cbn [In]. tauto.
    + refine (STO _ 2%nat _ 1%nat _ (two_is sp_kendall) ltac:(lia) E7 "p_tau" _). rewrite EN. cbn [nth combine In app]. rewrite in_app_iff. cbn [In]. tauto.
Qed.
End Agree.
Print Assumptions C125_basic.
Print Assumptions C125_plus_mse.
Print Assumptions C125_intercomparison.

(* ------------------------------------------------------------- examples *)
Definition sample : frame := Frame ["ref"; "k1"] [(at_day 0, [Some 0%Q; Some 0%Q]); (at_day 1, [Some 2%Q; Some 1%Q])].
Lemma sample_wf : wf_frame sample.
Proof. intros r [<-|[<-|[]]]; reflexivity. Qed.
Lemma sample_complete : no_gaps sample.
Proof. intros r c [<-|[<-|[]]] [<-|[<-|[]]]; reflexivity. Qed.
Definition plain : options := Options true true true false 100 (1 / 20).
Example C125_basic_example : good_meta None here basic_names /\ good_meta None here (pairwise_used plain) /\ f_cols sample = ["ref"; "k1"] /\ "k1" <> "ref" /\
  wf_frame sample /\ no_gaps sample /\ (2 <= nrows sample)%nat /\ o_bootstrap plain = false.
Proof.
  split; [intros m M; discriminate|]. split; [intros m M; discriminate|]. split; [reflexivity|]. split; [discriminate|]. split; [exact sample_wf|].
  split; [exact sample_complete|]. split; [cbn; lia|reflexivity].
Qed.
Definition sample_lay : layout := Layout ["ref"; "k1"] ["ref"; "k1"] [("ref", "ref"); ("k1", "k1")] [(["ref"; "k1"], "ref_and_k1")] [].
Example C125_intercomparison_example : intercomparison_init "ref" ["k1"] false None = Ok sample_lay /\ NoDup (map snd (l_pairs sample_lay)) /\ NoDup ["ref"; "k1"] /\
  incl ["ref"; "k1"] (f_cols sample) /\ good_meta None here ("n_obs" :: pair_keys sample_lay) /\ select sample ["ref"; "k1"] = Ok sample.
Proof.
  split; [reflexivity|]. split; [cbn; nodup_strings|]. split; [nodup_strings|]. split; [intros x X; exact X|]. split; [intros m M; discriminate|reflexivity].
Qed.

(* ---------------------------------------------------------------- urmsd *)
Open Scope R_scope.

(* IntercomparisonMetrics scales to mean and standard deviation of the reference before it computes "urmsd":
   the result depends only on the correlation of the two datasets and on the spread of the reference *)
Theorem C125_urmsd : forall (rows : list (nat -> R)) (r a b : nat), rows <> [] ->
  ~ constant (MetricsSpec.column a rows) -> ~ constant (MetricsSpec.column b rows) ->
  exists sa sb, mean_std (MetricsSpec.column a rows) (MetricsSpec.column r rows) = map Some sa /\
    mean_std (MetricsSpec.column b rows) (MetricsSpec.column r rows) = map Some sb /\
    (a = r -> sa = MetricsSpec.column r rows) /\
    ubrmsd (combine sa sb) 0 = Some (std (MetricsSpec.column r rows) * sqrt (2 * (1 - correlation (columns a b rows)))).
Proof.
  intros rows r a b NE CA CB. unfold MetricsSpec.column in *. set (la := map (fun t => t a) rows) in *. set (lb := map (fun t => t b) rows) in *. set (lr := map (fun t => t r) rows).
  assert (NA : la <> []) by (apply map_ne, NE). assert (NB : lb <> []) by (apply map_ne, NE).
  assert (PA : 0 < std la) by (destruct (std_nonneg la) as [Z|Z]; [exact Z|exfalso; apply CA, std_zero; [exact NA|symmetry; exact Z]]).
  assert (PB : 0 < std lb) by (destruct (std_nonneg lb) as [Z|Z]; [exact Z|exfalso; apply CB, std_zero; [exact NB|symmetry; exact Z]]).
  exists (map (fun v => (v - rmean la) / std la * std lr + rmean lr) la), (map (fun v => (v - rmean lb) / std lb * std lr + rmean lr) lb).
  assert (MS : forall l, 0 < std l -> mean_std l lr = map Some (map (fun v => (v - rmean l) / std l * std lr + rmean lr) l)).
  { intros l P. unfold mean_std. destruct (Req_EM_T (std l) 0); [lra|]. rewrite map_map. reflexivity. }
  split; [apply MS, PA|]. split; [apply MS, PB|]. split.
  { intros ->. change lr with la. transitivity (map (fun v : R => v) la); [apply map_ext; intros v; field; lra|apply map_id]. }
  set (rows' := map (fun (t : nat -> R) (n : nat) => if Nat.eqb n 0 then (t a - rmean la) / std la * std lr + rmean lr else (t b - rmean lb) / std lb * std lr + rmean lr) rows).
  assert (CM : combine (map (fun v => (v - rmean la) / std la * std lr + rmean lr) la) (map (fun v => (v - rmean lb) / std lb * std lr + rmean lr) lb) = columns 0 1 rows').
  { assert (X : forall (g h : R -> R) l, combine (map g (map (fun t : nat -> R => t a) l)) (map h (map (fun t => t b) l)) = map (fun t => (g (t a), h (t b))) l).
    { intros g h l. induction l as [|t l IH]; [reflexivity|]. cbn [map combine]. f_equal. exact IH. }
    unfold columns, rows'. rewrite map_map. cbn [Nat.eqb]. apply (X (fun v => (v - rmean la) / std la * std lr + rmean lr) (fun v => (v - rmean lb) / std lb * std lr + rmean lr) rows). }
  assert (R0 : forall g : R -> R, (forall v, g v = (v - rmean la) / std la * std lr + rmean lr) -> map (fun t => t 0%nat) rows' = map g la).
  { intros g G. unfold rows'. rewrite map_map. transitivity (map (fun t => g (t a)) rows); [apply map_ext; intros t; cbn; symmetry; apply G|exact (eq_sym (map_map (fun t : nat -> R => t a) g rows))]. }
  assert (R1 : forall g : R -> R, (forall v, g v = (v - rmean lb) / std lb * std lr + rmean lr) -> map (fun t => t 1%nat) rows' = map g lb).
  { intros g G. unfold rows'. rewrite map_map. transitivity (map (fun t => g (t b)) rows); [apply map_ext; intros t; cbn; symmetry; apply G|exact (eq_sym (map_map (fun t : nat -> R => t b) g rows))]. }
  rewrite CM. assert (NE' : rows' <> []) by (apply map_ne, NE). rewrite ubrmsd_correct by (apply cols_ne, NE'). f_equal.
  assert (UB : ub2 (columns 0 1 rows') = std lr * std lr * (2 * (1 - correlation (columns a b rows)))).
  { unfold ub2, correlation. rewrite !xs_cols, !ys_cols. fold la lb.
    assert (V : forall l k, 0 < std l -> l <> [] -> map (fun t => t k) rows' = map (fun v => std lr / std l * v + (rmean lr - std lr / std l * rmean l)) l -> var (map (fun t => t k) rows') = std lr * std lr).
    { intros l k P N ->. rewrite var_affine by exact N. rewrite <- (std_sqr l). field. lra. }
    rewrite (V la 0%nat PA NA), (V lb 1%nat PB NB).
    2:{ apply R1. intros v. field. lra. }
    2:{ apply R0. intros v. field. lra. }
    assert (CV : cov (columns 0 1 rows') = std lr / std la * (std lr / std lb) * cov (columns a b rows)).
    { unfold cov. rewrite !xs_cols, !ys_cols. fold la lb.
      assert (MA : rmean (map (fun t => t 0%nat) rows') = rmean lr).
      { rewrite (R0 (fun v => std lr / std la * v + (rmean lr - std lr / std la * rmean la))) by (intros v; field; lra). rewrite rmean_affine by exact NA. ring. }
      assert (MB : rmean (map (fun t => t 1%nat) rows') = rmean lr).
      { rewrite (R1 (fun v => std lr / std lb * v + (rmean lr - std lr / std lb * rmean lb))) by (intros v; field; lra). rewrite rmean_affine by exact NB. ring. }
      rewrite MA, MB. unfold columns, rows'. rewrite !map_map. cbn [fst snd Nat.eqb]. assert (RM : forall h : (nat -> R) -> R, rmean (map h rows) = rsum (map h rows) / rlen rows) by (intros h; unfold rmean; rewrite rlen_map; reflexivity).
      rewrite !(RM (fun x => _ * _)).
      rewrite (rsum_ext _ (fun t => std lr / std la * (std lr / std lb) * ((t a - rmean la) * (t b - rmean lb)))) by (intros; field; lra).
      rewrite rsum_scal. unfold Rdiv. ring. }
    rewrite CV. field. lra. }
  rewrite UB. assert (S0 := std_nonneg lr). rewrite sqrt_mult_alt by nra. rewrite sqrt_square by exact S0. reflexivity.
Qed.
Print Assumptions C125_urmsd.
Example C125_urmsd_example :
  let rows := [fun n : nat => if Nat.eqb n 0 then 0 else 0; fun n : nat => if Nat.eqb n 0 then 2 else 1] in
  rows <> [] /\ ~ constant (MetricsSpec.column 0 rows) /\ ~ constant (MetricsSpec.column 1 rows).
Proof.
  cbv zeta. split; [discriminate|]. split; intros C; [specialize (C 0 2)|specialize (C 0 1)]; cbn in C; assert (X := C (or_introl eq_refl) (or_intror (or_introl eq_refl))); lra.
Qed.

(* so the two calculators store different numbers under "urmsd" for the same two columns: 0 and 1/2 for
   the dataset that is half of the reference *)
Definition sample_scaled : frame := Frame ["ref"; "k1"] [(at_day 0, [Some 0%Q; Some 0%Q]); (at_day 1, [Some 2%Q; Some 2%Q])].
Definition reals (l : list cell) : list R := map Q2R (vals l).
Theorem C125_urmsd_refuted : forall sp_spearman sp_kendall betainc norm_ppf t_ppf chi2_ppf ppf cdf draws,
  mean_std (reals (col_at sample 1)) (reals (col_at sample 0)) = map Some (reals (col_at sample_scaled 1)) /\ col_at sample_scaled 0 = col_at sample 0 /\
  exists d e,
    intercomparison_calc (two_metric (scipy_pearson betainc)) (two_metric sp_spearman) (two_metric sp_kendall) (one_metric bias) (one_metric (fun p => ubrmsd p 0))
      (one_metric (fun p => rmsd p 0)) mse_metric (one_metric (fun p => Some (RSS p))) (fun _ => Ok sample_scaled) 2 None sample_lay true true sample here = Ok d /\
    pairwise_calc sp_spearman sp_kendall 2 None betainc norm_ppf t_ppf chi2_ppf ppf cdf draws plain sample here = Ok e /\
    holds d ["urmsd_between_ref_and_k1"] (RNum (Some 0)) /\ holds e ["urmsd"] (RNum (Some (1 / 2))).
Proof.
  intros sp_spearman sp_kendall betainc norm_ppf t_ppf chi2_ppf ppf cdf draws.
  assert (Q0 : Q2R 0 = 0) by (unfold Q2R; cbn; lra). assert (Q1 : Q2R 1 = 1) by (unfold Q2R; cbn; lra). assert (Q2 : Q2R 2 = 2) by (unfold Q2R; cbn; lra).
  assert (VAR : var [0; 1] = 1 / 4 /\ var [0; 2] = 1) by (split; unfold var, rmean, rlen; cbn; field).
  assert (STD : std [0; 1] = 1 / 2 /\ std [0; 2] = 1).
  { destruct VAR as [V1 V2]. unfold std. rewrite V1, V2. split; [|apply sqrt_1]. replace (1 / 4) with ((1 / 2) * (1 / 2)) by lra. apply sqrt_square. lra. }
  split; [|split; [reflexivity|]].
  { change (reals (col_at sample 1)) with [Q2R 0; Q2R 1]. change (reals (col_at sample 0)) with [Q2R 0; Q2R 2]. change (reals (col_at sample_scaled 1)) with [Q2R 0; Q2R 2].
    rewrite Q0, Q1, Q2. unfold mean_std. destruct STD as [-> ->]. destruct (Req_EM_T (1 / 2) 0) as [X|_]; [lra|]. unfold rmean, rlen. cbn. repeat f_equal; field. }
  destruct (pairwise_complete sp_spearman sp_kendall 2 None betainc norm_ppf t_ppf chi2_ppf ppf cdf draws plain sample here) as (e & p & E & CP & PN & _ & _ & _ & _ & _ & _ & _ & _ & _ & U & _);
    [intros m M; discriminate|exact sample_wf|exact sample_complete|cbn; lia|cbn; lia|cbn; lia|left; reflexivity|].
  eexists. exists e. split; [reflexivity|]. split; [exact E|]. split.
  - assert (X : ubrmsd [(Q2R 0, Q2R 0); (Q2R 2, Q2R 2)] 0 = Some 0).
    { rewrite ubrmsd_correct by discriminate. f_equal. rewrite <- sqrt_0. f_equal. rewrite Q0, Q2. unfold ub2, cov, var, rmean, rlen, xs, ys. cbn. field. }
    rewrite <- X. reflexivity.
  - change (complete (col_at sample 0) (col_at sample 1)) with (Some [(Q2R 0, Q2R 0); (Q2R 2, Q2R 1)]) in CP.
    assert (p = [(Q2R 0, Q2R 0); (Q2R 2, Q2R 1)]) by congruence. subst p. rewrite ubrmsd_correct in U by discriminate.
    replace (1 / 2) with (sqrt (ub2 [(Q2R 0, Q2R 0); (Q2R 2, Q2R 1)])); [exact U|]. rewrite Q0, Q1, Q2.
    replace (ub2 [(0, 0); (2, 1)]) with ((1 / 2) * (1 / 2)) by (unfold ub2, cov, var, rmean, rlen, xs, ys; cbn; field). apply sqrt_square. lra.
Qed.
Print Assumptions C125_urmsd_refuted.

(* Too few observations: BasicMetrics reports 0 observations, PairwiseIntercomparisonMetrics how many there are. *)
Theorem C125_few_refuted : forall sp_spearman sp_kendall betainc norm_ppf t_ppf chi2_ppf ppf cdf draws,
  exists d e, basic_calc (scipy_pearson betainc) sp_spearman sp_kendall 10 None "k1" false sample here = Ok d /\
    pairwise_calc sp_spearman sp_kendall 10 None betainc norm_ppf t_ppf chi2_ppf ppf cdf draws plain sample here = Ok e /\
    holds d ["status"] (RInt 1) /\ holds e ["status"] (RInt 1) /\ holds d ["n_obs"] (RInt 0) /\ holds e ["n_obs"] (RInt 2).
Proof. intros. eexists. eexists. split; [reflexivity|]. split; [reflexivity|]. repeat split; reflexivity. Qed.
Print Assumptions C125_few_refuted.
