(* C125: TCMetrics and PairwiseIntercomparisonMetrics agree on the metrics of pairs. *)
From Coq Require Import Reals Qreals List Lra Lia.
From Verif Require Import Base BaseProofs NamesModel NamesProofs RStats MetricsSpec MetricsModel RStatsProofs MetricsProofs MetricsProofs2 RollingModel TcolModel ConfintModel ConfintProofs2.
From Verif Require Import DfMetricsModel DfMetricsSpec DfMetricsProofs CalcModel CalcSpec CalcProofs CalcProofs2 CalcProofs3 CalcProofs4 CalcProps CalcValueProps.
From Verif Require Import CalcPairsModel CalcPairsSpec CalcPairsProofs CalcPairsProofs2 CalcTcmProofs CalcPairsProps CalcTcmProps AgreeSpec AgreeProofs AgreeProps.
Open Scope string_scope.
Open Scope list_scope.

Section TcPairs.
Variables sp_spearman sp_kendall : list cell -> list cell -> option R * option R.
Variables (min_obs : nat) (meta : metadata).
Variable betainc : R -> R -> R -> R.
Variable norm_ppf : R -> R.
Variables t_ppf chi2_ppf : R -> nat -> R.
Variable ppf : R -> option R.
Variable cdf : R -> R.
Variable draws : string -> list (list nat).
Notation pairwise := (pairwise_calc sp_spearman sp_kendall min_obs meta betainc norm_ppf t_ppf chi2_ppf ppf cdf draws).
Notation scipy_pearson := (scipy_pearson betainc).
Notation pairwise_complete := (pairwise_complete sp_spearman sp_kendall min_obs meta betainc norm_ppf t_ppf chi2_ppf ppf cdf draws).

(* For every pair of datasets TCMetrics reports the metrics that PairwiseIntercomparisonMetrics gives for these
   two columns (except "urmsd", see C125_urmsd). *)
Theorem C125_tc_pairs m_ubrmsd scale_mean_std others nonref names for_ref lay template calc_tau o f i d a b label g :
  (forall g h, scale_mean_std g = Ok h -> f_cols h = f_cols g) ->
  tcm_init others nonref names = Ok lay -> tcm_template meta lay for_ref = Ok template -> NoDup ("ref" :: others) -> f_cols f = "ref" :: others ->
  (2 <= List.length others)%nat -> (1 <= min_obs)%nat -> (min_obs <= nrows f)%nat -> wf_frame f -> no_gaps f ->
  good_meta meta i ("n_obs" :: pair_keys lay ++ triple_keys lay) -> good_meta meta i (pairwise_used o) -> NoDup (map snd (l_pairs lay)) -> NoDup (triple_keys lay) ->
  o_bootstrap o = false \/ ((0 <= o_alpha o <= 2)%R /\ (o_boot_min o <= nrows f)%nat) ->
  tcm_calc (two_metric scipy_pearson) (two_metric sp_spearman) (two_metric sp_kendall) (one_metric bias) m_ubrmsd (one_metric (fun p => rmsd p 0)) mse_metric
    (one_metric (fun p => Some (RSS p))) scale_mean_std min_obs meta lay template calc_tau f i = Ok d ->
  In ([a; b], label) (l_pairs lay) -> select f [a; b] = Ok g ->
  exists e, pairwise o g i = Ok e /\ same_entry d ["n_obs"] e ["n_obs"] /\ same_entry d ["status"] e ["status"] /\
    (forall m, In m ["R"; "p_R"; "BIAS"; "RMSD"; "mse"; "mse_corr"; "mse_bias"; "mse_var"; "RSS"] -> same_entry d [p_key m label] e [m]) /\
    (o_spearman o = true -> forall m, In m ["rho"; "p_rho"] -> same_entry d [p_key m label] e [m]) /\
    (calc_tau = true -> o_kendall o = true -> forall m, In m ["tau"; "p_tau"] -> same_entry d [p_key m label] e [m]).
Proof.
  intros SK HI HT NC FC OL MO M W C G1 G2 NL NT B D IP SG. assert (NZ : (0 < nrows f)%nat) by lia.
  assert (FULL : forall r, In r (f_rows f) -> List.length (snd r) = List.length (f_cols f) /\ Forall (fun x => x <> None) (snd r)).
  { intros r R0. split; [exact (W r R0)|]. apply Forall_forall. intros q Q X. assert (Z := C r q R0 Q). rewrite X in Z. discriminate. }
  destruct (tcm_init_ok others nonref names lay HI NC) as (LC & PI & _).
  assert (IPC : In [a; b] (combinations 2 ("ref" :: others))) by (rewrite <- LC; exact (PI _ IP)).
  destruct (pair_positions min_obs t_ppf chi2_ppf draws _ _ _ IPC) as (j & k & JK & KL & NJ & NK).
  set (mp := two_metric scipy_pearson) in *. set (ms := two_metric sp_spearman) in *. set (mk := two_metric sp_kendall) in *. set (mb := one_metric bias) in *.
  set (mr := one_metric (fun p => rmsd p 0)) in *. set (mq := one_metric (fun p => Some (RSS p))) in *.
  assert (T : exists named, pair_tables mp ms mk mb m_ubrmsd mr mse_metric mq scale_mean_std true calc_tau f = Ok named).
  { unfold tcm_calc in D. destruct (meta_calc _ _ _) as [d0|]; [|discriminate]. cbn [bindR] in D. destruct (set0 d0 _ _) as [d1|]; [|discriminate]. cbn [bindR] in D.
    rewrite (proj2 (Nat.ltb_ge _ _) M) in D. destruct (pair_tables _ _ _ _ _ _ _ _ _ _ _ _) as [named|]; [|discriminate]. eauto. }
  destruct T as (named & T).
  destruct (C58_tcm mp ms mk mb m_ubrmsd mr mse_metric mq scale_mean_std min_obs meta SK others nonref names for_ref lay template calc_tau f i
    HI HT NC FC OL MO FULL G1 NL NT named (fun _ => T)) as (d' & D' & _ & _ & HN & _ & SU).
  assert (d' = d) by congruence. subst d'. destruct (SU M) as ([ST _] & V & _). clear SU D'.
  destruct (select_complete f _ g W C SG) as [WG CG].
  (* the columns of the two frames *)
  assert (IA : In a ("ref" :: others)) by (rewrite <- NJ; apply nth_In; lia). assert (IB : In b ("ref" :: others)) by (rewrite <- NK; apply nth_In; lia).
  assert (AB : NoDup [a; b]).
  { constructor; [|constructor; [intros []|constructor]]. intros [X|[]]. assert (j = k); [|lia]. apply (proj1 (NoDup_nth ("ref" :: others) "") NC); [lia|lia|congruence]. }
  assert (IAB : incl [a; b] (f_cols f)) by (intros x [<-|[<-|[]]]; rewrite FC; assumption).
  destruct (select_ok f [a; b] IAB AB) as (g' & SG' & CGc & NG & _ & COG). assert (g' = g) by congruence. subst g'.
  assert (IXA : index_of ("ref" :: others) a = Some j) by (rewrite <- NJ; apply index_of_nth; [exact NC|lia]).
  assert (IXB : index_of ("ref" :: others) b = Some k) by (rewrite <- NK; apply index_of_nth; [exact NC|lia]).
  assert (GA : col_at g 0 = col_at f j).
  { pose proof (COG a (or_introl eq_refl)) as X. unfold column in X. rewrite CGc, FC, IXA in X. cbn [index_of] in X. rewrite String.eqb_refl in X. congruence. }
  assert (GB : col_at g 1 = col_at f k).
  { pose proof (COG b (or_intror (or_introl eq_refl))) as X. unfold column in X. rewrite CGc, FC, IXB in X. cbn [index_of] in X. rewrite String.eqb_refl in X.
    replace (String.eqb a b) with false in X by (symmetry; apply String.eqb_neq; intros ->; apply NoDup_cons_iff in AB as [AB _]; apply AB; left; reflexivity).
    cbn [option_map] in X. congruence. }
  assert (MG : (min_obs <= nrows g)%nat) by (rewrite NG; exact M). assert (ZG : (0 < nrows g)%nat) by (rewrite NG; exact NZ).
  rewrite <- NG in B. assert (C2 : (2 <= List.length (f_cols g))%nat) by (rewrite CGc; cbn; lia).
  destruct (pairwise_complete o g i G2 WG CG C2 MG ZG B) as (e & p & E & CP & PN & LP & [STE NOE] & H1 & H2 & H3 & H4 & H5 & H6 & H7 & H8 & H9 & H10 & RHO & TAU).
  rewrite GA, GB in CP, H9, H10, RHO, TAU. rewrite NG in NOE.
  exists e. split; [exact E|]. split; [eexists; split; [exact HN|exact NOE]|]. split; [eexists; split; [exact ST|exact STE]|].
  (* the tables *)
  assert (NDc : NoDup (f_cols f)) by (rewrite FC; exact NC). assert (KD : (k < List.length (f_cols f))%nat) by (rewrite FC; exact KL).
  assert (ZD : (0 < nrows f)%nat) by exact NZ.
  assert (STO : forall m n v q ds, pair_metric m n v -> (q < n)%nat -> df_metric m n f = Ok ds ->
            forall nm, In (nm, nth q ds []) named -> holds d [p_key nm label] (RNum (nth q (v (col_at f j) (col_at f k)) None))).
  { intros m n v q ds PM QN ED nm IN. pose proof (stored_pair m n v f ds q j k PM W C ZD NDc JK KD QN ED) as L. rewrite FC, NJ, NK in L.
    exact (V _ _ _ IN IP L). }
  apply tables_ok in T as (tp & tb & tq & tm & tr & trho & ttau & fs & tu & E1 & E2 & E3 & E4 & E5 & E6 & E7 & E8 & E9 & EN).
  pose proof (df_metric_length _ _ _ _ E1) as L1. pose proof (df_metric_length _ _ _ _ E2) as L2. pose proof (df_metric_length _ _ _ _ E3) as L3.
  pose proof (df_metric_length _ _ _ _ E4) as L4. pose proof (df_metric_length _ _ _ _ E5) as L5. pose proof (df_metric_length _ _ _ _ E9) as L9.
  destruct tp as [|p1 [|p2 [|]]]; try discriminate L1. destruct tb as [|b1 [|]]; try discriminate L2. destruct tq as [|q1 [|]]; try discriminate L3.
  destruct tm as [|m1 [|m2 [|m3 [|m4 [|]]]]]; try discriminate L4. destruct tr as [|r1 [|]]; try discriminate L5. destruct tu as [|u1 [|]]; try discriminate L9.
  cbn [app combine] in EN. rewrite <- app_comm_cons in EN || idtac.
  destruct (mse_decomposition_eq p PN) as (c & bb & v & ED & EC & EB & EV & _).
  assert (MSE : msd p = Some (mean_square_diff p)) by (apply msd_correct; exact PN).
  split; [|split].
  - intros m I. cbn in I. destruct I as [<-|[<-|[<-|[<-|[<-|[<-|[<-|[<-|[<-|[]]]]]]]]]]; (eexists; split; [|eassumption]).
    + exact (STO _ 2%nat _ 0%nat _ (two_is scipy_pearson) ltac:(lia) E1 "R" ltac:(rewrite EN; cbn; tauto)).
    + exact (STO _ 2%nat _ 1%nat _ (two_is scipy_pearson) ltac:(lia) E1 "p_R" ltac:(rewrite EN; cbn; tauto)).
    + pose proof (STO _ 1%nat _ 0%nat _ (one_is bias) ltac:(lia) E2 "BIAS" ltac:(rewrite EN; cbn; tauto)) as X. cbn [nth] in X. unfold on_pairs in X. rewrite CP in X. exact X.
    + pose proof (STO _ 1%nat _ 0%nat _ (one_is (fun p => rmsd p 0)) ltac:(lia) E3 "RMSD" ltac:(rewrite EN; cbn; tauto)) as X. cbn [nth] in X. unfold on_pairs in X. rewrite CP in X. exact X.
    + pose proof (STO _ 4%nat _ 0%nat _ mse_is ltac:(lia) E4 "mse" ltac:(rewrite EN; cbn; tauto)) as X. cbv zeta in X. cbn [nth] in X. rewrite CP in X. cbn [obind] in X. rewrite ED in X.
      rewrite MSE. exact X.
    + pose proof (STO _ 4%nat _ 1%nat _ mse_is ltac:(lia) E4 "mse_corr" ltac:(rewrite EN; cbn; tauto)) as X. cbv zeta in X. cbn [nth] in X. rewrite CP in X. cbn [obind] in X. rewrite ED in X.
      rewrite EC. exact X.
    + pose proof (STO _ 4%nat _ 2%nat _ mse_is ltac:(lia) E4 "mse_bias" ltac:(rewrite EN; cbn; tauto)) as X. cbv zeta in X. cbn [nth] in X. rewrite CP in X. cbn [obind] in X. rewrite ED in X.
      rewrite EB. exact X.
    + pose proof (STO _ 4%nat _ 3%nat _ mse_is ltac:(lia) E4 "mse_var" ltac:(rewrite EN; cbn; tauto)) as X. cbv zeta in X. cbn [nth] in X. rewrite CP in X. cbn [obind] in X. rewrite ED in X.
      rewrite EV. exact X.
    + pose proof (STO _ 1%nat _ 0%nat _ (one_is (fun p => Some (RSS p))) ltac:(lia) E5 "RSS" ltac:(rewrite EN; cbn; tauto)) as X. cbn [nth] in X. unfold on_pairs in X. rewrite CP in X. exact X.
  - intros S0. destruct (RHO S0) as [A1 A2]. pose proof (df_metric_length _ _ _ _ E6) as L6. destruct trho as [|h1 [|h2 [|]]]; try discriminate L6.
    intros m I. cbn in I. destruct I as [<-|[<-|[]]]; (eexists; split; [|eassumption]).
    + refine (STO _ 2%nat _ 0%nat _ (two_is sp_spearman) ltac:(lia) E6 "rho" _). rewrite EN. cbn [nth combine In app]. tauto.
    + refine (STO _ 2%nat _ 1%nat _ (two_is sp_spearman) ltac:(lia) E6 "p_rho" _). rewrite EN. cbn [nth combine In app]. tauto.
  - intros -> S0. destruct (TAU S0) as [A1 A2]. pose proof (df_metric_length _ _ _ _ E7) as L7. destruct ttau as [|h1 [|h2 [|]]]; try discriminate L7.
    intros m I. cbn in I. destruct I as [<-|[<-|[]]]; (eexists; split; [|eassumption]).
    + refine (STO _ 2%nat _ 0%nat _ (two_is sp_kendall) ltac:(lia) E7 "tau" _). rewrite EN. cbn [nth combine In app]. rewrite in_app_iff. cbn [In]. tauto.
    + refine (STO _ 2%nat _ 1%nat _ (two_is sp_kendall) ltac:(lia) E7 "p_tau" _). rewrite EN. cbn [nth combine In app]. rewrite in_app_iff. cbn [In]. tauto.
Qed.
End TcPairs.
Print Assumptions C125_tc_pairs.
(* the frame of C58_tcm_example meets the remaining hypotheses, with the pair of two datasets other than the reference *)
Example C125_tc_pairs_example : exists lay label g, tcm_init ["k1"; "k2"; "k3"] true None = Ok lay /\ f_cols four = "ref" :: ["k1"; "k2"; "k3"] /\
  In (["k1"; "k3"], label) (l_pairs lay) /\ select four ["k1"; "k3"] = Ok g /\ NoDup (map snd (l_pairs lay)).
Proof.
  do 3 eexists. split; [reflexivity|]. split; [reflexivity|]. split; [cbn; do 4 right; left; reflexivity|]. split; [reflexivity|]. cbn; nodup_strings.
Qed.
