(* Fields that are announced but never filled, and calculators of the same group size. *)
From Coq Require Import Reals Qreals List Lra Lia.
From Verif Require Import Base BaseProofs RStats MetricsModel RollingModel TcolModel ConfintModel DfMetricsModel CalcModel CalcPairsModel CalcSpec CalcProofs CalcProofs3 CalcProps FindProofs.
From Verif Require ValidationSpec ValidationModel ValidationProps.
Open Scope string_scope.
Open Scope list_scope.

(* C71: with bootstrapped intervals the result has an interval of the residual sum of squares, but no
   calculation ever fills it: whatever the data, its bounds are NaN *)
Theorem C71_rss_interval_refuted sp_spearman sp_kendall min_obs meta betainc norm_ppf t_ppf chi2_ppf ppf cdf draws o f i d :
  o_bootstrap o = true -> not_meta meta "RSS_ci_lower" -> not_meta meta "RSS_ci_upper" ->
  pairwise_calc sp_spearman sp_kendall min_obs meta betainc norm_ppf t_ppf chi2_ppf ppf cdf draws o f i = Ok d ->
  holds d ["RSS_ci_lower"] (RNum None) /\ holds d ["RSS_ci_upper"] (RNum None).
Proof.
  intros BO NL NU H. split; (eapply pairwise_unset; [exact H| | |assumption]).
  - unfold pairwise_names. rewrite BO. rewrite !in_app_iff. do 4 right. cbn. tauto.
  - apply notinb_ok. destruct o as [sp ke an bo bm al]; destruct sp, ke, an, bo; vm_compute; reflexivity.
  - unfold pairwise_names. rewrite BO. rewrite !in_app_iff. do 4 right. cbn. tauto.
  - apply notinb_ok. destruct o as [sp ke an bo bm al]; destruct sp, ke, an, bo; vm_compute; reflexivity.
Qed.
Print Assumptions C71_rss_interval_refuted.
(* a result with both the sum and the bounds that stay empty *)
Example C71_rss_interval_example :
  let o := Options false false false true 2 (1 / 20) in
  good_meta fields place (pairwise_used o) /\ wf_frame two_rows /\ (2 <= nrows (dropna two_rows))%nat /\
  not_meta fields "RSS_ci_lower" /\ In "RSS_ci_lower" (pairwise_names o) /\ In "RSS" (pairwise_names o).
Proof.
  cbv zeta. split; [apply place_good; cbn; intuition discriminate|]. split; [intros r I0; cbn in I0; destruct I0 as [<-|[<-|[<-|[]]]]; reflexivity|].
  split; [vm_compute; lia|]. split; [intros m E; injection E as <-; cbn; intuition discriminate|]. split; cbn; tauto.
Qed.

(* C58: a calculator told not to calculate Spearman's or Kendall's correlation still reports them, as NaN *)
Theorem C58_rho_kept_refuted m_pearson m_spearman m_kendall m_bias m_ubrmsd m_rmsd m_mse m_rss scale_mean_std min_obs meta lay calc_tau f i d p m :
  In p (l_pairs lay) -> In m ["rho"; "p_rho"] -> not_meta meta (p_key m (snd p)) ->
  intercomparison_calc m_pearson m_spearman m_kendall m_bias m_ubrmsd m_rmsd m_mse m_rss scale_mean_std min_obs meta lay false calc_tau f i = Ok d ->
  holds d [p_key m (snd p)] (RNum None).
Proof. intros IP IM NM H. eapply calc_keeps; [exact H|exact IP|exact NM|left; auto]. Qed.
Theorem C58_tau_kept_refuted m_pearson m_spearman m_kendall m_bias m_ubrmsd m_rmsd m_mse m_rss scale_mean_std min_obs meta lay calc_rho f i d p m :
  In p (l_pairs lay) -> In m ["tau"; "p_tau"] -> not_meta meta (p_key m (snd p)) ->
  intercomparison_calc m_pearson m_spearman m_kendall m_bias m_ubrmsd m_rmsd m_mse m_rss scale_mean_std min_obs meta lay calc_rho false f i = Ok d ->
  holds d [p_key m (snd p)] (RNum None).
Proof. intros IP IM NM H. eapply calc_keeps; [exact H|exact IP|exact NM|right; auto]. Qed.
Print Assumptions C58_rho_kept_refuted.
Print Assumptions C58_tau_kept_refuted.
(* a calculation that ends well *)
Definition no_metric (n : nat) (l : list (list cell)) : res (list (option R)) := Ok (repeat (Some 1%R) n).
Example C58_rho_kept_example : exists lay d p,
  intercomparison_init "ref" ["k1"; "k2"] false None = Ok lay /\ In p (l_pairs lay) /\ snd p = "ref_and_k2" /\
  intercomparison_calc (no_metric 2) (no_metric 2) (no_metric 2) (no_metric 1) (no_metric 1) (no_metric 1) (no_metric 4) (no_metric 1) (fun f => Ok f) 1 None lay false false
    (Frame ["ref"; "k1"; "k2"] [(at_day 0, [Some 1%Q; Some 2%Q; Some 4%Q])]) (Info 7 0 0 None) = Ok d /\
  holds d ["R_between_ref_and_k2"] (RNum (Some 1%R)) /\ holds d ["rho_between_ref_and_k2"] (RNum None).
Proof.
  eexists. eexists. eexists (["ref"; "k2"], "ref_and_k2"). split; [vm_compute; reflexivity|]. split; [cbn; tauto|]. split; [reflexivity|].
  split; [vm_compute; reflexivity|]. split; vm_compute; reflexivity.
Qed.

Import ValidationModel ValidationProps ValidationSpec.
(* C32: two calculators for groups of two datasets *)
Definition two_calcs : @config nat Z :=
  mkCfg [("a", ["x"]); ("b", ["y"])] "a" "a" "a" ex_get ex_match None [((2%nat, 2%nat), ex_calc); ((3%nat, 2%nat), ex_calc)] None.
(* each point gets two entries for each pair, so the entries no longer belong to the points one by one; and
   only the first of the two carries the code of the failure *)
Theorem C32_same_size_refuted : exists (c : @config nat Z) (gpis : list nat) out,
  init_check c = Ok tt /\ (forall g, reference_left c g) /\ gpis = [0; 5]%nat /\ calc idz c true true false gpis = VOk out /\
  out = [([("a", "x"); ("b", "y")], [(FName "gpi", [0; 0; 5; 5]); (FName "n_obs", [0; 0; 0; 0]); (FName "status", [4; -1; 4; -1])])]%Z.
Proof.
  exists two_calcs, [0; 5]%nat. eexists. split; [reflexivity|]. split; [intros g mds gm dfs ref masked H; discriminate|]. split; [reflexivity|].
  split; [vm_compute; reflexivity|reflexivity].
Qed.
Print Assumptions C32_same_size_refuted.
