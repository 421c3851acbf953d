(* C58, C71: which number a calculator stores under which name. *)
From Coq Require Import Reals Qreals List Lra Lia.
From Verif Require Import Base BaseProofs RStats MetricsSpec MetricsModel MetricsProofs RollingModel TcolModel ConfintModel ConfintProofs2.
From Verif Require Import CalcModel CalcSpec CalcProofs CalcProofs2 CalcProofs3 CalcProofs4 CalcProps.
Open Scope string_scope.
Open Scope list_scope.

(* BasicMetrics: correlations of the columns "ref" and the other one, in this order, with their p-values;
   RMSD and bias, which are NaN if a value is missing; Kendall's tau only if asked for *)
Theorem C58_basic_values sp_pearson sp_spearman sp_kendall min_obs meta other calc_tau f i :
  good_meta meta i basic_names -> In "ref" (f_cols f) -> In other (f_cols f) -> (min_obs <= nrows f)%nat ->
  exists d x y, basic_calc sp_pearson sp_spearman sp_kendall min_obs meta other calc_tau f i = Ok d /\
    column f "ref" = Ok x /\ column f other = Ok y /\
    holds d ["R"] (RNum (fst (sp_pearson x y))) /\ holds d ["p_R"] (RNum (snd (sp_pearson x y))) /\
    holds d ["rho"] (RNum (fst (sp_spearman x y))) /\ holds d ["p_rho"] (RNum (snd (sp_spearman x y))) /\
    (forall p, complete x y = Some p -> holds d ["RMSD"] (RNum (rmsd p 0)) /\ holds d ["BIAS"] (RNum (bias p))) /\
    (complete x y = None -> holds d ["RMSD"] (RNum None) /\ holds d ["BIAS"] (RNum None)) /\
    (calc_tau = true -> holds d ["tau"] (RNum (fst (sp_kendall x y))) /\ holds d ["p_tau"] (RNum (snd (sp_kendall x y)))).
Proof.
  intros G CR CO M. destruct (basic_ok sp_pearson sp_spearman sp_kendall min_obs meta other calc_tau f i G CR CO) as (d & E & _ & _ & _ & SUC).
  destruct (SUC M) as (x & y & EX & EY & _ & VAL). exists d, x, y. split; [exact E|]. split; [exact EX|]. split; [exact EY|].
  split; [apply VAL; unfold basic_values; cbn; tauto|]. split; [apply VAL; unfold basic_values; cbn; tauto|].
  split; [apply VAL; unfold basic_values; cbn; tauto|]. split; [apply VAL; unfold basic_values; cbn; tauto|].
  split; [|split].
  - intros p EP. split; apply VAL; unfold basic_values, on_pairs; rewrite EP; cbn; tauto.
  - intros EP. split; apply VAL; unfold basic_values, on_pairs; rewrite EP; cbn; tauto.
  - intros ->. split; apply VAL; unfold basic_values; cbn; tauto.
Qed.
Print Assumptions C58_basic_values.

(* BasicMetricsPlusMSE: in addition the mean squared difference and its three parts *)
Theorem C58_plus_mse_values sp_pearson sp_spearman sp_kendall min_obs meta other f i :
  good_meta meta i (basic_names ++ mse_names) -> In "ref" (f_cols f) -> In other (f_cols f) -> (min_obs <= nrows f)%nat ->
  exists d x y, plus_mse_calc sp_pearson sp_spearman sp_kendall min_obs meta other f i = Ok d /\
    column f "ref" = Ok x /\ column f other = Ok y /\
    holds d ["R"] (RNum (fst (sp_pearson x y))) /\ holds d ["p_R"] (RNum (snd (sp_pearson x y))) /\
    holds d ["rho"] (RNum (fst (sp_spearman x y))) /\ holds d ["p_rho"] (RNum (snd (sp_spearman x y))) /\
    (forall p, complete x y = Some p -> p <> [] ->
       holds d ["RMSD"] (RNum (rmsd p 0)) /\ holds d ["BIAS"] (RNum (bias p)) /\ holds d ["mse"] (RNum (msd p)) /\
       holds d ["mse_corr"] (RNum (mse_corr p)) /\ holds d ["mse_bias"] (RNum (mse_bias p)) /\ holds d ["mse_var"] (RNum (mse_var p))) /\
    (complete x y = None -> forall m, In m ["RMSD"; "BIAS"; "mse"; "mse_corr"; "mse_bias"; "mse_var"] -> holds d [m] (RNum None)).
Proof.
  intros G CR CO M. destruct (plus_mse_ok sp_pearson sp_spearman sp_kendall min_obs meta other f i G CR CO) as (d & E & _ & _ & _ & SUC).
  destruct (SUC M) as (x & y & EX & EY & _ & VAL). exists d, x, y. split; [exact E|]. split; [exact EX|]. split; [exact EY|].
  split; [apply VAL; unfold basic_values; cbn; tauto|]. split; [apply VAL; unfold basic_values; cbn; tauto|].
  split; [apply VAL; unfold basic_values; cbn; tauto|]. split; [apply VAL; unfold basic_values; cbn; tauto|].
  split.
  - intros p EP NE. destruct (mse_decomposition_eq p NE) as (c & b & v & ED & EC & EB & EV & _).
    assert (MSE : exists s, mse_decomposition p = Some (s, c, b, v) /\ msd p = Some s).
    { rewrite msd_correct by exact NE. unfold mse_decomposition in *. eexists. split; [exact ED|]. reflexivity. }
    destruct MSE as (s & E1 & E2). rewrite E2, EC, EB, EV.
    repeat split; apply VAL; apply in_app_iff; first [left; unfold basic_values, on_pairs; rewrite EP; cbn; tauto|
      right; unfold mse_values; rewrite EP; cbn [obind]; rewrite E1; cbn; tauto].
  - intros EP m I. apply VAL. apply in_app_iff. cbn in I. destruct I as [<-|[<-|I]];
      [left; unfold basic_values, on_pairs; rewrite EP; cbn; tauto|left; unfold basic_values, on_pairs; rewrite EP; cbn; tauto|right].
    unfold mse_values. rewrite EP. cbn. intuition (subst; auto).
Qed.
Print Assumptions C58_plus_mse_values.

(* a column that is not there is a KeyError *)
Theorem C58_missing_column sp_pearson sp_spearman sp_kendall min_obs meta other calc_tau f i :
  good_meta meta i basic_names -> ~ In "ref" (f_cols f) \/ ~ In other (f_cols f) -> (min_obs <= nrows f)%nat ->
  basic_calc sp_pearson sp_spearman sp_kendall min_obs meta other calc_tau f i = Err EKey.
Proof.
  intros G NI M. unfold basic_calc, basic_on. destruct (meta_calc_ok (basic_template meta) meta i _ (basic_has_base meta) G) as (d & E & _).
  rewrite E. cbn [bindR]. rewrite (proj2 (Nat.ltb_ge _ _) M).
  assert (NO : forall c, ~ In c (f_cols f) -> column f c = Err EKey).
  { intros c N. unfold column. assert (X : index_of (f_cols f) c = None); [|now rewrite X].
    revert N. generalize (f_cols f). intros l. induction l as [|a l IH]; intros N; [reflexivity|]. cbn [index_of].
    destruct (String.eqb_spec a c) as [->|_]; [exfalso; apply N; now left|]. rewrite IH by (intros I; apply N; now right). reflexivity. }
  destruct (in_dec string_dec "ref" (f_cols f)) as [I|I].
  - destruct NI as [NI|NI]; [contradiction|]. destruct (column_ok f "ref" I) as (x & -> & _). cbn [bindR]. rewrite NO by exact NI. reflexivity.
  - rewrite NO by exact I. reflexivity.
Qed.
Print Assumptions C58_missing_column.

(* the values of a column in the rows without missing values *)
Definition complete_column (f : frame) (k : nat) : list cell :=
  map (fun r => nth k (snd r) None) (filter (fun r => forallb notna (snd r)) (f_rows f)).

Lemma all_some_vals l u : all_some (rcol l) = Some u -> u = map Q2R (vals l).
Proof.
  revert u. induction l as [|[q|] l IH]; intros u H; cbn in H; [injection H as <-; reflexivity| |discriminate].
  fold (rcol l) in H. destruct (all_some (rcol l)) as [w|]; [|discriminate]. cbn in H. injection H as <-. cbn [vals map]. f_equal. auto.
Qed.
Lemma boot_values_in ppf cdf draws o x y names b m : boot_values ppf cdf draws o x y names = Ok b -> In m names ->
  exists t, with_bootstrapped_ci ppf cdf (fun v => v) (boot_metric m) x y (o_alpha o) "percentile" (o_boot_min o) (draws m) = Ok t /\
    In ([(m ++ "_ci_lower")%string], RNum (snd (fst t))) b /\ In ([(m ++ "_ci_upper")%string], RNum (snd t)) b.
Proof.
  revert b. induction names as [|a names IH]; intros b H I; [destruct I|]. cbn [boot_values] in H.
  destruct (with_bootstrapped_ci _ _ _ _ _ _ _ _ _ (draws a)) as [t|] eqn:E; [|discriminate]. cbn [bindR] in H.
  destruct (boot_values ppf cdf draws o x y names) as [b'|] eqn:E'; [|discriminate]. cbn [mapR] in H. injection H as <-.
  destruct I as [->|I].
  - exists t. split; [exact E|]. split; cbn; auto.
  - destruct (IH b' eq_refl I) as (t' & T1 & T2 & T3). exists t'. split; [exact T1|]. split; right; right; assumption.
Qed.

Section Pairwise.
Variables sp_spearman sp_kendall : list cell -> list cell -> option R * option R.
Variable min_obs : nat.
Variable meta : metadata.
Variable betainc : R -> R -> R -> R.
Variable norm_ppf : R -> R.
Variables t_ppf chi2_ppf : R -> nat -> R.
Variable ppf : R -> option R.
Variable cdf : R -> R.
Variable draws : string -> list (list nat).
Notation calc := (pairwise_calc sp_spearman sp_kendall min_obs meta betainc norm_ppf t_ppf chi2_ppf ppf cdf draws).

(* C71: the rank correlations, and the analytical 95 % intervals: lower bound under _ci_lower, upper bound
   under _ci_upper, NaN if the estimate is NaN *)
Theorem C71_intervals o f i :
  good_meta meta i (pairwise_used o) -> wf_frame f -> (2 <= List.length (f_cols f))%nat ->
  let d := observations f 0 1 in let n := List.length d in let x := complete_column f 0 in let y := complete_column f 1 in
  d <> [] -> (min_obs <= n)%nat -> o_bootstrap o = false \/ ((0 <= o_alpha o <= 2)%R /\ (o_boot_min o <= n)%nat) ->
  exists r, calc o f i = Ok r /\
    (o_spearman o = true -> holds r ["rho"] (RNum (fst (sp_spearman x y))) /\ holds r ["p_rho"] (RNum (snd (sp_spearman x y)))) /\
    (o_kendall o = true -> holds r ["tau"] (RNum (fst (sp_kendall x y))) /\ holds r ["p_tau"] (RNum (snd (sp_kendall x y)))) /\
    (o_analytical o = true ->
      (forall b, (1 < n)%nat -> bias d = Some b -> exists lo up, bias_ci t_ppf d b (1 / 20) = Some (lo, up) /\
         holds r ["BIAS_ci_lower"] (RNum (Some lo)) /\ holds r ["BIAS_ci_upper"] (RNum (Some up))) /\
      (forall u, ubrmsd d 0 = Some u -> holds r ["urmsd_ci_lower"] (RNum (fst (ubrmsd_ci chi2_ppf n u (1 / 20)))) /\
         holds r ["urmsd_ci_upper"] (RNum (snd (ubrmsd_ci chi2_ppf n u (1 / 20))))) /\
      (forall v p, pearson_of betainc d = Some (v, p) -> holds r ["R_ci_lower"] (RNum (fst (pearson_r_ci norm_ppf n v (1 / 20)))) /\
         holds r ["R_ci_upper"] (RNum (snd (pearson_r_ci norm_ppf n v (1 / 20))))) /\
      (pearson_of betainc d = None -> holds r ["R_ci_lower"] (RNum None) /\ holds r ["R_ci_upper"] (RNum None)) /\
      (forall v, o_spearman o = true -> fst (sp_spearman x y) = Some v -> holds r ["rho_ci_lower"] (RNum (fst (spearman_r_ci norm_ppf n v (1 / 20)))) /\
         holds r ["rho_ci_upper"] (RNum (snd (spearman_r_ci norm_ppf n v (1 / 20))))) /\
      (forall v, o_kendall o = true -> fst (sp_kendall x y) = Some v -> holds r ["tau_ci_lower"] (RNum (fst (kendall_tau_ci norm_ppf n v (1 / 20)))) /\
         holds r ["tau_ci_upper"] (RNum (snd (kendall_tau_ci norm_ppf n v (1 / 20)))))).
Proof.
  intros G W C2. cbv zeta. intros NE M B. set (d := observations f 0 1) in *.
  assert (P0 : (0 < List.length (f_cols f))%nat) by lia. assert (P1 : (1 < List.length (f_cols f))%nat) by lia.
  destruct (observations_complete f 0 1 W P0 P1) as [CO LN]. fold d in CO, LN.
  assert (POS : (0 < nrows (dropna f))%nat) by (rewrite <- LN; destruct d; [congruence|cbn; lia]).
  destruct (pairwise_ok sp_spearman sp_kendall min_obs meta betainc norm_ppf t_ppf chi2_ppf ppf cdf draws o f i G W C2) as (r & E & _ & _ & _ & _ & SUC).
  { right. rewrite <- LN in *. destruct B as [B|[B1 B2]]; [left; exact B|right; auto]. }
  exists r. split; [exact E|]. assert (M' : (min_obs <= nrows (dropna f))%nat) by lia. destruct (SUC M') as (_ & VAL & _). clear SUC E.
  change (complete_column f 0) with (col_at (dropna f) 0). change (complete_column f 1) with (col_at (dropna f) 1).
  set (x := col_at (dropna f) 0) in *. set (y := col_at (dropna f) 1) in *.
  assert (LX : List.length x = List.length d) by (unfold x, col_at; rewrite map_length; symmetry; exact LN).
  destruct (mse_decomposition_eq d NE) as (c & b0 & v0 & _ & EC & EB & EV & _ & _ & _ & SUM & VC & VB & VV).
  pose proof (welford_correct d NE) as WC. pose proof (msdiff_nonneg d) as MN.
  assert (MC : omap mse_corr_from_moments (moments_welford d) = Some c) by exact EC.
  assert (MV : omap mse_var_from_moments (moments_welford d) = Some v0) by exact EV.
  assert (MB : omap mse_bias_from_moments (moments_welford d) = Some b0).
  { rewrite WC. cbn [omap]. unfold mse_bias_from_moments. cbn [m_x m_y]. f_equal. symmetry. exact VB. }
  assert (MSE : max0 (obind (Some c) (fun c0 => obind (Some v0) (fun v1 => omap (fun b1 => (c0 + v1 + b1)%R) (Some b0)))) = Some (mean_square_diff d)).
  { cbn. f_equal. rewrite Rmax_left by lra. lra. }
  assert (UB : np_sqrt (mean_square_diff d - b0) = ubrmsd d 0).
  { rewrite (ubrmsd_correct d NE). assert (U : (mean_square_diff d - b0)%R = ub2 d). { rewrite msdiff_moments, VB by exact NE. unfold ub2. ring. }
    rewrite U. apply np_sqrt_some, ub2_nonneg, NE. }
  unfold pairwise_values in VAL. rewrite CO in VAL. cbv zeta in VAL. rewrite MC, MV, MB, MSE in VAL. cbn [obind omap] in VAL. rewrite LX, UB in VAL.
  split; [|split].
  - intros SP. rewrite SP in VAL. split; apply VAL; apply in_app_iff; right; apply in_app_iff; left; cbn; auto.
  - intros KE. rewrite KE in VAL. split; apply VAL; apply in_app_iff; right; apply in_app_iff; right; apply in_app_iff; left; cbn; auto.
  - intros AN. rewrite AN in VAL.
    assert (VA : forall k v, In (k, v) (ci_pair "BIAS" (split_ci (obind (moments_welford d) (fun m => bias_ci_from_moments t_ppf (1 / 20) m (List.length d))))
         ++ ci_pair "urmsd" (ci_of (ubrmsd d 0) (fun u => ubrmsd_ci chi2_ppf (List.length d) u (1 / 20)))
         ++ ci_pair "R" (ci_of (omap fst (pearson_of betainc d)) (fun v => pearson_r_ci norm_ppf (List.length d) v (1 / 20)))
         ++ (if o_spearman o then ci_pair "rho" (ci_of (fst (sp_spearman x y)) (fun v => spearman_r_ci norm_ppf (List.length d) v (1 / 20))) else [])
         ++ (if o_kendall o then ci_pair "tau" (ci_of (fst (sp_kendall x y)) (fun v => kendall_tau_ci norm_ppf (List.length d) v (1 / 20))) else [])) -> holds r k v).
    { intros k v I. apply VAL. apply in_app_iff. right. apply in_app_iff. right. apply in_app_iff. right. exact I. }
    clear VAL. split; [|split; [|split; [|split; [|split]]]].
    + intros b N2 EB0. 
      destruct (moments_welford d) as [m|] eqn:EM; [|congruence].
      pose proof (bias_ci_moments t_ppf d (1 / 20) m b N2 EM EB0) as EQ. cbn [obind] in VA. rewrite EQ in VA.
      rewrite bias_ci_value in * by exact N2. eexists _, _. split; [reflexivity|]. split; apply VA; apply in_app_iff; left; cbn; auto.
    + intros u EU. rewrite EU in VA. split; apply VA; apply in_app_iff; right; apply in_app_iff; left; cbn; auto.
    + intros v p EP. rewrite EP in VA. split; apply VA; apply in_app_iff; right; apply in_app_iff; right; apply in_app_iff; left; cbn; auto.
    + intros EP. rewrite EP in VA. split; apply VA; apply in_app_iff; right; apply in_app_iff; right; apply in_app_iff; left; cbn; auto.
    + intros v SP ES. rewrite SP, ES in VA. split; apply VA; do 3 (apply in_app_iff; right); apply in_app_iff; left; cbn; auto.
    + intros v KE ES. rewrite KE, ES in VA. split; apply VA; do 4 (apply in_app_iff; right); cbn; auto.
Qed.

(* C71: the bootstrapped intervals are the percentile intervals of the metric over samples of the complete
   observations *)
Theorem C71_bootstrapped_intervals o f i :
  good_meta meta i (pairwise_used o) -> wf_frame f -> (2 <= List.length (f_cols f))%nat ->
  let d := observations f 0 1 in
  d <> [] -> (min_obs <= List.length d)%nat -> o_bootstrap o = true -> (0 <= o_alpha o <= 2)%R -> (o_boot_min o <= List.length d)%nat ->
  exists r, calc o f i = Ok r /\
    forall m g, In (m, g) [("mse_var", mse_var); ("mse_corr", mse_corr); ("mse_bias", mse_bias); ("mse", msd); ("RMSD", fun p => rmsd p 0)] ->
    exists est lo up,
      with_bootstrapped_ci ppf cdf (fun v => v) (fun x y => g (combine x y)) (map fst d) (map snd d) (o_alpha o) "percentile" (o_boot_min o) (draws m) = Ok (est, lo, up) /\
      holds r [(m ++ "_ci_lower")%string] (RNum lo) /\ holds r [(m ++ "_ci_upper")%string] (RNum up).
Proof.
  intros G W C2. cbv zeta. intros NE M BO AL BM. set (d := observations f 0 1) in *.
  assert (P0 : (0 < List.length (f_cols f))%nat) by lia. assert (P1 : (1 < List.length (f_cols f))%nat) by lia.
  destruct (observations_complete f 0 1 W P0 P1) as [CO LN]. fold d in CO, LN.
  assert (POS : (0 < nrows (dropna f))%nat) by (rewrite <- LN; destruct d; [congruence|cbn; lia]).
  destruct (pairwise_ok sp_spearman sp_kendall min_obs meta betainc norm_ppf t_ppf chi2_ppf ppf cdf draws o f i G W C2) as (r & E & _ & _ & _ & _ & SUC).
  { right. right. rewrite <- LN in *. auto. }
  exists r. split; [exact E|]. assert (M' : (min_obs <= nrows (dropna f))%nat) by lia. destruct (SUC M') as (_ & _ & BOOT). destruct (BOOT BO) as (b & EB & VAL).
  assert (XY : map Q2R (vals (col_at (dropna f) 0)) = map fst d /\ map Q2R (vals (col_at (dropna f) 1)) = map snd d).
  { unfold complete in CO. destruct (all_some (rcol (col_at (dropna f) 0))) as [u|] eqn:EU; [|discriminate]. cbn [obind] in CO.
    destruct (all_some (rcol (col_at (dropna f) 1))) as [v|] eqn:EV; [|discriminate]. cbn [omap] in CO. assert (CD : combine u v = d) by congruence.
    assert (LU : forall l (w : list R), all_some (rcol l) = Some w -> List.length w = List.length l).
    { clear. induction l as [|[q|] l IH]; intros w H; cbn in H; [injection H as <-; reflexivity| |discriminate]. fold (rcol l) in H.
      destruct (all_some (rcol l)) as [w'|]; [|discriminate]. cbn in H. injection H as <-. cbn. f_equal. auto. }
    assert (LEN : List.length u = List.length v). { rewrite (LU _ _ EU), (LU _ _ EV). unfold col_at. now rewrite !map_length. }
    rewrite <- (all_some_vals _ _ EU), <- (all_some_vals _ _ EV), <- CD. clear - LEN. revert v LEN. induction u as [|a u IH]; intros [|c v] L; cbn in L; try lia; [split; reflexivity|].
    cbn [combine map fst snd]. destruct (IH v ltac:(lia)) as [H1 H2]. split; f_equal; assumption. }
  destruct XY as [X Y]. rewrite X, Y in EB.
  intros m g I. assert (IM : In m boot_names) by (cbn in I |- *; intuition congruence).
  destruct (boot_values_in ppf cdf draws o _ _ _ b m EB IM) as ([[est lo] up] & T1 & T2 & T3). cbn [fst snd] in T2, T3.
  exists est, lo, up. split; [|split; apply VAL; assumption].
  rewrite <- T1. cbn in I. destruct I as [EQ|[EQ|[EQ|[EQ|[EQ|[]]]]]]; injection EQ as <- <-; reflexivity.
Qed.
End Pairwise.
Print Assumptions C71_intervals.
Print Assumptions C71_bootstrapped_intervals.

(* cases that meet the hypotheses *)
Example C71_intervals_example :
  let o := Options true true true true 2 (1 / 20) in
  good_meta fields place (pairwise_used o) /\ wf_frame two_rows /\ observations two_rows 0 1 <> [] /\ List.length (observations two_rows 0 1) = 2%nat /\
  (0 <= o_alpha o <= 2)%R /\ complete_column two_rows 1 = [Some 2%Q; Some 4%Q].
Proof.
  cbv zeta. split; [apply place_good; cbn; intuition discriminate|]. split; [intros r I; cbn in I; destruct I as [<-|[<-|[<-|[]]]]; reflexivity|].
  split; [discriminate|]. split; [reflexivity|]. split; [cbn; lra|reflexivity].
Qed.
Example C58_basic_values_example : exists x y, column two_rows "ref" = Ok x /\ column two_rows "other" = Ok y /\ complete x y = None /\ ~ In "none" (f_cols two_rows).
Proof. do 2 eexists. split; [reflexivity|]. split; [reflexivity|]. split; [reflexivity|]. cbn. intuition discriminate. Qed.
