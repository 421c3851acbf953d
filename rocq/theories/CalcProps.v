(* C58, C61, C71: the metric calculators. *)
From Coq Require Import Reals Qreals List Lra Lia.
From Verif Require Import Base GroupingModel RStats MetricsSpec MetricsModel RollingModel TcolModel ConfintModel ConfintProofs2.
From Verif Require Import CalcModel CalcSpec CalcProofs CalcProofs2 CalcProofs3 CalcProofs4.
Open Scope string_scope.
Open Scope list_scope.

(* ---- C58: location, status, number of observations ---- *)

Theorem C58_basic sp_pearson sp_spearman sp_kendall min_obs meta other calc_tau f i :
  good_meta meta i basic_names -> In "ref" (f_cols f) -> In other (f_cols f) ->
  exists d, basic_calc sp_pearson sp_spearman sp_kendall min_obs meta other calc_tau f i = Ok d /\
    identified d i /\ meta_copied d meta i /\
    ((nrows f < min_obs)%nat -> insufficient d (basic_template meta) meta) /\
    ((min_obs <= nrows f)%nat -> exists x y, column f "ref" = Ok x /\ column f other = Ok y /\ succeeded d (nrows f) /\
       (forall k v, In (k, v) (basic_values sp_pearson sp_spearman sp_kendall calc_tau f x y) -> holds d k v)).
Proof. exact (basic_ok sp_pearson sp_spearman sp_kendall min_obs meta other calc_tau f i). Qed.
Print Assumptions C58_basic.

Theorem C58_plus_mse sp_pearson sp_spearman sp_kendall min_obs meta other f i :
  good_meta meta i (basic_names ++ mse_names) -> In "ref" (f_cols f) -> In other (f_cols f) ->
  exists d, plus_mse_calc sp_pearson sp_spearman sp_kendall min_obs meta other f i = Ok d /\
    identified d i /\ meta_copied d meta i /\
    ((nrows f < min_obs)%nat -> insufficient d (plus_mse_template meta) meta) /\
    ((min_obs <= nrows f)%nat -> exists x y, column f "ref" = Ok x /\ column f other = Ok y /\ succeeded d (nrows f) /\
       (forall k v, In (k, v) (basic_values sp_pearson sp_spearman sp_kendall false f x y ++ mse_values x y) -> holds d k v)).
Proof. exact (plus_mse_ok sp_pearson sp_spearman sp_kendall min_obs meta other f i). Qed.
Print Assumptions C58_plus_mse.

Theorem C58_ft min_obs meta flag other f i :
  good_meta meta i ft_names -> In "ref" (f_cols f) -> In other (f_cols f) ->
  exists d, ft_calc min_obs meta flag other f i = Ok d /\ identified d i /\ meta_copied d meta i /\
    ((nrows f < min_obs)%nat -> insufficient d (ft_template meta) meta) /\
    ((min_obs <= nrows f)%nat -> succeeded d (nrows f)).
Proof.
  intros G CR CO. destruct (ft_ok min_obs meta flag other f i G CR CO) as (d & E & ID & MC & INS & SUC).
  exists d. split; [exact E|]. split; [exact ID|]. split; [exact MC|]. split; [exact INS|].
  intros L. destruct (SUC L) as (? & ? & _ & _ & S0 & _). exact S0.
Qed.
Print Assumptions C58_ft.

(* RollingMetrics: no number of observations *)
Theorem C58_rolling_partial min_obs meta rolling f i :
  good_meta meta i (rolling_names ++ ["time"]) -> (2 <= List.length (f_cols f))%nat ->
  exists d, rolling_calc min_obs meta rolling f i = Ok d /\ identified d i /\ meta_copied d meta i /\
    ((nrows f < min_obs)%nat -> insufficient d (rolling_template meta) meta) /\
    ((min_obs <= nrows f)%nat -> holds d ["status"] (RInt 0) /\
       (let out := rolling (map fst (f_rows f)) (col_at f 0) (col_at f 1) in
        ds_get d ["time"] = Some (Rows [map (fun r => RTime (fst r)) (f_rows f)]) /\
        ds_get d ["R"] = Some (Rows [map (fun o => RNum (omap fst (fst o))) out]) /\
        ds_get d ["p_R"] = Some (Rows [map (fun o => RNum (omap snd (fst o))) out]) /\
        ds_get d ["RMSD"] = Some (Rows [map (fun o => RNum (snd o)) out]))) /\
    ((forall m, meta = Some m -> ~ In "n_obs" (map fst m)) -> ds_get d ["n_obs"] = None).
Proof. exact (rolling_ok min_obs meta rolling f i). Qed.
Print Assumptions C58_rolling_partial.

(* PairwiseIntercomparisonMetrics: the complete rows are counted; bootstrapped intervals need
   bootstrap_min_obs observations *)
Theorem C58_pairwise sp_spearman sp_kendall min_obs meta betainc norm_ppf t_ppf chi2_ppf ppf cdf draws o f i :
  good_meta meta i (pairwise_used o) -> wf_frame f -> (2 <= List.length (f_cols f))%nat ->
  let n := List.length (observations f 0 1) in
  (n < min_obs)%nat \/ o_bootstrap o = false \/ ((0 <= o_alpha o <= 2)%R /\ (0 < n)%nat /\ (o_boot_min o <= n)%nat) ->
  exists d, pairwise_calc sp_spearman sp_kendall min_obs meta betainc norm_ppf t_ppf chi2_ppf ppf cdf draws o f i = Ok d /\
    identified d i /\ meta_copied d meta i /\
    ((n < min_obs)%nat -> insufficient d (pairwise_template meta o) meta /\ holds d ["n_obs"] (RInt (Z.of_nat n))) /\
    ((min_obs <= n)%nat -> succeeded d n).
Proof.
  intros G W C2. cbv zeta. assert (P0 : (0 < List.length (f_cols f))%nat) by lia. assert (P1 : (1 < List.length (f_cols f))%nat) by lia.
  destruct (observations_complete f 0 1 W P0 P1) as [_ LN]. rewrite LN. intros B.
  destruct (pairwise_ok sp_spearman sp_kendall min_obs meta betainc norm_ppf t_ppf chi2_ppf ppf cdf draws o f i G W C2 B) as (d & E & ID & MC & HN & INS & SUC).
  exists d. split; [exact E|]. split; [exact ID|]. split; [exact MC|]. split.
  - intros L. split; [exact (INS L)|exact HN].
  - intros L. split; [exact (proj1 (SUC L))|exact HN].
Qed.
Print Assumptions C58_pairwise.

(* TripleCollocationMetrics: the reference dataset comes first *)
Theorem C58_triple min_obs meta ppf cdf draws refname o f i :
  good_meta meta i ["n_obs"] -> In refname (f_cols f) -> NoDup (f_cols f) -> List.length (f_cols f) = 3%nat ->
  exists others d, let names := refname :: others in tc_calc min_obs meta ppf cdf draws refname false o f i = Ok d /\
    NoDup names /\ (forall x, In x names <-> In x (f_cols f)) /\
    identified d i /\ meta_copied d meta i /\ holds d ["n_obs"] (RInt (Z.of_nat (nrows f))) /\
    ((nrows f < min_obs)%nat -> insufficient d (tc_full meta false names) meta) /\
    ((min_obs <= nrows f)%nat -> holds d ["status"] (RInt 0) /\
       forall k j, (k < 3)%nat -> (j < 3)%nat ->
         holds d [nth j tc_names ""; nth k names ""] (RNum (nth k (component j (estimates f names)) None))).
Proof. exact (tc_ok min_obs meta ppf cdf draws refname o f i). Qed.
Print Assumptions C58_triple.

(* with bootstrapped intervals: fewer than bootstrap_min_obs observations give status 2, and as a plain
   number instead of an array *)
Theorem C58_triple_bootstrap min_obs meta ppf cdf draws refname o f i :
  good_meta meta i ["n_obs"] -> In refname (f_cols f) -> NoDup (f_cols f) -> List.length (f_cols f) = 3%nat ->
  (0 <= o_alpha o <= 1)%R -> wf_frame f -> (forall r c, In r (f_rows f) -> In c (snd r) -> notna c = true) -> (0 < nrows f)%nat ->
  exists others d, let names := refname :: others in tc_calc min_obs meta ppf cdf draws refname true o f i = Ok d /\
    NoDup names /\ (forall x, In x names <-> In x (f_cols f)) /\
    identified d i /\ meta_copied d meta i /\ holds d ["n_obs"] (RInt (Z.of_nat (nrows f))) /\
    ((nrows f < min_obs)%nat -> insufficient d (tc_full meta true names) meta) /\
    ((min_obs <= nrows f)%nat -> (nrows f < o_boot_min o)%nat -> ds_get d ["status"] = Some (Scalar (RInt 2))) /\
    ((min_obs <= nrows f)%nat -> (o_boot_min o <= nrows f)%nat -> holds d ["status"] (RInt 0) /\
       (forall k j, (k < 3)%nat -> (j < 3)%nat ->
         holds d [nth j tc_names ""; nth k names ""] (RNum (nth k (component j (estimates f names)) None))) /\
       exists x y z rows, seqR (map (column f) names) = Ok [x; y; z] /\ tc_rows x y z = Some rows /\
         forall k j, (k < 3)%nat -> (j < 3)%nat ->
           let v := vals (map (fun idx => nth k (component j (tc_of (take_rows rows idx) 0)) None) (draws "tcol")) in
           let ci := if andb (Nat.eqb j 2) (Nat.eqb k 0) then (Some 1%R, Some 1%R)
                     else match v with [] => (None, None) | _ => (Some (quantile v (o_alpha o / 2)), Some (quantile v (1 - o_alpha o / 2))) end in
           holds d [(nth j tc_names "" ++ "_ci_lower")%string; nth k names ""] (RNum (fst ci)) /\
           holds d [(nth j tc_names "" ++ "_ci_upper")%string; nth k names ""] (RNum (snd ci))).
Proof. exact (tc_boot_ok min_obs meta ppf cdf draws refname o f i). Qed.
Print Assumptions C58_triple_bootstrap.

(* ---- a case that meets the hypotheses ---- *)
Definition at_day (n : Z) : ts := mkTs (mkDate 2000 1 (1 + n)) 0.
Definition two_rows : frame :=
  Frame ["ref"; "other"] [(at_day 0, [Some 1%Q; Some 2%Q]); (at_day 1, [Some 3%Q; None]); (at_day 2, [Some 5%Q; Some 4%Q])].
Definition place : gpi_info := Info 7 (12 / 1)%R (48 / 1)%R (Some [("network", RText "A"); ("depth", RNum (Some 1%R))]).
Definition fields : metadata := Some [("network", RText ""); ("depth", RNum None)].
Lemma place_good used : ~ In "network" used -> ~ In "depth" used -> good_meta fields place used.
Proof.
  intros N1 N2 m E. injection E as <-. split; [cbn; nodup_strings|]. split.
  - intros k I J. cbn in I. destruct I as [<-|[<-|[]]]; apply in_app_iff in J as [J|J]; try (cbn in J; intuition discriminate);
      destruct J as [J|J]; try discriminate; contradiction.
  - eexists. split; [reflexivity|]. intros k I. cbn in I. destruct I as [<-|[<-|[]]]; eexists; reflexivity.
Qed.
Example C58_basic_example : good_meta fields place basic_names /\ In "ref" (f_cols two_rows) /\ In "other" (f_cols two_rows) /\ nrows two_rows = 3%nat.
Proof. split; [apply place_good; cbn; intuition discriminate|]. cbn. auto. Qed.
Example C58_pairwise_example :
  wf_frame two_rows /\ List.length (observations two_rows 0 1) = 2%nat /\ good_meta fields place (pairwise_used (Options true true true false 100 (1/20))).
Proof.
  split; [intros r I; cbn in I; destruct I as [<-|[<-|[<-|[]]]]; reflexivity|]. split; [reflexivity|].
  apply place_good; cbn; intuition discriminate.
Qed.

(* ---- C58 does not hold as stated ---- *)
Definition no_corr (x y : list cell) : option R * option R := (None, None).

(* BasicMetrics counts rows, not complete observations: not one complete observation, but status 0 and n_obs 2 *)
Theorem C58_complete_observations_refuted :
  exists f d, observations f 0 1 = [] /\
    basic_calc no_corr no_corr no_corr 2 None "other" false f (Info 1 0 0 None) = Ok d /\ succeeded d 2.
Proof.
  exists (Frame ["ref"; "other"] [(at_day 0, [Some 1%Q; None]); (at_day 1, [None; Some 2%Q])]).
  eexists. split; [reflexivity|]. split; [reflexivity|]. split; reflexivity.
Qed.
Print Assumptions C58_complete_observations_refuted.

(* with bootstrapped intervals PairwiseIntercomparisonMetrics raises ValueError between min_obs and
   bootstrap_min_obs observations *)
Theorem C58_bootstrap_refuted sp_spearman sp_kendall min_obs meta betainc norm_ppf t_ppf chi2_ppf ppf cdf draws o f i :
  good_meta meta i (pairwise_used o) -> wf_frame f -> (2 <= List.length (f_cols f))%nat -> o_bootstrap o = true ->
  (min_obs <= List.length (observations f 0 1))%nat -> (List.length (observations f 0 1) < o_boot_min o)%nat ->
  pairwise_calc sp_spearman sp_kendall min_obs meta betainc norm_ppf t_ppf chi2_ppf ppf cdf draws o f i = Err EValue.
Proof.
  intros G W C2 HB. assert (P0 : (0 < List.length (f_cols f))%nat) by lia. assert (P1 : (1 < List.length (f_cols f))%nat) by lia.
  destruct (observations_complete f 0 1 W P0 P1) as [_ LN]. rewrite LN.
  exact (pairwise_boot_short sp_spearman sp_kendall min_obs meta betainc norm_ppf t_ppf chi2_ppf ppf cdf draws o f i G W C2 HB).
Qed.
Print Assumptions C58_bootstrap_refuted.

(* RollingMetrics reports no number of observations *)
Theorem C58_rolling_refuted rolling min_obs f i : (2 <= List.length (f_cols f))%nat ->
  exists d, rolling_calc min_obs None rolling f i = Ok d /\ ds_get d ["n_obs"] = None.
Proof.
  intros C2. destruct (rolling_ok min_obs None rolling f i) as (d & E & _ & _ & _ & _ & N); [intros m E; discriminate|exact C2|].
  exists d. split; [exact E|]. apply N. discriminate.
Qed.
Print Assumptions C58_rolling_refuted.

(* ---- C61: the four freeze/thaw classes ---- *)

(* the row i belongs to the class *)
Definition in_class (ssf temp : list cell) (S0 T : cell -> Prop) (i : nat) : Prop :=
  exists s t, nth_error ssf i = Some s /\ nth_error temp i = Some t /\ S0 s /\ T t.

Theorem C61_classes min_obs meta flag other f i :
  good_meta meta i ft_names -> In "ref" (f_cols f) -> In other (f_cols f) -> (min_obs <= nrows f)%nat ->
  exists d ssf temp a b c e,
    ft_calc min_obs meta flag other f i = Ok d /\ column f "ref" = Ok ssf /\ column f other = Ok temp /\
    holds d ["ssf_fr_temp_un"] (RNum (Some (INR a))) /\ holds d ["ssf_fr_temp_fr"] (RNum (Some (INR b))) /\
    holds d ["ssf_un_temp_fr"] (RNum (Some (INR c))) /\ holds d ["ssf_un_temp_un"] (RNum (Some (INR e))) /\
    holds d ["n_obs"] (RInt (Z.of_nat (nrows f))) /\
    counted (in_class ssf temp (frozen_flag flag) not_below_zero) a /\
    counted (in_class ssf temp (frozen_flag flag) below_zero) b /\
    counted (in_class ssf temp (fun s => ~ frozen_flag flag s) below_zero) c /\
    counted (in_class ssf temp (fun s => ~ frozen_flag flag s) not_below_zero) e /\
    (* the classes and the missing temperatures exhaust the observations *)
    (a + b + c + e + List.length (filter (fun t => negb (notna t)) temp) = nrows f)%nat /\
    ((forall t, In t temp -> t <> None) -> (a + b + c + e = nrows f)%nat).
Proof.
  intros G CR CO M. destruct (ft_ok min_obs meta flag other f i G CR CO) as (d & E & _ & _ & _ & SUC).
  destruct (SUC M) as (ssf & temp & ES & ET & [SS SN] & VAL). exists d, ssf, temp.
  destruct (column_ok f "ref" CR) as (ssf' & ES' & LS). assert (ssf' = ssf) by congruence. subst ssf'.
  destruct (column_ok f other CO) as (temp' & ET' & LT). assert (temp' = temp) by congruence. subst temp'.
  assert (L : List.length ssf = List.length temp) by congruence.
  pose proof (ft_partition (c_eqb flag) ssf temp L) as P.
  do 4 eexists. split; [exact E|]. split; [exact ES|]. split; [exact ET|].
  split; [apply VAL; unfold ft_values; cbn; left; reflexivity|]. split; [apply VAL; unfold ft_values; cbn; right; left; reflexivity|].
  split; [apply VAL; unfold ft_values; cbn; right; right; left; reflexivity|]. split; [apply VAL; unfold ft_values; cbn; right; right; right; left; reflexivity|].
  split; [exact SN|].
  assert (NEG : forall s, negb (c_eqb flag s) = true <-> ~ frozen_flag flag s).
  { intros s. rewrite <- c_eqb_spec. destruct (c_eqb flag s); cbn; split; intros; try discriminate; auto; congruence. }
  split; [|split; [|split; [|split; [|split]]]].
  1-4: refine (counted_ext _ _ _ _ (ft_class _ _ ssf temp L)); intros j; unfold in_class; split; intros (s & t & A1 & A2 & A3 & A4); exists s, t;
    repeat split; try assumption; first [apply c_eqb_spec; assumption|apply NEG; assumption|apply c_neg_spec; assumption|apply c_nonneg_spec; assumption].
  - rewrite <- LT. exact P.
  - intros NM. rewrite <- LT. rewrite (BaseProofs.filter_none (fun t => negb (notna t)) temp) in P.
    + cbn [List.length] in P. lia.
    + intros t I. destruct t; [reflexivity|]. exfalso. exact (NM None I eq_refl).
Qed.
Print Assumptions C61_classes.
(* two frozen, one thawed observation and one without temperature *)
Definition ft_frame : frame :=
  Frame ["ref"; "t"] [(at_day 0, [Some 2%Q; Some (-5)%Q]); (at_day 1, [Some 2%Q; Some 1%Q]); (at_day 2, [Some 1%Q; Some 8%Q]); (at_day 3, [Some 1%Q; None])].
Example C61_example : exists d, ft_calc 4 None 2 "t" ft_frame place = Ok d /\
  holds d ["ssf_fr_temp_fr"] (RNum (Some (INR 1))) /\ holds d ["ssf_fr_temp_un"] (RNum (Some (INR 1))) /\
  holds d ["ssf_un_temp_fr"] (RNum (Some (INR 0))) /\ holds d ["ssf_un_temp_un"] (RNum (Some (INR 1))) /\ holds d ["n_obs"] (RInt 4).
Proof. eexists. repeat split; reflexivity. Qed.

(* ---- C71: PairwiseIntercomparisonMetrics stores the pairwise metrics of the complete observations ---- *)
Theorem C71_pairwise sp_spearman sp_kendall min_obs meta betainc norm_ppf t_ppf chi2_ppf ppf cdf draws o f i :
  good_meta meta i (pairwise_used o) -> wf_frame f -> (2 <= List.length (f_cols f))%nat ->
  let d := observations f 0 1 in
  d <> [] -> (min_obs <= List.length d)%nat ->
  o_bootstrap o = false \/ ((0 <= o_alpha o <= 2)%R /\ (o_boot_min o <= List.length d)%nat) ->
  exists r, pairwise_calc sp_spearman sp_kendall min_obs meta betainc norm_ppf t_ppf chi2_ppf ppf cdf draws o f i = Ok r /\
    holds r ["BIAS"] (RNum (bias d)) /\ holds r ["mse"] (RNum (msd d)) /\ holds r ["mse_corr"] (RNum (mse_corr d)) /\
    holds r ["mse_bias"] (RNum (mse_bias d)) /\ holds r ["mse_var"] (RNum (mse_var d)) /\ holds r ["RMSD"] (RNum (rmsd d 0)) /\
    holds r ["RSS"] (RNum (Some (RSS d))) /\ holds r ["urmsd"] (RNum (ubrmsd d 0)) /\
    holds r ["R"] (RNum (omap fst (pearson_of betainc d))) /\ holds r ["p_R"] (RNum (omap snd (pearson_of betainc d))).
Proof.
  intros G W C2. cbv zeta. intros NE M B.
  assert (P0 : (0 < List.length (f_cols f))%nat) by lia. assert (P1 : (1 < List.length (f_cols f))%nat) by lia.
  destruct (observations_complete f 0 1 W P0 P1) as [_ LN].
  assert (POS : (0 < nrows (dropna f))%nat) by (rewrite <- LN; destruct (observations f 0 1); [congruence|cbn; lia]).
  destruct (pairwise_ok sp_spearman sp_kendall min_obs meta betainc norm_ppf t_ppf chi2_ppf ppf cdf draws o f i G W C2) as (r & E & _ & _ & _ & _ & SUC).
  { right. rewrite <- LN in *. destruct B as [B|[B1 B2]]; [left; exact B|right; auto]. }
  exists r. split; [exact E|]. rewrite LN in M. destruct (SUC M) as (_ & VAL & _).
  destruct (pairwise_metric_values sp_spearman sp_kendall betainc norm_ppf t_ppf chi2_ppf o f W C2 NE) as (I1 & I2 & I3 & I4 & I5 & I6 & I7 & I8 & I9 & I10).
  repeat split; apply VAL; assumption.
Qed.
Print Assumptions C71_pairwise.
(* the observations of the example: (1, 2) and (5, 4) *)
Example C71_example : observations two_rows 0 1 = [(Q2R 1, Q2R 2); (Q2R 5, Q2R 4)].
Proof. reflexivity. Qed.
