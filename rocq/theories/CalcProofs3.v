(* PairwiseIntercomparisonMetrics and TripleCollocationMetrics. *)
From Coq Require Import Reals Qreals List Lra Lia.
From Verif Require Import Base BaseProofs GroupingModel RStats RStatsProofs MetricsSpec MetricsModel MetricsProofs RollingModel TcolModel ConfintModel
  ConfintProofs ConfintProofs2 DfMetricsProofs.
From Verif Require Import CalcModel CalcSpec CalcProofs CalcProofs2.
Open Scope string_scope.
Open Scope list_scope.

Lemma assigns_app a : forall d b, assigns d (a ++ b) = bindR (assigns d a) (fun d' => assigns d' b).
Proof.
  induction a as [|[k v] a IH]; intros d b; [reflexivity|]. cbn [app assigns]. destruct (set0 d k v); cbn [bindR]; [apply IH|reflexivity].
Qed.

Lemma percentile_total bs m alpha : (0 <= alpha <= 2)%R -> exists lu, percentile_bs_ci bs m alpha = Ok lu.
Proof.
  intros A. unfold percentile_bs_ci, bind2, nanquantile.
  repeat (match goal with |- context [Rlt_dec ?a ?b] => destruct (Rlt_dec a b); [exfalso; lra|] end).
  destruct (vals bs); cbn [bindR]; eexists; reflexivity.
Qed.
Lemma boot_total ppf cdf store metric x y alpha minimum draws : (0 <= alpha <= 2)%R -> x <> [] -> (minimum <= List.length x)%nat ->
  exists t, with_bootstrapped_ci ppf cdf store metric x y alpha "percentile" minimum draws = Ok t.
Proof.
  intros A NE M. unfold with_bootstrapped_ci. rewrite (proj2 (Nat.ltb_ge _ _) M).
  destruct x as [|x0 x]; [congruence|]. cbn [List.length]. cbv zeta. cbn [String.eqb].
  destruct (percentile_total (map (fun idx => metric (take (x0 :: x) idx) (take y idx)) draws) (metric (x0 :: x) y) alpha A) as [lu E].
  change ("percentile" =? "percentile")%string with true. cbv iota. rewrite E. eexists. reflexivity.
Qed.
Lemma boot_too_few ppf cdf store metric x y alpha method minimum draws : (List.length x < minimum)%nat ->
  with_bootstrapped_ci ppf cdf store metric x y alpha method minimum draws = Err EValue.
Proof. intros M. unfold with_bootstrapped_ci. rewrite (proj2 (Nat.ltb_lt _ _) M). reflexivity. Qed.

Section Pairwise.
Variables sp_spearman sp_kendall : list cell -> list cell -> option R * option R.
Variable min_obs : nat.
Variable meta : metadata.
Variable betainc : R -> R -> R -> R.
Variable norm_ppf : R -> R.
Variables t_ppf chi2_ppf : R -> nat -> R.
Variable ppf : R -> option R.
Variable cdf : R -> R.
Variable draws : string -> list (list nat).

Lemma boot_values_ok o x y names : (0 <= o_alpha o <= 2)%R -> x <> [] -> (o_boot_min o <= List.length x)%nat ->
  exists b, boot_values ppf cdf draws o x y names = Ok b /\
    map fst b = flat_map (fun m => map (fun s => [s]) (ci_names m)) names.
Proof.
  intros A NE M. induction names as [|m r IH]; [eexists; split; reflexivity|]. cbn [boot_values].
  destruct (boot_total ppf cdf (fun v => v) (boot_metric m) x y (o_alpha o) (o_boot_min o) (draws m) A NE M) as [t E].
  rewrite E. cbn [bindR]. destruct IH as (b & EB & KB). rewrite EB. cbn [mapR]. eexists. split; [reflexivity|].
  rewrite map_app, KB. reflexivity.
Qed.

Lemma pairwise_has_base o : has_base (pairwise_template meta o) meta.
Proof. apply has_base_update; [apply metric_template_single|apply base_has]. Qed.

Definition pairwise_used o : list string := pairwise_names o ++ ["n_obs"].
Notation values o x y := (pairwise_values sp_spearman sp_kendall betainc norm_ppf t_ppf chi2_ppf o x y).

Ltac options o := destruct o as [sp ke an bo bm al]; destruct sp, ke, an, bo.

Definition value_names o : list string :=
  ["BIAS"; "mse_corr"; "mse_var"; "mse_bias"; "mse"; "RSS"; "RMSD"; "urmsd"; "R"; "p_R"]
  ++ (if o_spearman o then ["rho"; "p_rho"] else []) ++ (if o_kendall o then ["tau"; "p_tau"] else [])
  ++ (if o_analytical o then ci_names "BIAS" ++ ci_names "urmsd" ++ ci_names "R"
       ++ (if o_spearman o then ci_names "rho" else []) ++ (if o_kendall o then ci_names "tau" else []) else []).
Definition boot_value_names o : list string := if o_bootstrap o then flat_map ci_names boot_names else [].
Lemma values_keys o x y : map fst (values o x y) = map (fun s => [s]) (value_names o).
Proof. options o; reflexivity. Qed.
Definition nodupb (l : list string) : bool := (fix go l := match l with [] => true | x :: r => andb (negb (existsb (String.eqb x) r)) (go r) end) l.
Lemma nodupb_ok l : nodupb l = true -> NoDup l.
Proof.
  induction l as [|x r IH]; [constructor|]. cbn. intros E. apply andb_prop in E as [E1 E2]. constructor; [|apply IH, E2].
  intros I. apply Bool.negb_true_iff in E1. assert (existsb (String.eqb x) r = true) by (apply existsb_exists; exists x; split; [exact I|apply String.eqb_refl]). congruence.
Qed.
Definition inclb (a b : list string) : bool := forallb (fun x => existsb (String.eqb x) b) a.
Lemma inclb_ok a b : inclb a b = true -> incl a b.
Proof.
  intros E x I. unfold inclb in E. rewrite forallb_forall in E. specialize (E x I). apply existsb_exists in E as (y & J & EQ).
  apply String.eqb_eq in EQ. subst. exact J.
Qed.
Definition notinb (x : string) (l : list string) : bool := negb (existsb (String.eqb x) l).
Lemma notinb_ok x l : notinb x l = true -> ~ In x l.
Proof. intros E I. apply Bool.negb_true_iff in E. assert (existsb (String.eqb x) l = true) by (apply existsb_exists; exists x; split; [exact I|apply String.eqb_refl]). congruence. Qed.

Lemma all_value_names_nodup o : NoDup (value_names o ++ boot_value_names o).
Proof. apply nodupb_ok. options o; vm_compute; reflexivity. Qed.
Lemma all_value_names_incl o : incl (value_names o ++ boot_value_names o) (pairwise_names o).
Proof. apply inclb_ok. options o; vm_compute; reflexivity. Qed.
Lemma used_status o : ~ In "status" (pairwise_used o).
Proof. apply notinb_ok. options o; vm_compute; reflexivity. Qed.
Lemma used_n_obs o : ~ In "n_obs" (pairwise_names o).
Proof. apply notinb_ok. options o; vm_compute; reflexivity. Qed.
Lemma used_location o s : In s location_keys -> ~ In s (pairwise_used o).
Proof. intros I. apply notinb_ok. cbn in I. destruct I as [<-|[<-|[<-|[]]]]; options o; vm_compute; reflexivity. Qed.

Lemma keys_nodup l : NoDup l -> NoDup (map (fun s : string => [s] : key) l).
Proof. intros N. apply NamesProofs.nodup_map_inj; [intros a b _ _ E; congruence|exact N]. Qed.

Lemma flat_keys names : flat_map (fun m => map (fun s : string => [s] : key) (ci_names m)) names = map (fun s => [s]) (flat_map ci_names names).
Proof. induction names as [|m r IH]; [reflexivity|]. cbn [flat_map]. rewrite map_app, IH. reflexivity. Qed.

Lemma vals_rows {A} (g : A -> Q) l : vals (map (fun x => Some (g x)) l) = map g l.
Proof. induction l as [|x l IH]; [reflexivity|]. cbn. rewrite IH. reflexivity. Qed.

Lemma pairwise_ok o f i :
  good_meta meta i (pairwise_used o) -> wf_frame f -> (2 <= List.length (f_cols f))%nat ->
  (nrows (dropna f) < min_obs)%nat \/ o_bootstrap o = false \/
    ((0 <= o_alpha o <= 2)%R /\ (0 < nrows (dropna f))%nat /\ (o_boot_min o <= nrows (dropna f))%nat) ->
  exists d, pairwise_calc sp_spearman sp_kendall min_obs meta betainc norm_ppf t_ppf chi2_ppf ppf cdf draws o f i = Ok d /\
    identified d i /\ meta_copied d meta i /\ holds d ["n_obs"] (RInt (Z.of_nat (nrows (dropna f)))) /\
    ((nrows (dropna f) < min_obs)%nat -> insufficient d (pairwise_template meta o) meta) /\
    ((min_obs <= nrows (dropna f))%nat -> holds d ["status"] (RInt 0) /\
       (forall k v, In (k, v) (values o (col_at (dropna f) 0) (col_at (dropna f) 1)) -> holds d k v) /\
       (o_bootstrap o = true -> exists b, boot_values ppf cdf draws o (map Q2R (vals (col_at (dropna f) 0))) (map Q2R (vals (col_at (dropna f) 1))) boot_names = Ok b /\
          forall k v, In (k, v) b -> holds d k v)).
Proof.
  intros G W C2 BOOT. unfold pairwise_calc.
  destruct (meta_calc_ok (pairwise_template meta o) meta i _ (pairwise_has_base o) G) as (d & E & PREP). rewrite E. cbn [bindR].
  assert (SN : single (pairwise_template meta o) ["n_obs"]).
  { apply names_single. apply in_app_iff. right. left. reflexivity. }
  destruct (set_n_obs d _ meta i (pairwise_used o) (count (dropna f)) PREP G) as (d1 & E1 & PREP1 & HN).
  { apply in_app_iff. right. left. reflexivity. }
  { exact SN. }
  rewrite E1. cbn [bindR]. clear E E1 PREP d.
  destruct (Nat.ltb_spec (nrows (dropna f)) min_obs) as [L|L].
  - destruct (finish_insufficient d1 _ meta i _ PREP1 (pairwise_has_base o) G) as (d' & E' & ID & MC & INS & KEEP).
    exists d'. split; [exact E'|]. split; [exact ID|]. split; [exact MC|]. split; [unfold holds; rewrite KEEP by discriminate; exact HN|].
    split; [intros _; exact INS|lia].
  - destruct BOOT as [BOOT|BOOT]; [lia|].
    unfold column_at. change (f_cols (dropna f)) with (f_cols f). rewrite !(proj2 (Nat.ltb_lt _ _)) by lia. cbn [bindR].
    set (x := col_at (dropna f) 0). set (y := col_at (dropna f) 1).
    assert (B : exists b, (if o_bootstrap o then boot_values ppf cdf draws o (map Q2R (vals x)) (map Q2R (vals y)) boot_names else Ok []) = Ok b /\
      map fst b = map (fun s => [s]) (boot_value_names o)).
    { unfold boot_value_names. destruct BOOT as [->|(A & P & M)]; [eexists; split; reflexivity|]. destruct (o_bootstrap o); [|eexists; split; reflexivity].
      destruct (col_complete f 0 W ltac:(lia)) as (g & Eg & _).
      assert (LX : List.length (map Q2R (vals x)) = nrows (dropna f)) by (unfold x; rewrite Eg, vals_rows, !map_length; reflexivity).
      destruct (boot_values_ok o (map Q2R (vals x)) (map Q2R (vals y)) boot_names A) as (b & EB & KB).
      - intros Z. rewrite Z in LX. cbn [List.length] in LX. lia.
      - rewrite LX. exact M.
      - exists b. split; [exact EB|]. rewrite KB. apply flat_keys. }
    destruct B as (b & EB & KB).
    assert (KEYS : map fst (values o x y ++ b) = map (fun s => [s]) (value_names o ++ boot_value_names o)).
    { rewrite !map_app, KB, values_keys. reflexivity. }
    destruct (finish_ok d1 (pairwise_template meta o) meta i (pairwise_used o) (values o x y ++ b) PREP1 (pairwise_has_base o) G)
      as (d0 & d' & E0 & E1 & ID & MC & SS & VAL & SG & KEEP).
    + intros k v I. assert (IK : In k (map (fun s => [s]) (value_names o ++ boot_value_names o))).
      { rewrite <- KEYS. apply in_map_iff. exists (k, v). auto. }
      apply in_map_iff in IK as (s & <- & I'). apply all_value_names_incl in I'. split.
      * apply names_single. apply in_app_iff. left. exact I'.
      * intros s' EQ. assert (s' = s) by congruence. subst s'. apply in_app_iff. left. exact I'.
    + apply used_status.
    + apply used_location.
    + rewrite KEYS. apply keys_nodup, all_value_names_nodup.
    + exists d'. rewrite assigns_app in E0. destruct (assigns d1 (values o x y)) as [d2|e]; [|discriminate]. cbn [bindR] in E0 |- *.
      rewrite EB. cbn [bindR]. rewrite E0. cbn [bindR]. split; [exact E1|]. split; [exact ID|]. split; [exact MC|]. split.
      { unfold holds. rewrite KEEP; [exact HN|discriminate|]. rewrite KEYS. intros I. apply (proj1 (in_keys _ _)) in I.
        apply all_value_names_incl in I. exact (used_n_obs o I). }
      split; [lia|]. intros _. split; [exact SS|]. split.
      * intros k v I. apply VAL. apply in_app_iff. left. exact I.
      * intros HB. rewrite HB in EB. exists b. split; [exact EB|]. intros k v I. apply VAL. apply in_app_iff. right. exact I.
Qed.

(* bootstrapped intervals of a short series: the calculation raises ValueError *)
Lemma pairwise_boot_short o f i :
  good_meta meta i (pairwise_used o) -> wf_frame f -> (2 <= List.length (f_cols f))%nat -> o_bootstrap o = true ->
  (min_obs <= nrows (dropna f))%nat -> (nrows (dropna f) < o_boot_min o)%nat ->
  pairwise_calc sp_spearman sp_kendall min_obs meta betainc norm_ppf t_ppf chi2_ppf ppf cdf draws o f i = Err EValue.
Proof.
  intros G W C2 HB M S0. unfold pairwise_calc.
  destruct (meta_calc_ok (pairwise_template meta o) meta i _ (pairwise_has_base o) G) as (d & E & PREP). rewrite E. cbn [bindR].
  assert (SN : single (pairwise_template meta o) ["n_obs"]).
  { apply names_single. apply in_app_iff. right. left. reflexivity. }
  destruct (set_n_obs d _ meta i (pairwise_used o) (count (dropna f)) PREP G) as (d1 & E1 & PREP1 & HN).
  { apply in_app_iff. right. left. reflexivity. }
  { exact SN. }
  rewrite E1. cbn [bindR]. rewrite (proj2 (Nat.ltb_ge _ _) M).
  unfold column_at. change (f_cols (dropna f)) with (f_cols f). rewrite !(proj2 (Nat.ltb_lt _ _)) by lia. cbn [bindR].
  set (x := col_at (dropna f) 0). set (y := col_at (dropna f) 1).
  destruct (assigns_ok (values o x y) d1) as (d2 & E2 & _).
  { intros e I. destruct PREP1 as (SG & _). apply SG. assert (IK : In (fst e) (map fst (values o x y))) by (apply in_map; exact I).
    rewrite values_keys in IK. apply in_map_iff in IK as (s & <- & I'). apply names_single. apply in_app_iff. left.
    apply all_value_names_incl. apply in_app_iff. left. exact I'. }
  rewrite E2. cbn [bindR]. rewrite HB. destruct (col_complete f 0 W ltac:(lia)) as (g & Eg & _).
  cbn [boot_values boot_names]. rewrite boot_too_few; [reflexivity|].
  unfold x. rewrite Eg, vals_rows, !map_length. exact S0.
Qed.

(* the stored metrics are the pairwise metrics *)
Lemma pairwise_metric_values o f : wf_frame f -> (2 <= List.length (f_cols f))%nat ->
  let d := observations f 0 1 in d <> [] ->
  let l := values o (col_at (dropna f) 0) (col_at (dropna f) 1) in
  In (["BIAS"], RNum (bias d)) l /\ In (["mse"], RNum (msd d)) l /\ In (["mse_corr"], RNum (mse_corr d)) l /\
  In (["mse_bias"], RNum (mse_bias d)) l /\ In (["mse_var"], RNum (mse_var d)) l /\ In (["RMSD"], RNum (rmsd d 0)) l /\
  In (["RSS"], RNum (Some (RSS d))) l /\ In (["urmsd"], RNum (ubrmsd d 0)) l /\
  In (["R"], RNum (omap fst (pearson_of betainc d))) l /\ In (["p_R"], RNum (omap snd (pearson_of betainc d))) l.
Proof.
  intros W C2 d NE l. destruct (observations_complete f 0 1 W ltac:(lia) ltac:(lia)) as [CO LN].
  assert (LX : List.length (col_at (dropna f) 0) = List.length d) by (unfold col_at; rewrite map_length; unfold d; rewrite LN; reflexivity).
  destruct (mse_decomposition_eq d NE) as (c & b & v & _ & EC & EB & EV & _ & _ & _ & SUM & VC & VB & VV).
  pose proof (welford_correct d NE) as WC. pose proof (msdiff_nonneg d) as MN. pose proof (msdiff_RSS d NE) as MR.
  assert (MC : omap mse_corr_from_moments (moments_welford d) = Some c) by exact EC.
  assert (MV : omap mse_var_from_moments (moments_welford d) = Some v) by exact EV.
  assert (MB : omap mse_bias_from_moments (moments_welford d) = Some b).
  { rewrite WC. cbn [omap]. unfold mse_bias_from_moments. cbn [m_x m_y]. f_equal. symmetry. exact VB. }
  assert (MSE : max0 (obind (Some c) (fun c0 => obind (Some v) (fun v0 => omap (fun b0 => (c0 + v0 + b0)%R) (Some b)))) = Some (mean_square_diff d)).
  { cbn. f_equal. rewrite Rmax_left by lra. lra. }
  unfold l, pairwise_values. rewrite CO. fold d. cbv zeta.
  rewrite MC, MV, MB, MSE, EC, EB, EV. cbn [obind omap]. rewrite LX.
  rewrite (rmsd_correct d NE), (ubrmsd_correct d NE), (bias_correct d NE), (msd_correct d NE), WC. cbn [omap m_x m_y].
  rewrite (np_sqrt_some (mean_square_diff d)) by exact MN.
  assert (UB : np_sqrt (mean_square_diff d - b) = Some (sqrt (ub2 d))).
  { assert (U : (mean_square_diff d - b)%R = ub2 d). { rewrite msdiff_moments, VB by exact NE. unfold ub2. ring. }
    rewrite U. apply np_sqrt_some, ub2_nonneg, NE. }
  rewrite UB. change (INR (List.length d)) with (rlen d). rewrite MR.
  repeat split; apply in_app_iff; left; cbn; auto 12.
Qed.
End Pairwise.
