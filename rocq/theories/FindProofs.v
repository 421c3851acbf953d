(* Which fields a calculation leaves as they were in the template. *)
From Coq Require Import Reals Qreals List Lra Lia.
From Verif Require Import Base BaseProofs RStats MetricsModel RollingModel TcolModel ConfintModel DfMetricsModel CalcModel CalcPairsModel CalcSpec CalcProofs CalcProofs3.
Open Scope string_scope.
Open Scope list_scope.

Lemma set0_keeps d k v d' k' : set0 d k v = Ok d' -> k <> k' -> ds_get d' k' = ds_get d k'.
Proof.
  unfold set0. intros H N. destruct (ds_get d k) as [[[|c r]| |]|]; try discriminate. injection H as <-. apply get_set_other, N.
Qed.
Lemma assigns_keeps l : forall d d' k, assigns d l = Ok d' -> ~ In k (map fst l) -> ds_get d' k = ds_get d k.
Proof.
  induction l as [|[a v] l IH]; intros d d' k H N; [injection H as <-; reflexivity|]. cbn [assigns] in H.
  destruct (set0 d a v) as [d1|] eqn:E; [|discriminate]. cbn [bindR] in H.
  rewrite (IH d1 d' k H) by (intros J; apply N; right; exact J). apply (set0_keeps d a v); [exact E|]. intros ->. apply N. left. reflexivity.
Qed.
Lemma meta_steps_keeps i fs : forall d d' k, meta_steps i d fs = Ok d' -> (forall s, k = [s] -> ~ In s fs) -> ds_get d' k = ds_get d k.
Proof.
  induction fs as [|a fs IH]; intros d d' k H N; [injection H as <-; reflexivity|]. cbn [meta_steps] in H.
  destruct (meta_step i d a) as [d1|] eqn:E; [|discriminate]. cbn [bindR] in H.
  rewrite (IH d1 d' k H) by (intros s ES J; apply (N s ES); right; exact J).
  unfold meta_step in E. destruct (i_meta i) as [m|]; [|discriminate]. destruct (meta_get m a) as [v|]; [|discriminate].
  apply (set0_keeps d [a] v); [exact E|]. intros <-. apply (N a eq_refl). left. reflexivity.
Qed.
(* the metadata fields do not contain the name *)
Definition not_meta (meta : metadata) (s : string) : Prop := forall m, meta = Some m -> ~ In s (map fst m).
Lemma meta_calc_keeps t meta i d s : meta_calc t meta i = Ok d -> ~ In s location_keys -> not_meta meta s -> ds_get d [s] = ds_get t [s].
Proof.
  unfold meta_calc. intros H NL NM. destruct (assigns t _) as [d1|] eqn:E; [|discriminate]. cbn [bindR] in H.
  assert (K : ds_get d1 [s] = ds_get t [s]).
  { apply (assigns_keeps _ _ _ _ E). cbn. intros [X|[X|[X|[]]]]; apply NL; injection X as <-; cbn; auto. }
  destruct meta as [m|]; [|injection H as <-; exact K]. rewrite <- K. apply (meta_steps_keeps i (map fst m)); [exact H|].
  intros s' ES. injection ES as <-. apply NM. reflexivity.
Qed.

Lemma template_get base names s : In s names -> s <> "n_obs" -> ds_get (ds_update base (metric_template names)) [s] = Some nan.
Proof.
  intros I0 N. destruct (get_update_any (metric_template names) base [s]) as (v & V & ->).
  - rewrite metric_template_keys. apply in_keys. exact I0.
  - apply in_map_iff in V as (m & EQ & _). injection EQ as -> <-. destruct (String.eqb_spec s "n_obs"); [contradiction|reflexivity].
Qed.

Lemma pairwise_unset sp_spearman sp_kendall min_obs meta betainc norm_ppf t_ppf chi2_ppf ppf cdf draws o f i d s :
  pairwise_calc sp_spearman sp_kendall min_obs meta betainc norm_ppf t_ppf chi2_ppf ppf cdf draws o f i = Ok d ->
  In s (pairwise_names o) -> ~ In s (value_names o ++ boot_value_names o) -> not_meta meta s -> holds d [s] (RNum None).
Proof.
  intros H I0 NV NM. unfold pairwise_calc in H.
  destruct (meta_calc _ _ _) as [d0|] eqn:E0; [|discriminate]. cbn [bindR] in H.
  assert (NL : ~ In s location_keys). { intros J. apply (used_location o s J). apply in_app_iff. left. exact I0. }
  assert (NN : s <> "n_obs"). { intros ->. apply (used_n_obs o I0). }
  assert (NS : s <> "status"). { intros ->. apply (used_status o). apply in_app_iff. left. exact I0. }
  pose proof (meta_calc_keeps _ _ _ _ s E0 NL NM) as K0. unfold pairwise_template in K0. rewrite template_get in K0; [|apply in_app_iff; left; exact I0|exact NN].
  destruct (set0 d0 _ _) as [d1|] eqn:E1; [|discriminate]. cbn [bindR] in H.
  assert (K1 : ds_get d1 [s] = Some nan). { rewrite (set0_keeps _ _ _ _ [s] E1) by congruence. exact K0. }
  assert (ST : forall d2 z, ds_get d2 [s] = Some nan -> set_status d2 z = Ok d -> holds d [s] (RNum None)).
  { intros d2 z K S0. unfold holds. rewrite (set0_keeps _ _ _ _ [s] S0) by congruence. exact K. }
  destruct (Nat.ltb _ _); [exact (ST d1 _ K1 H)|].
  destruct (column_at _ 0) as [x|]; [|discriminate]. cbn [bindR] in H. destruct (column_at _ 1) as [y|]; [|discriminate]. cbn [bindR] in H.
  destruct (assigns d1 _) as [d2|] eqn:E2; [|discriminate]. cbn [bindR] in H.
  assert (K2 : ds_get d2 [s] = Some nan).
  { rewrite (assigns_keeps _ _ _ [s] E2); [exact K1|]. rewrite values_keys. intros J. apply in_keys in J. apply NV, in_app_iff. left. exact J. }
  destruct (if o_bootstrap o then _ else _) as [b|] eqn:EB; [|discriminate]. cbn [bindR] in H.
  destruct (assigns d2 b) as [d3|] eqn:E3; [|discriminate]. cbn [bindR] in H.
  assert (KB : forall names b, boot_values ppf cdf draws o (map Q2R (vals x)) (map Q2R (vals y)) names = Ok b ->
     map fst b = flat_map (fun m => map (fun s => [s]) (ci_names m)) names).
  { clear. induction names as [|m r IH]; intros b H; [injection H as <-; reflexivity|]. cbn [boot_values] in H.
    destruct (with_bootstrapped_ci _ _ _ _ _ _ _ _ _ _) as [t|]; [|discriminate]. cbn [bindR] in H.
    destruct (boot_values ppf cdf draws o _ _ r) as [b'|] eqn:E; [|discriminate]. injection H as <-. change (map fst (ci_pair m (snd (fst t), snd t) ++ b') = flat_map (fun m => map (fun s => [s]) (ci_names m)) (m :: r)). rewrite map_app, (IH b' eq_refl). reflexivity. }
  apply (ST d3 OK); [|exact H]. rewrite (assigns_keeps _ _ _ [s] E3); [exact K2|].
  unfold boot_value_names in NV. destruct (o_bootstrap o).
  - rewrite (KB _ _ EB), flat_keys. intros J. apply in_keys in J. apply NV, in_app_iff. right. exact J.
  - injection EB as <-. intros [].
Qed.

(* the names of the values of a pair: what pair_values assigns *)
Lemma seqR_keys {A B C} (g : A -> res B) (h : B -> C) (k : A -> C) l : forall r, seqR (map g l) = Ok r ->
  (forall a b, In a l -> g a = Ok b -> h b = k a) -> map h r = map k l.
Proof.
  induction l as [|a l IH]; intros r H K; cbn in H; [injection H as <-; reflexivity|]. destruct (g a) as [b|] eqn:E; [|discriminate]. cbn [bindR] in H.
  destruct (seqR (map g l)) as [r'|] eqn:E'; [|discriminate]. cbn [mapR bindR] in H. injection H as <-. cbn [map]. f_equal.
  - apply K; [left; reflexivity|exact E].
  - apply IH; [reflexivity|]. intros x y J. apply K. right. exact J.
Qed.
Lemma pair_values_keys lay named v k : pair_values lay named = Ok v -> In k (map fst v) ->
  exists m p, In m (map fst named) /\ In p (l_pairs lay) /\ k = [p_key m (snd p)].
Proof.
  unfold pair_values. destruct (seqR _) as [r|] eqn:E; [|discriminate]. cbn [mapR]. intros H I0. injection H as <-.
  revert r E I0. generalize (l_pairs lay). intros ps. induction ps as [|p ps IH]; intros r E I0; cbn in E; [injection E as <-; destruct I0|].
  destruct (pair_entries named (fst p)) as [es|] eqn:EP; [|discriminate]. cbn [mapR bindR] in E.
  destruct (seqR (map _ ps)) as [r'|] eqn:E'; [|discriminate]. cbn [mapR bindR] in E. injection E as <-.
  cbn [List.concat] in I0. rewrite map_app in I0. apply in_app_iff in I0 as [I0|I0].
  - rewrite map_map in I0. cbn [fst] in I0. apply in_map_iff in I0 as (e & <- & J). exists (fst e), p. split; [|split; [left; reflexivity|reflexivity]].
    unfold pair_entries in EP. assert (KE : map fst es = map fst named).
    { apply (seqR_keys (fun nd => mapR (fun v => (fst nd, v)) (lookup_pair (snd nd) (fst p))) fst fst named es EP).
      intros a b _ H. destruct (lookup_pair _ _); [|discriminate]. injection H as <-. reflexivity. }
    rewrite <- KE. apply in_map, J.
  - destruct (IH r' eq_refl I0) as (m & q & A & B & C). exists m, q. split; [exact A|]. split; [right; exact B|exact C].
Qed.

(* two names that start differently *)
Definition first_letter (s : string) : option Ascii.ascii := match s with String a _ => Some a | EmptyString => None end.
Lemma first_letter_p_key m l : m <> "" -> first_letter (p_key m l) = first_letter m.
Proof. destruct m; [congruence|reflexivity]. Qed.

Lemma pair_template_get meta lay p m : In p (l_pairs lay) -> In m pair_names -> ds_get (pair_template meta lay) [p_key m (snd p)] = Some nan.
Proof.
  intros IP IM. unfold pair_template.
  destruct (get_update_any (flat_map (fun p => map (fun m => ([p_key m (snd p)], nan)) pair_names) (l_pairs lay))
    (ds_update (base_template meta) (metric_template ["n_obs"])) [p_key m (snd p)]) as (v & V & ->).
  - apply in_map_iff. exists ([p_key m (snd p)], nan). split; [reflexivity|]. apply in_flat_map. exists p. split; [exact IP|]. apply in_map_iff. exists m. auto.
  - apply in_flat_map in V as (q & _ & V). apply in_map_iff in V as (m' & EQ & _). injection EQ as _ <-. reflexivity.
Qed.

(* the metric of a field can be read off its name *)
Definition metric_names : list string := ["R"; "p_R"; "BIAS"; "RMSD"; "mse"; "mse_corr"; "mse_bias"; "mse_var"; "RSS"; "urmsd"; "rho"; "p_rho"; "tau"; "p_tau"].
Lemma metric_of_key s m a b : In s metric_names -> In m metric_names -> p_key s a = p_key m b -> s = m.
Proof.
  unfold p_key. intros J1 J2. cbn in J1, J2.
  repeat (destruct J1 as [<-|J1]; [repeat (destruct J2 as [<-|J2]; [cbn; first [reflexivity|discriminate]|]); destruct J2|]). destruct J1.
Qed.

Lemma calc_keeps m_pearson m_spearman m_kendall m_bias m_ubrmsd m_rmsd m_mse m_rss scale_mean_std min_obs meta lay calc_rho calc_tau f i d p m :
  intercomparison_calc m_pearson m_spearman m_kendall m_bias m_ubrmsd m_rmsd m_mse m_rss scale_mean_std min_obs meta lay calc_rho calc_tau f i = Ok d ->
  In p (l_pairs lay) -> not_meta meta (p_key m (snd p)) ->
  (In m ["rho"; "p_rho"] /\ calc_rho = false \/ In m ["tau"; "p_tau"] /\ calc_tau = false) ->
  holds d [p_key m (snd p)] (RNum None).
Proof.
  intros H IP NM CASES. unfold intercomparison_calc in H.
  assert (IM : In m pair_names) by (destruct CASES as [[J _]|[J _]]; cbn in J |- *; intuition (subst; auto)).
  assert (FL : forall s, In s ("n_obs" :: "status" :: location_keys) -> p_key m (snd p) <> s).
  { intros s J EQ. pose proof (f_equal first_letter EQ) as FE. pose proof (f_equal String.length EQ) as LE.
    destruct CASES as [[C _]|[C _]]; cbn in C; destruct C as [<-|[<-|[]]]; cbn in J;
    destruct J as [<-|[<-|[<-|[<-|[<-|[]]]]]]; cbn in FE; try discriminate; cbn in LE; lia. }
  destruct (meta_calc _ _ _) as [d0|] eqn:E0; [|discriminate]. cbn [bindR] in H.
  assert (K0 : ds_get d0 [p_key m (snd p)] = Some nan).
  { rewrite (meta_calc_keeps _ _ _ _ _ E0); [apply pair_template_get; assumption| |exact NM]. intros J. apply (FL (p_key m (snd p))); [right; right; exact J|reflexivity]. }
  destruct (set0 d0 _ _) as [d1|] eqn:E1; [|discriminate]. cbn [bindR] in H.
  assert (K1 : ds_get d1 [p_key m (snd p)] = Some nan).
  { rewrite (set0_keeps _ _ _ _ [p_key m (snd p)] E1); [exact K0|]. intros EQ. apply (FL "n_obs"); [left; reflexivity|congruence]. }
  assert (ST : forall d2 z, ds_get d2 [p_key m (snd p)] = Some nan -> set_status d2 z = Ok d -> holds d [p_key m (snd p)] (RNum None)).
  { intros d2 z K S0. unfold holds. rewrite (set0_keeps _ _ _ _ [p_key m (snd p)] S0); [exact K|]. intros EQ. apply (FL "status"); [right; left; reflexivity|congruence]. }
  destruct (Nat.ltb _ _); [exact (ST d1 _ K1 H)|].
  destruct (select _ _) as [data|]; [|discriminate]. cbn [bindR] in H.
  destruct (pair_tables _ _ _ _ _ _ _ _ _ _ _ _) as [named|] eqn:ET; [|discriminate]. cbn [bindR] in H.
  destruct (pair_values lay named) as [v|] eqn:EV; [|discriminate]. cbn [bindR] in H.
  destruct (assigns d1 v) as [d2|] eqn:E2; [|discriminate]. cbn [bindR] in H.
  assert (NAMES : forall s, In s (map fst named) -> In s ["R"; "p_R"; "BIAS"; "RMSD"; "mse"; "mse_corr"; "mse_bias"; "mse_var"; "RSS"; "urmsd"; "rho"; "p_rho"; "tau"; "p_tau"] /\
     (calc_rho = false -> ~ In s ["rho"; "p_rho"]) /\ (calc_tau = false -> ~ In s ["tau"; "p_tau"])).
  { unfold pair_tables in ET. repeat (match type of ET with bindR ?x _ = _ => destruct x eqn:?; [cbn [bindR] in ET|discriminate] end).
    match type of ET with Ok ?u = Ok ?w => assert (EN : u = w) by congruence end. clear ET. intros s J. rewrite <- EN, !map_app, !in_app_iff in J.
    assert (FST : forall (a : list string) (b : list (list (key * option (option R)))), In s (map fst (combine a b)) -> In s a).
    { clear. intros u w. revert w. induction u as [|x u IHu]; intros [|y w] J0; cbn in J0 |- *; [destruct J0|destruct J0|destruct J0|]. destruct J0 as [<-|J0]; eauto. }
    assert (EMPTY : forall a : list string, map fst (combine a (@nil (list (key * option (option R))))) = []) by (intros [|? ?]; reflexivity).
    destruct J as [J|[J|J]].
    - apply FST in J. split; [cbn in J |- *; intuition|]. cbn in J. split; intros _ K; cbn in K; intuition (subst; discriminate).
    - split; [apply FST in J; cbn in J |- *; intuition|]. split.
      + intros CR. match goal with X : context [if calc_rho then _ else _] |- _ => rewrite CR in X; injection X as <- end. rewrite EMPTY in J. destruct J.
      + intros _ K. apply FST in J. cbn in J, K. intuition (subst; discriminate).
    - split; [apply FST in J; cbn in J |- *; intuition|]. split.
      + intros _ K. apply FST in J. cbn in J, K. intuition (subst; discriminate).
      + intros CR. match goal with X : context [if calc_tau then _ else _] |- _ => rewrite CR in X; injection X as <- end. rewrite EMPTY in J. destruct J. }
  apply (ST d2 OK); [|exact H]. rewrite (assigns_keeps _ _ _ [p_key m (snd p)] E2); [exact K1|].
  intros J. destruct (pair_values_keys _ _ _ _ EV J) as (s & q & IS & IQ & EQ). destruct (NAMES s IS) as (N1 & N2 & N3).
  assert (s = m) by (apply (metric_of_key s m (snd q) (snd p)); [exact N1|destruct CASES as [[C0 _]|[C0 _]]; cbn in C0 |- *; tauto|congruence]). subst s. destruct CASES as [[C R0]|[C R0]]; [exact (N2 R0 C)|exact (N3 R0 C)].
Qed.
