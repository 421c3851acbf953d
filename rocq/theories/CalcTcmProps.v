(* C58: TCMetrics. *)
From Coq Require Import Reals Qreals List Lra Lia.
From Verif Require Import Base BaseProofs Calendar NamesModel NamesProofs GroupingModel RStats MetricsModel RollingModel TcolModel TcolProofs ConfintModel
  ConfintProofs2 StoredProofs DfMetricsModel DfMetricsSpec DfMetricsProofs DfMetricsProofs2 DfMetricsProps.
From Verif Require Import CalcModel CalcSpec CalcProofs CalcProofs2 CalcProofs3 CalcProofs4 CalcPairsModel CalcPairsSpec CalcPairsProofs CalcPairsProofs2 CalcTcmProofs CalcPairsProps.
Open Scope string_scope.
Open Scope list_scope.

Section Tcm.
Variables m_pearson m_spearman m_kendall m_bias m_ubrmsd m_rmsd m_mse m_rss : list (list cell) -> res (list (option R)).
Variable scale_mean_std : frame -> res frame.
Variable min_obs : nat.
Variable meta : metadata.
Notation tables := (pair_tables m_pearson m_spearman m_kendall m_bias m_ubrmsd m_rmsd m_mse m_rss scale_mean_std).
Notation calc := (tcm_calc m_pearson m_spearman m_kendall m_bias m_ubrmsd m_rmsd m_mse m_rss scale_mean_std min_obs meta).
Hypothesis scale_keeps_columns : forall g h, scale_mean_std g = Ok h -> f_cols h = f_cols g.

(* C58 for TCMetrics: location and metadata, the number of observations, status 1 and the template's values
   with too few observations, else status 0, the pairwise metrics and, for each triple with the reference and
   each of its datasets, the triple collocation estimates of the three columns. *)
Theorem C58_tcm others nonref names for_ref lay template calc_tau f i :
  tcm_init others nonref names = Ok lay -> tcm_template meta lay for_ref = Ok template -> NoDup ("ref" :: others) -> f_cols f = "ref" :: others ->
  (2 <= List.length others)%nat -> (1 <= min_obs)%nat ->
  (forall r, In r (f_rows f) -> List.length (snd r) = List.length (f_cols f) /\ Forall (fun x => x <> None) (snd r)) ->
  good_meta meta i ("n_obs" :: pair_keys lay ++ triple_keys lay) -> NoDup (map snd (l_pairs lay)) -> NoDup (triple_keys lay) ->
  forall named, ((min_obs <= nrows f)%nat -> tables true calc_tau f = Ok named) ->
  exists d, calc lay template calc_tau f i = Ok d /\ identified d i /\ meta_copied d meta i /\ holds d ["n_obs"] (RInt (Z.of_nat (nrows f))) /\
    ((nrows f < min_obs)%nat -> insufficient d template meta) /\
    ((min_obs <= nrows f)%nat -> succeeded d (nrows f) /\
      (forall nd p v, In nd named -> In p (l_pairs lay) -> lookup_pair (snd nd) (fst p) = Ok v -> holds d [p_key (fst nd) (snd p)] v) /\
      (forall x y label v0 v1 v2 snr err beta p name, In (["ref"; x; y], label) (l_triples lay) ->
         column f "ref" = Ok v0 -> column f x = Ok v1 -> column f y = Ok v2 -> tcol_method 0 [v0; v1; v2] = Ok [snr; err; beta] ->
         (p < 3)%nat -> for_ref = true \/ p <> 0%nat -> lut_get (l_lut lay) (nth p ["ref"; x; y] "") = Ok name ->
         holds d [t_key "snr" name label] (RNum (nth p snr None)) /\ holds d [t_key "err_std" name label] (RNum (nth p err None)) /\
         holds d [t_key "beta" name label] (RNum (nth p beta None))) /\
      (forall k, ds_get template k = None -> ds_get d k = None)).
Proof.
  intros HI HT NC FC L2 MO FULL G NL NT named TB.
  destruct (tcm_ok m_pearson m_spearman m_kendall m_bias m_ubrmsd m_rmsd m_mse m_rss scale_mean_std min_obs meta others nonref names for_ref lay template calc_tau f i
    HI HT NC FC L2 MO FULL G NL NT scale_keeps_columns named TB) as (d & E & ID & MC & HN & INS & SUC).
  exists d. split; [exact E|]. split; [exact ID|]. split; [exact MC|]. split; [exact HN|]. split; [exact INS|]. intros L. destruct (SUC L) as (ST & PV & TV & OUT).
  split; [split; [exact ST|exact HN]|]. split; [|split; [|exact OUT]].
  - intros nd p v IN IP EV. specialize (PV nd p IN IP). unfold value_at in PV. rewrite EV in PV. exact PV.
  - intros x y label v0 v1 v2 snr err beta p name IT C0 C1 C2 TM P3 FR LU.
    destruct (tcm_init_ok others nonref names lay HI NC) as (LC & _ & TN & _).
    assert (LEN : List.length snr = 3%nat /\ List.length err = 3%nat /\ List.length beta = 3%nat).
    { revert TM. unfold tcol_method, tcol_metrics, tcol_metrics_from_cov. cbn [Nat.ltb Nat.leb].
      match goal with |- context [np_cov ?r] => destruct (np_cov r) end; cbn [mapR fst snd]; intros TM; injection TM as <- <- <-; auto. }
    assert (VALS : forall q part, nth q [snr; err; beta] [] = part -> (q < 3)%nat -> In (nth p ["ref"; x; y] "", nth p part None) (triple_of f ["ref"; x; y] q)).
    { intros q part EP Q3. assert (TO : triple_of f ["ref"; x; y] q = combine ["ref"; x; y] part).
      { unfold triple_of. cbn [map]. unfold colv. rewrite C0, C1, C2, TM, EP. reflexivity. }
      rewrite TO. assert (LP : List.length part = 3%nat) by (rewrite <- EP; destruct q as [|[|[|q]]]; [tauto|tauto|tauto|lia]).
      rewrite <- combine_nth by (rewrite LP; reflexivity). apply nth_In. rewrite combine_length, LP. cbn; lia. }
    assert (NM : name_of lay (nth p ["ref"; x; y] "") = name) by (unfold name_of; rewrite LU; reflexivity).
    assert (NR : for_ref = true \/ nth p ["ref"; x; y] "" <> "ref").
    { destruct FR as [->|P0]; [auto|right]. apply (in_map fst) in IT. rewrite TN in IT. apply in_map_iff in IT as (c & EC & IC). apply ref_combs_in in IC as (a & b & -> & A1 & B1).
      cbn [fst map] in EC. injection EC as _ EX EY. rewrite LC in *.
      assert (Y : forall j, (0 < j < List.length ("ref" :: others))%nat -> nth j ("ref" :: others) "" <> "ref").
      { intros j J EQ. assert (j = 0)%nat; [|lia]. apply (proj1 (NoDup_nth ("ref" :: others) "") NC j 0%nat); [lia|cbn; lia|exact EQ]. }
      destruct p as [|[|[|p]]]; [congruence| | |lia]; cbn [nth].
      - rewrite <- EX. apply (Y a). lia.
      - rewrite <- EY. apply (Y b). lia. }
    assert (GO : forall q m part, nth q [snr; err; beta] [] = part -> In (q, m) (combine (seq 0 3) tc_names) -> holds d [t_key m name label] (RNum (nth p part None))).
    { intros q m part EP IQ. assert (Q3 : (q < 3)%nat) by (apply in_combine_l in IQ; apply in_seq in IQ; lia).
      specialize (TV (["ref"; x; y], label) (q, m) (nth p ["ref"; x; y] "", nth p part None) IT IQ (VALS q part EP Q3) NR). cbn [fst snd] in TV. rewrite NM in TV. exact TV. }
    split; [apply (GO 0%nat); cbn; auto|]. split; [apply (GO 1%nat)|apply (GO 2%nat)]; cbn; auto.
Qed.
End Tcm.
Print Assumptions C58_tcm.

(* the triples: the reference and two of the other columns, in order *)
Theorem C58_tcm_triples others nonref names lay : tcm_init others nonref names = Ok lay -> NoDup ("ref" :: others) ->
  forall t, In t (map fst (l_triples lay)) <-> exists a b, t = ["ref"; nth a others ""; nth b others ""] /\ (a < b)%nat /\ (b < List.length others)%nat.
Proof.
  intros HI NC t. destruct (tcm_init_ok others nonref names lay HI NC) as (LC & _ & TN & _). rewrite TN, LC, in_map_iff. split.
  - intros (c & <- & I). apply ref_combs_in in I as (a & b & -> & A1 & B1). cbn [List.length] in B1. destruct a as [|a]; [lia|]. destruct b as [|b]; [lia|].
    exists a, b. split; [reflexivity|]. lia.
  - intros (a & b & -> & AB & B). exists [0%nat; S a; S b]. split; [reflexivity|]. apply ref_combs_in. exists (S a), (S b). split; [reflexivity|]. cbn [List.length]. lia.
Qed.
(* the estimates always exist *)
Theorem C58_tcm_estimates x y z : exists snr err beta, tcol_method 0 [x; y; z] = Ok [snr; err; beta].
Proof.
  unfold tcol_method, tcol_metrics, tcol_metrics_from_cov. cbn [Nat.ltb Nat.leb].
  match goal with |- context [np_cov ?r] => destruct (np_cov r) end; cbn [mapR fst snd]; do 3 eexists; reflexivity.
Qed.
Print Assumptions C58_tcm_triples.

(* a case that meets the hypotheses: three datasets besides the reference, three triples *)
Definition four : frame := Frame ["ref"; "k1"; "k2"; "k3"]
  (map (fun n => (mkTs (mkDate 2000 1 (1 + n)) 0, [Some (inject_Z n); Some (inject_Z (n * n)); Some (inject_Z (n mod 3)); Some (inject_Z (- n))])) [0; 1; 2; 3; 4; 5; 6; 7; 8; 9]%Z).
Example C58_tcm_example : exists lay template,
  tcm_init ["k1"; "k2"; "k3"] false None = Ok lay /\ tcm_template None lay false = Ok template /\
  l_triples lay = [(["ref"; "k1"; "k2"], "ref_and_k1_and_k2"); (["ref"; "k1"; "k3"], "ref_and_k1_and_k3"); (["ref"; "k2"; "k3"], "ref_and_k2_and_k3")] /\
  NoDup (map snd (l_pairs lay)) /\ NoDup (triple_keys lay) /\ good_meta None here ("n_obs" :: pair_keys lay ++ triple_keys lay) /\
  (forall r, In r (f_rows four) -> List.length (snd r) = List.length (f_cols four) /\ Forall (fun x => x <> None) (snd r)) /\
  ds_get template ["snr_k1_between_ref_and_k1_and_k2"] = Some nan /\ ds_get template ["snr_ref_between_ref_and_k1_and_k2"] = None.
Proof.
  do 2 eexists. split; [reflexivity|]. split; [reflexivity|]. split; [reflexivity|]. split; [cbn; nodup_strings|]. split; [apply nodupb_ok; vm_compute; reflexivity|].
  split; [intros m M; discriminate|]. split; [|split; reflexivity].
  intros r I. cbn in I. repeat (destruct I as [<-|I]; [split; [reflexivity|repeat (constructor; [discriminate|]); constructor]|]). destruct I.
Qed.
