(* The names of the pairs in IntercomparisonMetrics and of the triples in TCMetrics (C58). *)
From Coq Require Import List Lia.
From Verif Require Import Base NamesModel NamesProofs DfMetricsModel DfMetricsSpec DfMetricsProofs CalcModel CalcProofs4 CalcPairsModel CalcPairsSpec CalcPairsProofs CalcPairsProofs2 CalcTcmProofs CalcPairsProps DfMetricsProps TightProps4.
Open Scope string_scope.
Open Scope list_scope.

(* the i-th column is shown under the i-th of the given names, or under its own name if none are given *)
Theorem C58_intercomparison_labels ref others nonref names lay : let cols := ref :: others in
  NoDup cols -> (forall l, names = Some l -> List.length l = List.length cols) -> intercomparison_init ref others nonref names = Ok lay ->
  forall p, In p (l_pairs lay) -> exists i j, (i < List.length cols)%nat /\ (j < List.length cols)%nat /\ fst p = [nth i cols ""; nth j cols ""] /\
     let shown := match names with None => cols | Some l => l end in snd p = (nth i shown "" ++ "_and_" ++ nth j shown "")%string.
Proof.
  intros cols N LN H. pose proof H as HI. unfold intercomparison_init in H. fold cols in H. set (shown := match names with Some n => n | None => cols end) in *.
  assert (LS : List.length shown = List.length cols) by (unfold shown; destruct names as [l|]; [apply LN; reflexivity|reflexivity]).
  set (mi := if nonref then MNone else MOne ref) in *.
  destruct (labels (combine cols shown) "_and_" (n_combinations String.eqb truthy cols 2 mi false)) as [ps|] eqn:E; [|discriminate]. cbn [mapR] in H. injection H as <-. cbn [l_pairs].
  intros p I. apply (pair_label cols shown "_and_" _ ps p N LS E); [|exact I].
  intros c Hc. unfold n_combinations in Hc. apply filter_In in Hc as [Hc _]. apply combinations_in in Hc as [S1 L2]. destruct c as [|x [|y [|z c]]]; try discriminate L2.
  assert (IX : In x cols) by (apply (sublist_in _ _ _ S1); left; reflexivity). assert (IY : In y cols) by (apply (sublist_in _ _ _ S1); right; left; reflexivity).
  apply (In_nth _ _ "") in IX as (i & Hi & <-). apply (In_nth _ _ "") in IY as (j & Hj & <-). exists i, j. auto.
Qed.
Print Assumptions C58_intercomparison_labels.

(* TCMetrics: the triples are those of the reference with two other datasets *)
Theorem C58_tcm_triples others nonref names lay : let cols := "ref" :: others in
  NoDup cols -> (forall l, names = Some l -> List.length l = List.length cols) -> tcm_init others nonref names = Ok lay ->
  (forall p, In p (map fst (l_triples lay)) <-> selection p cols /\ List.length p = 3%nat /\ In "ref" p) /\
  (forall p, In p (l_triples lay) -> exists i j k, (i < List.length cols)%nat /\ (j < List.length cols)%nat /\ (k < List.length cols)%nat /\
     fst p = [nth i cols ""; nth j cols ""; nth k cols ""] /\
     let shown := match names with None => cols | Some l => l end in snd p = (nth i shown "" ++ "_and_" ++ nth j shown "" ++ "_and_" ++ nth k shown "")%string).
Proof.
  intros cols N LN H. unfold tcm_init in H. fold cols in H. set (shown := match names with Some n => n | None => cols end) in *.
  assert (LS : List.length shown = List.length cols) by (unfold shown; destruct names as [l|]; [apply LN; reflexivity|reflexivity]).
  destruct (labels (combine cols shown) "_and_" (n_combinations String.eqb truthy cols 2 _ false)) as [ps|]; [|discriminate]. cbn [bindR] in H.
  destruct (labels (combine cols shown) "_and_" (n_combinations String.eqb truthy cols 3 (MList ["ref"]) false)) as [ts|] eqn:E; [|discriminate]. cbn [mapR] in H. injection H as <-. cbn [l_triples].
  assert (CM : forall p, In p (n_combinations String.eqb truthy cols 3 (MList ["ref"]) false) <-> selection p cols /\ List.length p = 3%nat /\ In "ref" p).
  { intros p. rewrite (C63_combinations String.eqb truthy String.eqb_eq). split; [intros (A & B & C)|intros (A & B & C)]; (split; [exact A|split; [exact B|]]).
    - apply C. left. reflexivity.
    - intros x [<-|[]]. exact C. }
  split.
  - intros p. rewrite (labels_fst _ _ _ _ E). apply CM.
  - intros p I. assert (IC : In (fst p) (map fst ts)) by (apply in_map, I). rewrite (labels_fst _ _ _ _ E) in IC. apply CM in IC as (S1 & L3 & _). apply selection_sublist in S1.
    destruct (labels_in _ _ _ _ p E I) as (l & G1 & G2). destruct (fst p) as [|x [|y [|z [|w c]]]]; try discriminate L3.
    assert (IX : In x cols) by (apply (sublist_in _ _ _ S1); left; reflexivity). assert (IY : In y cols) by (apply (sublist_in _ _ _ S1); right; left; reflexivity). assert (IZ : In z cols) by (apply (sublist_in _ _ _ S1); right; right; left; reflexivity).
    apply (In_nth _ _ "") in IX as (i & Hi & <-). apply (In_nth _ _ "") in IY as (j & Hj & <-). apply (In_nth _ _ "") in IZ as (k & Hk & <-).
    exists i, j, k. split; [exact Hi|]. split; [exact Hj|]. split; [exact Hk|]. split; [reflexivity|]. cbn [map seqR] in G1. rewrite !lut_nth in G1 by assumption. cbn [bindR mapR] in G1. assert (l = [nth i shown ""; nth j shown ""; nth k shown ""]) by congruence. subst l. exact G2.
Qed.
Print Assumptions C58_tcm_triples.

Example C58_ex_labels : exists lay, intercomparison_init "ref" ["k1"; "k2"] true (Some ["era5"; "ascat"; "smos"]) = Ok lay /\
  map snd (l_pairs lay) = ["era5_and_ascat"; "era5_and_smos"; "ascat_and_smos"] /\ NoDup ["ref"; "k1"; "k2"].
Proof. eexists. split; [vm_compute; reflexivity|]. split; [reflexivity|]. repeat constructor; cbn; intuition discriminate. Qed.
Example C58_ex_triples : exists lay, tcm_init ["k1"; "k2"; "k3"] true (Some ["era5"; "ascat"; "smos"; "smap"]) = Ok lay /\
  map snd (l_triples lay) = ["era5_and_ascat_and_smos"; "era5_and_ascat_and_smap"; "era5_and_smos_and_smap"].
Proof. eexists. split; [vm_compute; reflexivity|reflexivity]. Qed.
