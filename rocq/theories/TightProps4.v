(* The names of the pairs in HSAF_Metrics and TCMetrics (C58, C59), the columns of a triple (C52), the
   error correlation of extended collocation (C64), and the levels of the BCa interval (C65). *)
From Coq Require Import Reals Qreals List Lra Lia.
From Verif Require Import Base BaseProofs Calendar NamesModel NamesProofs GroupingModel RStats MetricsModel RollingModel TcolModel TcolSpec TcolProofs TcolProofs2 TcolProps ConfintModel
  ConfintProofs2 StoredProofs DfMetricsModel DfMetricsSpec DfMetricsProofs DfMetricsProofs2 DfMetricsProps.
From Verif Require Import CalcModel CalcSpec CalcProofs CalcProofs2 CalcProofs3 CalcProofs4 CalcPairsModel CalcPairsSpec CalcPairsProofs CalcPairsProofs2 CalcTcmProofs CalcPairsProps.
Open Scope string_scope.
Open Scope list_scope.

(* ---- names: the i-th column is reported under the i-th dataset name ---- *)
Lemma lut_nth cols : forall names i, NoDup cols -> List.length names = List.length cols -> (i < List.length cols)%nat ->
  lut_get (combine cols names) (nth i cols "") = Ok (nth i names "").
Proof.
  induction cols as [|c cols IH]; intros names i N L H; [cbn in H; lia|]. destruct names as [|n names]; [discriminate|].
  inversion N as [|? ? N1 N2]; subst. unfold lut_get. cbn [combine find fst]. destruct i as [|i]; cbn [nth].
  - rewrite String.eqb_refl. reflexivity.
  - destruct (String.eqb_spec c (nth i cols "")) as [E|NE].
    + exfalso. apply N1. rewrite E. apply nth_In. cbn in H. lia.
    + apply (IH names i N2); [cbn in L; lia|cbn in H; lia].
Qed.
Lemma pair_label cols names sep combs ps p : NoDup cols -> List.length names = List.length cols ->
  labels (combine cols names) sep combs = Ok ps -> (forall c, In c combs -> exists i j, (i < List.length cols)%nat /\ (j < List.length cols)%nat /\ c = [nth i cols ""; nth j cols ""]) ->
  In p ps -> exists i j, (i < List.length cols)%nat /\ (j < List.length cols)%nat /\ fst p = [nth i cols ""; nth j cols ""] /\ snd p = (nth i names "" ++ sep ++ nth j names "")%string.
Proof.
  intros N L E C I. assert (IC : In (fst p) combs) by (rewrite <- (labels_fst _ _ _ _ E); apply in_map, I).
  destruct (C _ IC) as (i & j & Hi & Hj & Ep). destruct (labels_in _ _ _ _ p E I) as (l & S1 & S2).
  exists i, j. split; [exact Hi|]. split; [exact Hj|]. split; [exact Ep|]. rewrite Ep in S1. cbn [map seqR] in S1.
  rewrite !lut_nth in S1 by assumption. cbn [bindR mapR] in S1. assert (l = [nth i names ""; nth j names ""]) by congruence. subst l. exact S2.
Qed.

(* HSAF_Metrics: three pairs, reported under the names of their own datasets *)
Theorem C59_pair_names o1 o2 a b c : NoDup ["ref"; o1; o2] ->
  exists lay, hsaf_init o1 o2 (Some [a; b; c]) = Ok lay /\ l_cols lay = ["ref"; o1; o2] /\ l_names lay = [a; b; c] /\
    l_pairs lay = [(["ref"; o1], a ++ "_" ++ b); (["ref"; o2], a ++ "_" ++ c); ([o1; o2], b ++ "_" ++ c)]%string.
Proof.
  intros N. unfold hsaf_init. set (cols := ["ref"; o1; o2]) in *. set (names := [a; b; c]).
  assert (G : forall i, (i < 3)%nat -> lut_get (combine cols names) (nth i cols "") = Ok (nth i names "")) by (intros i H; apply lut_nth; [exact N|reflexivity|exact H]).
  pose proof (G 0%nat ltac:(lia)) as G0. pose proof (G 1%nat ltac:(lia)) as G1. pose proof (G 2%nat ltac:(lia)) as G2. cbn [nth cols names] in G0, G1, G2.
  unfold labels. change (combinations 2 cols) with [["ref"; o1]; ["ref"; o2]; [o1; o2]]. cbn [map seqR]. unfold cols, names in *. cbn [map seqR] in *.
  rewrite G0, G1, G2. cbn [bindR mapR]. eexists. split; [reflexivity|]. repeat split.
Qed.
Example C59_ex_names : exists lay, hsaf_init "k1" "k2" (Some ["era5"; "ascat"; "smos"]) = Ok lay /\ map snd (l_pairs lay) = ["era5_ascat"; "era5_smos"; "ascat_smos"].
Proof. eexists. split; vm_compute; reflexivity. Qed.

(* TCMetrics: with the reference only, or every pair, reported under the names of its datasets *)
Theorem C58_tcm_pairs others nonref names lay : let cols := "ref" :: others in
  NoDup cols -> (forall l, names = Some l -> List.length l = List.length cols) -> tcm_init others nonref names = Ok lay ->
  (forall p, In p (map fst (l_pairs lay)) <-> selection p cols /\ List.length p = 2%nat /\ (nonref = false -> In "ref" p)) /\
  (forall p, In p (l_pairs lay) -> exists i j, (i < List.length cols)%nat /\ (j < List.length cols)%nat /\ fst p = [nth i cols ""; nth j cols ""] /\
     let shown := match names with None => cols | Some l => l end in snd p = (nth i shown "" ++ "_and_" ++ nth j shown "")%string).
Proof.
  intros cols N LN H. unfold tcm_init in H. fold cols in H. set (shown := match names with Some n => n | None => cols end) in *.
  assert (LS : List.length shown = List.length cols) by (unfold shown; destruct names as [l|]; [apply LN; reflexivity|reflexivity]).
  set (mi := if nonref then MNone else MList ["ref"]) in *.
  destruct (labels (combine cols shown) "_and_" (n_combinations String.eqb truthy cols 2 mi false)) as [ps|] eqn:E; [|discriminate]. cbn [bindR] in H.
  destruct (labels (combine cols shown) "_and_" (n_combinations String.eqb truthy cols 3 _ false)) as [ts|]; [|discriminate]. cbn [mapR] in H. injection H as <-. cbn [l_pairs].
  assert (CM : forall p, In p (n_combinations String.eqb truthy cols 2 mi false) <-> selection p cols /\ List.length p = 2%nat /\ (nonref = false -> In "ref" p)).
  { intros p. unfold mi. destruct nonref.
    - change (n_combinations String.eqb truthy cols 2 MNone false) with (n_combinations String.eqb truthy cols 2 (MList []) false).
      rewrite (C63_combinations String.eqb truthy String.eqb_eq). split; [intros (A & B & _)|intros (A & B & _)]; (split; [exact A|split; [exact B|]]); [discriminate|intros x []].
    - rewrite (C63_combinations String.eqb truthy String.eqb_eq). split; [intros (A & B & C)|intros (A & B & C)]; (split; [exact A|split; [exact B|]]).
      + intros _. apply C. left. reflexivity.
      + intros x [<-|[]]. apply C. reflexivity. }
  split.
  - intros p. rewrite (labels_fst _ _ _ _ E). apply CM.
  - intros p I. apply (pair_label cols shown "_and_" _ ps p N LS E); [|exact I].
    intros c Hc. apply CM in Hc as (S1 & L2 & _). destruct c as [|x [|y [|z c]]]; try discriminate L2.
    apply selection_sublist in S1.
    assert (IX : In x cols) by (apply (sublist_in _ _ _ S1); left; reflexivity). assert (IY : In y cols) by (apply (sublist_in _ _ _ S1); right; left; reflexivity).
    apply (In_nth _ _ "") in IX as (i & Hi & <-). apply (In_nth _ _ "") in IY as (j & Hj & <-). exists i, j. auto.
Qed.
Example C58_ex_tcm_pairs :
  (exists lay, tcm_init ["k1"; "k2"; "k3"] false (Some ["era5"; "ascat"; "smos"; "smap"]) = Ok lay /\ l_pairs lay = [(["ref"; "k1"], "era5_and_ascat"); (["ref"; "k2"], "era5_and_smos"); (["ref"; "k3"], "era5_and_smap")]) /\
  (exists lay, tcm_init ["k1"; "k2"] true None = Ok lay /\ l_pairs lay = [(["ref"; "k1"], "ref_and_k1"); (["ref"; "k2"], "ref_and_k2"); (["k1"; "k2"], "k1_and_k2")]).
Proof. split; eexists; (split; [vm_compute; reflexivity|reflexivity]). Qed.
Print Assumptions C59_pair_names.
Print Assumptions C58_tcm_pairs.

(* ---- C52: triple collocation of three columns looks at the k-th values of the columns together,
   the column with index i as dataset i ---- *)
Open Scope R_scope.
Lemma rows_of_columns (xs : list R) : forall ys zs, List.length ys = List.length xs -> List.length zs = List.length xs ->
  let rows := map2 (fun a bc => fun i : nat => match i with O => a | 1%nat => fst bc | _ => snd bc end) xs (combine ys zs) in
  List.length rows = List.length xs /\
  forall k i, (k < List.length xs)%nat -> (i < 3)%nat -> nth k rows (fun _ => 0) i = nth k (nth i [xs; ys; zs] []) 0.
Proof.
  induction xs as [|x xs IH]; intros ys zs LY LZ rows; [split; [reflexivity|cbn; intros; lia]|].
  destruct ys as [|y ys]; [discriminate|]. destruct zs as [|z zs]; [discriminate|]. injection LY as LY. injection LZ as LZ.
  destruct (IH ys zs LY LZ) as [L N]. unfold rows. cbn [combine map2 List.length]. split; [f_equal; exact L|].
  intros [|k] i Hk Hi; [destruct i as [|[|[|i]]]; try lia; reflexivity|]. refine (eq_trans (N k i _ _) _); [lia|lia|]. destruct i as [|[|[|i]]]; try lia; reflexivity.
Qed.
Theorem C52_columns_of_a_triple ref (xs ys zs : list Q) : List.length ys = List.length xs -> List.length zs = List.length xs ->
  exists rows, tcol_method ref [map Some xs; map Some ys; map Some zs] = mapR (fun r => [fst (fst r); snd (fst r); snd r]) (tcol_metrics rows ref) /\
    List.length rows = List.length xs /\
    forall k i, (k < List.length xs)%nat -> (i < 3)%nat -> nth k rows (fun _ => 0) i = Q2R (nth k (nth i [xs; ys; zs] []) 0%Q).
Proof.
  intros LY LZ. unfold tcol_method.
  assert (V : forall l : list Q, vals (map Some l) = l) by (induction l; [reflexivity|cbn; f_equal; assumption]).
  assert (NN : existsb (fun c : cell => is_nan c) (map Some xs ++ map Some ys ++ map Some zs) = false).
  { apply Bool.not_true_iff_false. intros H. apply existsb_exists in H as (c & I & H). rewrite !in_app_iff, !in_map_iff in I.
    destruct I as [(q & <- & _)|[(q & <- & _)|(q & <- & _)]]; discriminate. }
  unfold cell in *. rewrite NN, !V. eexists. split; [reflexivity|].
  destruct (rows_of_columns (map Q2R xs) (map Q2R ys) (map Q2R zs)) as [L N]; [rewrite !map_length; assumption|rewrite !map_length; assumption|].
  rewrite map_length in L, N. split; [exact L|]. intros k i Hk Hi. rewrite N by assumption.
  assert (Z0 : Q2R 0 = 0) by (unfold Q2R; cbn; lra).
  destruct i as [|[|[|i]]]; try lia; cbn [nth]; rewrite <- Z0 at 1; apply map_nth.
Qed.
Print Assumptions C52_columns_of_a_triple.
Close Scope R_scope.
