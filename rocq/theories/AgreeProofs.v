(* Lemmas for C125. *)
From Coq Require Import Reals Qreals List Lra Lia.
From Verif Require Import Base BaseProofs NamesModel NamesProofs RStats MetricsSpec MetricsModel MetricsProofs RollingModel TcolModel ConfintModel ConfintProofs2.
From Verif Require Import DfMetricsModel DfMetricsSpec DfMetricsProofs CalcModel CalcSpec CalcProofs CalcProofs2 CalcProofs3 CalcProofs4 CalcProps CalcValueProps.
From Verif Require Import CalcPairsModel CalcPairsProofs CalcPairsProofs2 CalcPairsProps CalcTcmProofs AgreeSpec.
Open Scope string_scope.
Open Scope list_scope.

Notation frame := CalcModel.frame.

Lemma dropna_complete f : no_gaps f -> dropna f = f.
Proof.
  intros C. unfold dropna. destruct f as [cs rs]. cbn [f_cols f_rows] in *. f_equal. unfold no_gaps in C. cbn [f_rows] in C.
  induction rs as [|r rs IH]; [reflexivity|]. cbn [filter].
  assert (X : forallb notna (snd r) = true) by (apply forallb_forall; intros c I; apply (C r c); [left; reflexivity|exact I]).
  match goal with |- (if ?b then _ else _) = _ => replace b with true by (symmetry; exact X) end. f_equal. apply IH. intros r' c I J. apply (C r' c); [right; exact I|exact J].
Qed.

Lemma col_at_notna f i c : wf_frame f -> no_gaps f -> (i < List.length (f_cols f))%nat -> In c (col_at f i) -> notna c = true.
Proof.
  intros W C L I. unfold col_at in I. apply in_map_iff in I as (r & <- & R0). apply (C r); [exact R0|]. apply nth_In. exact (eq_ind_r (fun n => (i < n)%nat) L (W r R0)).
Qed.
Lemma column_notna f s l c : wf_frame f -> no_gaps f -> column f s = Ok l -> In c l -> notna c = true.
Proof.
  intros W C E I. unfold column in E. destruct (index_of (f_cols f) s) as [i|] eqn:X; [|discriminate]. assert (EL : col_at f i = l) by congruence. subst l.
  apply (col_at_notna f i c W C); [|exact I]. revert X. generalize (f_cols f) i. intros cs. induction cs as [|a cs IH]; intros j X; [discriminate|].
  cbn [index_of] in X. destruct (String.eqb a s); [injection X as <-; cbn; lia|].
  destruct (index_of cs s) as [k|]; [|discriminate]. cbn in X. injection X as <-. specialize (IH k eq_refl). cbn. lia.
Qed.

Lemma seqR_in {A B} (f : A -> res B) l m x : seqR (map f l) = Ok m -> In x m -> exists a, In a l /\ f a = Ok x.
Proof.
  revert m. induction l as [|a l IH]; intros m H I; cbn in H; [injection H as <-; destruct I|].
  destruct (f a) as [b|] eqn:E; [|discriminate]. cbn in H. destruct (seqR (map f l)) as [n|]; [|discriminate]. cbn in H. injection H as <-.
  destruct I as [<-|I]; [exists a; split; [left; reflexivity|exact E]|]. destruct (IH n eq_refl I) as (a' & A1 & A2). exists a'. split; [right; exact A1|exact A2].
Qed.
Lemma seqR_len {A} (l : list (res A)) m : seqR l = Ok m -> List.length m = List.length l.
Proof.
  revert m. induction l as [|a l IH]; intros m H; cbn in H; [injection H as <-; reflexivity|].
  destruct a as [b|]; [|discriminate]. cbn in H. destruct (seqR l) as [n|]; [|discriminate]. cbn in H. injection H as <-. cbn. f_equal. apply IH. reflexivity.
Qed.

(* selecting columns of complete data gives complete data *)
Lemma select_complete f names g : wf_frame f -> no_gaps f -> select f names = Ok g -> wf_frame g /\ no_gaps g.
Proof.
  intros W C H. unfold select in H. destruct (seqR (map (column f) names)) as [cols|] eqn:E; [|discriminate]. cbn [mapR] in H.
  assert (G : Frame names (map (fun ir => (fst (snd ir), map (fun c => nth (fst ir) c None) cols)) (combine (seq 0 (nrows f)) (f_rows f))) = g) by congruence.
  clear H. subst g. pose proof (seqR_len _ _ E) as LC. rewrite map_length in LC. split.
  - intros r R0. cbn [f_rows f_cols] in *. apply in_map_iff in R0 as (ir & <- & _). cbn [snd]. rewrite map_length. exact LC.
  - intros r c R0 I. cbn [f_rows] in R0. apply in_map_iff in R0 as (ir & <- & IR). cbn [snd] in I. apply in_map_iff in I as (l & <- & L).
    destruct (seqR_in _ _ _ _ E L) as (s & _ & ES). apply (column_notna f s l _ W C ES). apply nth_In.
    assert (LL : List.length l = nrows f).
    { unfold column in ES. destruct (index_of (f_cols f) s); [|discriminate]. assert (EL : col_at f n = l) by congruence. subst l. unfold col_at. apply map_length. }
    rewrite LL. destruct ir as [k r]. apply in_combine_l in IR. apply in_seq in IR. cbn. lia.
Qed.

(* all rows of complete data are used for a pair *)
Lemma table_col f i : (i < List.length (f_cols f))%nat -> nth i (map snd (table f)) [] = col_at f i.
Proof. intros L. rewrite table_snd. rewrite (nth_map_in (col_at f) (seq 0 (List.length (f_cols f))) i 0%nat []) by (rewrite seq_length; exact L). rewrite seq_nth by exact L. reflexivity. Qed.
Lemma all_rows f comb : wf_frame f -> no_gaps f -> (forall i, In i comb -> (i < List.length (f_cols f))%nat) -> complete_rows (table f) (nrows f) comb = seq 0 (nrows f).
Proof.
  intros W C B. unfold complete_rows. assert (X : forall l, (forall r, In r l -> (r < nrows f)%nat) -> filter (complete_row (table f) comb) l = l).
  { induction l as [|r l IH]; intros L; [reflexivity|]. cbn [filter]. assert (T : complete_row (table f) comb r = true).
    { unfold complete_row. apply forallb_forall. intros i I. rewrite table_col by exact (B i I). apply (col_at_notna f i _ W C (B i I)). apply nth_In.
      unfold col_at. rewrite map_length. apply L. left. reflexivity. }
    rewrite T. f_equal. apply IH. intros r' I. apply L. right. exact I. }
  apply X. intros r I. apply in_seq in I. lia.
Qed.
Lemma all_cases f i j : wf_frame f -> no_gaps f -> (i < List.length (f_cols f))%nat -> (j < List.length (f_cols f))%nat ->
  complete_cases (table f) (nrows f) [i; j] = [col_at f i; col_at f j].
Proof.
  intros W C I J. unfold complete_cases. rewrite all_rows by (try assumption; intros k [<-|[<-|[]]]; assumption). cbn [map].
  rewrite !table_col by assumption.
  assert (X : forall l : list cell, List.length l = nrows f -> map (fun r => nth r l None) (seq 0 (nrows f)) = l) by (intros l <-; symmetry; apply map_nth_seq).
  rewrite !X by (unfold col_at; apply map_length). reflexivity.
Qed.

(* a metric of two columns that always gives k numbers *)
Definition pair_metric (m : list (list cell) -> res (list (option R))) (k : nat) (v : list cell -> list cell -> list (option R)) : Prop :=
  forall x y, m [x; y] = Ok (v x y) /\ List.length (v x y) = k.
Lemma one_is g : pair_metric (one_metric g) 1 (fun x y => [on_pairs g x y]).
Proof. intros x y. split; reflexivity. Qed.
Lemma two_is g : pair_metric (two_metric g) 2 (fun x y => [fst (g x y); snd (g x y)]).
Proof. intros x y. split; reflexivity. Qed.
Lemma mse_is : pair_metric mse_metric 4 (fun x y => let m := obind (complete x y) mse_decomposition in
      [omap (fun q => fst (fst (fst q))) m; omap (fun q => snd (fst (fst q))) m; omap (fun q => snd (fst q)) m; omap snd m]).
Proof. intros x y. split; reflexivity. Qed.

Lemma stored_pair m k v f ds q i j : pair_metric m k v -> wf_frame f -> no_gaps f -> (0 < nrows f)%nat -> NoDup (f_cols f) -> (i < j)%nat -> (j < List.length (f_cols f))%nat -> (q < k)%nat ->
  df_metric m k f = Ok ds -> lookup_pair (nth q ds []) [nth i (f_cols f) ""; nth j (f_cols f) ""] = Ok (RNum (nth q (v (col_at f i) (col_at f j)) None)).
Proof.
  intros PM W C NZ N IJ JL QK H.
  assert (C2 : (2 <= ncols (table f))%nat) by (rewrite table_ncols; lia).
  destruct (dropna_ok (table f) (nrows f) 2 (table_wf f N) C2 (or_introl eq_refl)) as (args & EA).
  assert (A2 : exists x y, args = [x; y]).
  { unfold array_dropna in EA. cbn [seq map] in EA. destruct (logical_or _) as [mk|]; [|discriminate]. cbn in EA. injection EA as <-. eauto. }
  destruct A2 as (x & y & ->).
  destruct (C58_intercomparison_values m k f ds q i j (v x y) N IJ JL QK H) as (w & E1 & E2).
  - intros args' EA'. pose proof (eq_trans (eq_sym EA') EA) as Q. injection Q as ->. apply PM.
  - intros comb IC _. unfold n_combinations in IC. apply filter_In in IC as [IC _]. apply combinations_in in IC as [_ LC].
    destruct comb as [|a [|b [|]]]; try discriminate LC. unfold complete_cases. cbn [map]. eexists. split; [apply PM|].
    rewrite (proj2 (PM _ _)), (proj2 (PM _ _)). reflexivity.
  - rewrite E1, E2. rewrite all_rows, all_cases by (try assumption; try lia; intros a [<-|[<-|[]]]; lia).
    rewrite (proj1 (PM _ _)). destruct (nrows f); [lia|]. reflexivity.
Qed.
