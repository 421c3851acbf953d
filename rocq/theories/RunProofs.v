(* Proofs about complete validation runs. *)
From Verif Require Import RunSpec BaseProofs SortProofs NamesProofs TemporalProofs MatchersProofs ValidationProofs ValidationProofs2.
From Verif Require Import TemporalModel TemporalSpec.

(* ------------------------------------------------------- order of the rows *)
Lemma insert_z_in x l y : In y (insert_z x l) <-> y = x \/ In y l.
Proof.
  induction l as [|z l IH]; cbn; [intuition congruence|]. destruct (Z.eqb_spec x z) as [->|N]; [cbn; intuition congruence|].
  destruct (Z.ltb_spec x z); cbn; [intuition congruence|]. rewrite IH. intuition congruence.
Qed.
Lemma insert_z_sorted x l : StronglySorted Z.lt l -> StronglySorted Z.lt (insert_z x l).
Proof.
  induction l as [|z l IH]; intros S; cbn; [repeat constructor|]. inversion S as [|? ? S1 S2]; subst.
  destruct (Z.eqb_spec x z) as [->|N]; [exact S|]. destruct (Z.ltb_spec x z).
  - constructor; [exact S|]. constructor; [assumption|]. eapply Forall_impl; [|exact S2]. cbn. intros; lia.
  - constructor; [apply IH, S1|]. apply Forall_forall. intros y Hy. apply insert_z_in in Hy as [->|Hy]; [lia|].
    rewrite Forall_forall in S2. apply S2, Hy.
Qed.
Lemma sort_union_sorted l : StronglySorted Z.lt (sort_union l).
Proof. induction l as [|x l IH]; cbn; [constructor|]. apply insert_z_sorted, IH. Qed.
Lemma sorted_sublist {A} (R : A -> A -> Prop) (p : A -> bool) l : StronglySorted R l -> StronglySorted R (filter p l).
Proof.
  induction 1 as [|x l S IH F]; cbn; [constructor|]. destruct (p x); [|exact IH]. constructor; [exact IH|].
  apply Forall_forall. intros y Hy. apply filter_In in Hy as [Hy _]. rewrite Forall_forall in F. apply F, Hy.
Qed.
Lemma sorted_index_filter (p : Z * row -> bool) (l : list (Z * row)) : StronglySorted Z.lt (map fst l) -> StronglySorted Z.lt (map fst (filter p l)).
Proof.
  induction l as [|x l IH]; cbn; intros S; [constructor|]. inversion S as [|? ? S1 S2]; subst. destruct (p x); [|apply IH, S1].
  cbn. constructor; [apply IH, S1|]. apply Forall_forall. intros y Hy. apply in_map_iff in Hy as (z & <- & Hz).
  apply filter_In in Hz as [Hz _]. rewrite Forall_forall in S2. apply S2. apply in_map. exact Hz.
Qed.
Lemma concat_sorted f0 rest m : StronglySorted Z.lt (findex f0) -> concat_axis1 (f0 :: rest) = Ok m -> StronglySorted Z.lt (findex m).
Proof.
  intros S. cbn [concat_axis1]. destruct (forallb _ rest).
  - intros [= <-]. unfold findex at 1. cbn [frows]. rewrite map_map. cbn [fst].
    assert (E : map (fun k => nth k (findex f0) 0) (seq 0 (List.length (frows f0))) = findex f0).
    { assert (L : List.length (findex f0) = List.length (frows f0)) by apply map_length. rewrite <- L. clear. set (l := findex f0). clearbody l.
      apply (nth_ext _ _ 0 0); [rewrite map_length, seq_length; reflexivity|]. intros i Hi. rewrite map_length, seq_length in Hi.
      rewrite (nth_indep _ 0 ((fun k => nth k l 0) O)) by (rewrite map_length, seq_length; exact Hi).
      rewrite (map_nth (fun k => nth k l 0)), seq_nth by exact Hi. reflexivity. }
    rewrite E. exact S.
  - destruct (forallb _ (f0 :: rest)); [|discriminate]. intros [= <-]. unfold findex at 1. cbn [frows]. rewrite map_map. cbn [fst]. rewrite map_id.
    apply sort_union_sorted.
Qed.
Lemma chronological_dedup (l : list (Z * row)) : chronological (map fst l) -> StronglySorted Z.lt (map fst (dedup_first fst l)).
Proof.
  intros H. assert (N := dedup_nodup fst l).
  assert (S : StronglySorted Z.le (map fst (dedup_first fst l))).
  { unfold dedup_first. clear N. generalize (@nil Z). unfold chronological in H. induction l as [|x l IH]; intros seen; cbn; [constructor|].
    cbn in H. inversion H as [|? ? S1 S2]; subst. destruct (existsb (Z.eqb (fst x)) seen); [apply IH, S1|]. cbn. constructor; [apply IH, S1|].
    apply Forall_forall. intros y Hy. apply in_map_iff in Hy as (z & <- & Hz). rewrite Forall_forall in S2. apply S2, in_map.
    revert Hz. generalize (fst x :: seen). clear. induction l as [|y l IH]; intros s; cbn; [tauto|].
    destruct (existsb (Z.eqb (fst y)) s); cbn; [intros H; right; eapply IH, H|intros [<-|H]; [left; reflexivity|right; eapply IH, H]]. }
  revert S N. generalize (map fst (dedup_first fst l)). clear. induction l as [|x l IH]; intros S N; constructor; inversion S; inversion N; subst.
  - apply IH; assumption.
  - rewrite Forall_forall in *. intros y Hy. assert (x <> y) by (intros ->; contradiction). specialize (H2 y Hy). lia.
Qed.
Lemma combined_sorted store oob reference others w cd m : chronological (findex reference) ->
  combined_temporal_collocation store oob reference others w match_opts cd true = Ok m -> StronglySorted Z.lt (findex m).
Proof.
  intros C. unfold combined_temporal_collocation, match_opts. cbn [o_method o_dropduplicates o_dropna o_flag o_use_invalid].
  destruct (seqR _) as [dfs|]; [|discriminate]. cbn [bindR].
  destruct (concat_axis1 _) as [m0|] eqn:E; [|discriminate]. cbn [mapR]. intros [= <-].
  apply concat_sorted in E; [|apply chronological_dedup; exact C].
  destruct cd; try exact E; unfold findex, dropna_any, dropna_all; cbn [frows]; apply sorted_index_filter; exact E.
Qed.

(* ------------------------------------------------------- rows side by side *)
Definition row_in (tref : string) (w t : Z) (e : string * frame) (r : row) : Prop :=
  if String.eqb (fst e) tref then first_row (snd e) t r
  else nearest_row (frows (snd e)) (List.length (fcols (snd e))) t w r.
Lemma row_in_length tref w t e r : wf_frame (snd e) -> row_in tref w t e r -> List.length r = List.length (fcols (snd e)).
Proof.
  unfold row_in. intros W. destruct (String.eqb (fst e) tref).
  - intros F. apply find_some in F as [F _]. exact (W _ _ F).
  - intros N. eapply nearest_row_length; eassumption.
Qed.
Lemma row_in_unique tref w t e r r' : row_in tref w t e r -> row_in tref w t e r' -> r = r'.
Proof. unfold row_in, first_row. destruct (String.eqb (fst e) tref); [congruence|apply nearest_row_unique]. Qed.
Lemma row_in_exists tref w t e : usable (snd e) -> (fst e = tref -> has_time (snd e) t) -> exists r, row_in tref w t e r.
Proof.
  unfold row_in. intros U H. destruct (String.eqb_spec (fst e) tref) as [E|N].
  - destruct (H E) as (r & I). unfold first_row. destruct (find (fun o => fst o =? t) (frows (snd e))) as [[t' r']|] eqn:F.
    + exists r'. apply find_some in F as [_ F]. cbn in F. apply Z.eqb_eq in F. subst t'. reflexivity.
    + exfalso. assert (C := find_none _ _ F _ I). cbn in C. rewrite Z.eqb_refl in C. discriminate.
  - destruct (tc_nearest_correct (fun c => c) 0 [] (snd e) w (proj2 U)) as (g & _ & G). exists (g t). apply G.
Qed.
Lemma rows_exist tref w t L : (forall e, In e L -> usable (snd e)) -> (forall e, In e L -> fst e = tref -> has_time (snd e) t) ->
  exists rows, Forall2 (row_in tref w t) L rows.
Proof.
  induction L as [|e L IH]; intros U H; [exists []; constructor|].
  destruct (row_in_exists tref w t e (U e (or_introl eq_refl)) (H e (or_introl eq_refl))) as (r & R).
  destruct IH as (rows & F); [intros; apply U; right; assumption|intros; apply H; [right|]; assumption|]. exists (r :: rows). constructor; assumption.
Qed.

Lemma block tref w t L rows i x : Forall2 (row_in tref w t) L rows -> (forall e, In e L -> wf_frame (snd e)) ->
  nth_error (flat_map columns_named L) i = Some (enc x) ->
  exists f row j v, In (fst x, f) L /\ nth_error (fcols f) j = Some (snd x) /\ row_in tref w t (fst x, f) row /\
    nth_error row j = Some v /\ nth_error (List.concat rows) i = Some v.
Proof.
  intros F. revert i. induction F as [|e r L rows R F IH]; intros i W H; [destruct i; discriminate|].
  assert (Le := row_in_length _ _ _ _ _ (W e (or_introl eq_refl)) R).
  cbn [flat_map] in H. assert (LC : List.length (columns_named e) = List.length (fcols (snd e))) by apply map_length.
  destruct (Nat.ltb_spec i (List.length (fcols (snd e)))) as [Hi|Hi].
  - rewrite nth_error_app1 in H by (rewrite LC; exact Hi). unfold columns_named in H. rewrite nth_error_map in H.
    destruct (nth_error (fcols (snd e)) i) as [c|] eqn:E; [|discriminate]. cbn in H. injection H as H. unfold enc in H. apply tup_inj in H as [H1 H2].
    destruct (nth_error r i) as [v|] eqn:Ev; [|apply nth_error_None in Ev; lia].
    exists (snd e), r, i, v. rewrite <- H1, <- H2. split; [left; destruct e; reflexivity|]. split; [exact E|]. split; [destruct e; exact R|].
    split; [exact Ev|]. cbn [List.concat]. rewrite nth_error_app1 by lia. exact Ev.
  - rewrite nth_error_app2 in H by (rewrite LC; exact Hi). rewrite LC in H.
    destruct (IH _ (fun e' He' => W e' (or_intror He')) H) as (f & row & j & v & I & A & B & C & D).
    exists f, row, j, v. split; [right; exact I|]. split; [exact A|]. split; [exact B|]. split; [exact C|].
    cbn [List.concat]. rewrite nth_error_app2 by lia. rewrite Le. exact D.
Qed.
Lemma nodup_key {A B} (l : list (A * B)) k v v' : NoDup (map fst l) -> In (k, v) l -> In (k, v') l -> v = v'.
Proof.
  induction l as [|[a b] l IH]; intros N I I'; [destruct I|]. cbn in N. inversion N as [|? ? N1 N2]; subst.
  destruct I as [I|I], I' as [I'|I'].
  - congruence.
  - exfalso. injection I as -> ->. apply N1. apply (in_map fst) in I'. exact I'.
  - exfalso. injection I' as -> ->. apply N1. apply (in_map fst) in I. exact I.
  - apply IH; assumption.
Qed.
Lemma observed_unique dfs tref w t x v v' : NoDup (map fst dfs) -> (forall d f, In (d, f) dfs -> NoDup (fcols f)) ->
  observed dfs tref w t x v -> observed dfs tref w t x v' -> v = v'.
Proof.
  intros N C (f & row & i & I & E & V & R) (f' & row' & i' & I' & E' & V' & R').
  assert (f' = f) by (eapply nodup_key; eassumption). subst f'.
  assert (R1 : row_in tref w t (fst x, f) row) by exact R. assert (R2 : row_in tref w t (fst x, f) row') by exact R'.
  assert (row' = row) by (eapply row_in_unique; eassumption). subst row'.
  assert (i' = i); [|subst; congruence]. apply (proj1 (NoDup_nth_error (fcols f)) (C _ _ I)); [|congruence].
  apply nth_error_Some. rewrite E'. discriminate.
Qed.

(* the requested columns of the complete rows of a matched set *)
Lemma set_rows tref w L F (K : Z -> row -> Prop) key d :
  NoDup (map fst L) -> (forall n f, In (n, f) L -> usable f /\ NoDup (fcols f)) -> In tref (map fst L) ->
  fcols F = flat_map columns_named L ->
  (forall t r, In (t, r) (frows F) <-> (exists rows, Forall2 (row_in tref w t) L rows /\ r = List.concat rows) /\ K t r) ->
  complete_rows F key d ->
  forall t r, In (t, r) (frows d) <->
    compared L tref w key t r /\ forall rows, Forall2 (row_in tref w t) L rows -> K t (List.concat rows).
Proof.
  intros N U HT EC HF (_ & ps & P & ED) t r. rewrite ED, filter_In, in_map_iff.
  assert (WF : forall e, In e L -> wf_frame (snd e)) by (intros [n f] I; apply (U n f I)).
  assert (OBS : forall rows, Forall2 (row_in tref w t) L rows -> Forall2 (observed L tref w t) key (map (fun i => nth i (List.concat rows) None) ps)).
  { intros rows FR. clear ED HF. induction P as [|x i key ps Hp P IH]; [constructor|]. cbn [map]. constructor; [|exact IH].
    rewrite EC in Hp. apply col_pos_nth in Hp. destruct (block _ _ _ _ _ _ _ FR WF Hp) as (f & row & j & v & I & A & B & C & D).
    exists f, row, j. split; [exact I|]. split; [exact A|]. split; [|exact B]. transitivity (Some v); [exact C|]. f_equal. symmetry. exact (nth_error_nth _ _ None D). }
  assert (TR : forall rows, Forall2 (row_in tref w t) L rows -> exists ref, In (tref, ref) L /\ has_time ref t).
  { intros rows FR. clear -FR HT. induction FR as [|e r L rows R FR IH]; [destruct HT|]. destruct HT as [E|HT].
    - exists (snd e). split; [left; rewrite <- E; destruct e; reflexivity|]. unfold row_in in R. rewrite (proj2 (String.eqb_eq _ _) E) in R.
      exists r. apply find_some in R as [R _]. exact R.
    - destruct (IH HT) as (ref & I & H). exists ref. split; [right; exact I|exact H]. }
  assert (UR : forall rows rows', Forall2 (row_in tref w t) L rows -> Forall2 (row_in tref w t) L rows' -> rows = rows').
  { clear. intros rows rows' A. revert rows'. induction A; intros rows' B; inversion B; subst; [reflexivity|]. f_equal; [eapply row_in_unique; eassumption|auto]. }
  split.
  - intros [((t0 & whole) & EQ & I) NA]. cbn [fst snd] in EQ, NA. injection EQ as <- <-. apply HF in I as [(rows & FR & ->) HK].
    split; [|intros rows' FR'; rewrite <- (UR _ _ FR FR'); exact HK].
    split; [exact (TR rows FR)|]. split; [apply OBS, FR|]. intros v Hv C. rewrite forallb_forall in NA. specialize (NA v Hv). subst v. discriminate.
  - intros [((ref & I & HTm) & FO & NN) HK].
    destruct (rows_exist tref w t L) as (rows & FR).
    { intros [n f] If. apply (U n f If). }
    { intros [n f] If En. cbn in En. subst n. cbn. rewrite (nodup_key L tref f ref N If I). exact HTm. }
    assert (ER : r = map (fun i => nth i (List.concat rows) None) ps).
    { assert (FO2 := OBS rows FR). revert FO FO2. generalize (map (fun i => nth i (List.concat rows) None) ps). clear -N U. intros l A. revert l.
      induction A as [|x v key r O A IH]; intros l B; inversion B; subst; [reflexivity|]. f_equal; [|apply IH; assumption].
      eapply observed_unique; [exact N|intros dd ff Iff; apply (U dd ff Iff)|eassumption|eassumption]. }
    split.
    + exists (t, List.concat rows). cbn [fst snd]. split; [f_equal; symmetry; exact ER|]. apply HF. split; [exists rows; auto|apply HK, FR].
    + cbn [snd]. apply forallb_forall. intros v Hv. specialize (NN v Hv). destruct v; [reflexivity|congruence].
Qed.

(* ------------------------------------------------------- selecting the configured columns *)
Lemma find_map_time (g : row -> row) t l :
  find (fun o : Z * row => fst o =? t) (map (fun tr => (fst tr, g (snd tr))) l) = option_map (fun tr => (fst tr, g (snd tr))) (find (fun o => fst o =? t) l).
Proof. induction l as [|[s r] l IH]; [reflexivity|]. cbn. destruct (s =? t); [reflexivity|exact IH]. Qed.
Lemma select_row_in tref w t n f cs ps d r : Forall2 (fun c i => col_pos c (fcols f) = Some i) cs ps ->
  d = mkFrame cs (map (fun tr => (fst tr, map (fun i => nth i (snd tr) None) ps)) (frows f)) ->
  row_in tref w t (n, f) r -> row_in tref w t (n, d) (map (fun i => nth i r None) ps).
Proof.
  intros P -> R. pose (g := fun r : row => map (fun i => nth i r None) ps : row).
  change (row_in tref w t (n, mkFrame cs (map (fun tr => (fst tr, g (snd tr))) (frows f))) (g r)).
  unfold row_in in *. cbn [fst snd frows fcols] in *. destruct (String.eqb n tref).
  - unfold first_row in *. cbn [frows]. rewrite find_map_time, R. reflexivity.
  - destruct R as [(s & F & D & M)|[-> M]].
    + left. exists s. rewrite find_map_time, F. split; [reflexivity|]. split; [exact D|]. intros s' r' I.
      apply in_map_iff in I as ((s0 & r0) & EQ & I). injection EQ as <- _. exact (M _ _ I).
    + right. split.
      * unfold g. assert (L : List.length cs = List.length ps) by (clear -P; induction P; cbn; congruence). rewrite L. clear.
        induction ps as [|i ps IH]; [reflexivity|]. cbn [map List.length repeat]. rewrite IH. f_equal. apply nth_repeat.
      * intros s' r' I. apply in_map_iff in I as ((s0 & r0) & EQ & I). injection EQ as <- _. exact (M _ _ I).
Qed.
Lemma select_usable f cs d : select_columns cs f = Ok d -> usable f -> usable d /\ fcols d = cs /\ findex d = findex f.
Proof.
  intros S [W M]. apply select_columns_spec in S as (ps & P & ->). split; [split|split].
  - intros t r I. cbn [frows] in I. apply in_map_iff in I as (x & EQ & _). injection EQ as _ <-. rewrite map_length. cbn [fcols]. clear -P. induction P; cbn; congruence.
  - unfold findex in *. cbn [frows] in *. rewrite <- dedup_map_fst in *. rewrite map_map. cbn [fst]. exact M.
  - reflexivity.
  - unfold findex. cbn [frows]. rewrite map_map. reflexivity.
Qed.
Lemma Forall2_pos {A} (R : A -> nat -> Prop) l m i a : Forall2 R l m -> nth_error l i = Some a -> exists j, nth_error m i = Some j /\ R a j.
Proof.
  intros F. revert i. induction F as [|x y l m H F IH]; intros i E; [destruct i; discriminate|]. destruct i as [|i]; cbn in *; [injection E as <-; eauto|auto].
Qed.

Section Columns.
Context {G V : Type}.
Variable c : @config G V.
Variables (dfs data : df_dict).
Hypothesis W : wf_dict (c_ds c).
Hypothesis D : delivered (c_ds c) dfs.
Hypothesis DC : data_columns c dfs data.
Lemma columns_of_in ds cs : columns_of (c_ds c) ds = Some cs -> In (ds, cs) (c_ds c).
Proof.
  unfold columns_of. destruct (find _ (c_ds c)) as [[k v]|] eqn:E; [|discriminate]. cbn. intros [= <-].
  apply find_some in E as [I E]. cbn in E. apply String.eqb_eq in E. subst k. exact I.
Qed.
Lemma data_names : map fst data = map fst dfs.
Proof. clear -DC. induction DC as [|e d l l' [H _] F IH]; [reflexivity|]. cbn. rewrite H, IH; [reflexivity|exact F]. Qed.
Lemma data_nodup : NoDup (map fst data).
Proof. rewrite data_names. apply D. Qed.
Lemma data_of n d : In (n, d) data -> exists f cs, In (n, f) dfs /\ In (n, cs) (c_ds c) /\ select_columns cs f = Ok d.
Proof.
  clear -DC. induction DC as [|[n0 f] [n1 d1] l l' (H & cs & C & S) F IH]; intros I; [destruct I|]. cbn [fst snd] in *. subst n1. destruct I as [I|I].
  - injection I as -> ->. exists f, cs. split; [left; reflexivity|]. split; [apply columns_of_in, C|exact S].
  - destruct (IH F I) as (f' & cs' & A & B & E). exists f', cs'. split; [right; exact A|]. split; [exact B|exact E].
Qed.
Lemma data_for n f : In (n, f) dfs -> exists d cs, In (n, d) data /\ In (n, cs) (c_ds c) /\ select_columns cs f = Ok d.
Proof.
  clear -DC. induction DC as [|[n0 f0] [n1 d1] l l' (H & cs & C & S) F IH]; intros I; [destruct I|]. cbn [fst snd] in *. subst n1. destruct I as [I|I].
  - injection I as -> ->. exists d1, cs. split; [left; reflexivity|]. split; [apply columns_of_in, C|exact S].
  - destruct (IH F I) as (f' & cs' & A & B & E). exists f', cs'. split; [right; exact A|]. split; [exact B|exact E].
Qed.
Lemma data_usable n d : In (n, d) data -> usable d /\ NoDup (fcols d).
Proof.
  intros I. destruct (data_of n d I) as (f & cs & A & B & E). destruct D as (_ & _ & U). destruct (U n f A) as (Uf & _ & _).
  destruct (select_usable f cs d E Uf) as (X & Y & _). split; [exact X|]. rewrite Y. exact (proj2 W n cs B).
Qed.
Lemma observed_data tref w t n col cs v : In (n, cs) (c_ds c) -> In col cs ->
  (observed data tref w t (n, col) v <-> observed dfs tref w t (n, col) v).
Proof.
  intros IC Icol. destruct D as (ND & NS & U).
  assert (FW : forall v, observed dfs tref w t (n, col) v -> observed data tref w t (n, col) v).
  { intros u (f & row & i & I & A & B & R). cbn [fst snd] in *. destruct (data_for n f I) as (d & cs' & Id & IC' & S).
    assert (cs' = cs) by (eapply nodup_key; [exact (proj1 W)|exact IC'|exact IC]). subst cs'.
    apply select_columns_spec in S as (ps & P & ED).
    destruct (In_nth_error _ _ Icol) as (j & Ej). destruct (Forall2_pos _ _ _ _ _ P Ej) as (i' & Ei' & Hp). apply col_pos_nth in Hp.
    assert (i' = i). { destruct (U n f I) as (_ & NC & _). apply (proj1 (NoDup_nth_error (fcols f)) NC); [apply nth_error_Some; rewrite Hp; discriminate|congruence]. }
    subst i'. exists d, (map (fun i => nth i row None) ps), j. cbn [fst snd]. split; [exact Id|]. split; [rewrite ED; exact Ej|].
    split; [rewrite nth_error_map, Ei'; cbn; f_equal; exact (nth_error_nth _ _ None B)|]. exact (select_row_in tref w t n f cs ps d row P ED R). }
  split; [|apply FW].
  intros O. assert (O' := O). destruct O' as (d & row & i & I & A & B & R). cbn [fst snd] in *.
  destruct (data_of n d I) as (f & cs' & If & IC' & S). assert (cs' = cs) by (eapply nodup_key; [exact (proj1 W)|exact IC'|exact IC]). subst cs'.
  destruct (U n f If) as (Uf & NC & IN).
  destruct (row_in_exists tref w t (n, f) Uf) as (rf & Rf).
  { cbn [fst snd]. intros E. rewrite (proj2 (String.eqb_eq _ _) E) in R. unfold first_row in R. apply find_some in R as [R _].
    apply select_columns_spec in S as (ps & P & ->). cbn [frows] in R. apply in_map_iff in R as ((s & r0) & EQ & R). injection EQ as <- _. exists r0. exact R. }
  assert (Icf : In col (fcols f)) by (apply (IN cs IC), Icol). destruct (In_nth_error _ _ Icf) as (i0 & Ei0).
  destruct (nth_error rf i0) as [u|] eqn:Eu.
  - assert (Of : observed dfs tref w t (n, col) u) by (exists f, rf, i0; cbn [fst snd]; auto).
    rewrite (observed_unique data tref w t (n, col) v u data_nodup (fun n' d' I' => proj2 (data_usable n' d' I')) O (FW u Of)). exact Of.
  - exfalso. apply nth_error_None in Eu. rewrite (row_in_length tref w t (n, f) rf (proj1 Uf) Rf) in Eu. cbn [snd] in Eu.
    assert (nth_error (fcols f) i0 <> None) by congruence. apply nth_error_Some in H. lia.
Qed.
Lemma has_time_data tref t : (exists ref, In (tref, ref) data /\ has_time ref t) <-> (exists ref, In (tref, ref) dfs /\ has_time ref t).
Proof.
  split; intros (ref & I & H).
  - destruct (data_of tref ref I) as (f & cs & If & _ & S). exists f. split; [exact If|]. destruct D as (_ & _ & U). destruct (U _ _ If) as (Uf & _).
    apply has_time_index. apply has_time_index in H. rewrite <- (proj2 (proj2 (select_usable f cs ref S Uf))). exact H.
  - destruct (data_for tref ref I) as (d & cs & Id & _ & S). exists d. split; [exact Id|]. destruct D as (_ & _ & U). destruct (U _ _ I) as (Uf & _).
    apply has_time_index. apply has_time_index in H. rewrite (proj2 (proj2 (select_usable ref cs d S Uf))). exact H.
Qed.
Lemma compared_data tref w k key t r : selection (c_ds c) k key -> (compared data tref w key t r <-> compared dfs tref w key t r).
Proof.
  intros (_ & _ & SEL). unfold compared. rewrite has_time_data.
  assert (E : Forall2 (observed data tref w t) key r <-> Forall2 (observed dfs tref w t) key r).
  { clear -SEL W D DC. split; intros F; (induction F as [|[n col] v key r O F IH]; constructor; [|apply IH; intros; apply SEL; right; assumption]);
      destruct (SEL n col (or_introl eq_refl)) as (cs & A & B); apply (observed_data tref w t n col cs v A B); exact O. }
  rewrite E. reflexivity.
Qed.
End Columns.
Lemma columns_exist {G V} (c : @config G V) dfs : wf_dict (c_ds c) -> delivered (c_ds c) dfs -> exists data, data_columns c dfs data.
Proof.
  intros W (ND & NS & U). unfold data_columns.
  assert (A : forall e, In e dfs -> exists cs, columns_of (c_ds c) (fst e) = Some cs /\ exists d, select_columns cs (snd e) = Ok d).
  { intros [n f] I. assert (In n (map fst (c_ds c))) by (apply NS; apply (in_map fst) in I; exact I). cbn [fst snd].
    unfold columns_of. destruct (find (fun e => String.eqb (fst e) n) (c_ds c)) as [[k cs]|] eqn:E.
    - exists cs. split; [reflexivity|]. apply find_some in E as [IE E]. cbn in E. apply String.eqb_eq in E. subst k.
      destruct (U n f I) as (_ & _ & IN). specialize (IN cs IE).
      assert (exists ps, Forall2 (fun c i => col_pos c (fcols f) = Some i) cs ps) as (ps & P).
      { clear -IN. induction cs as [|x cs IH]; [exists []; constructor|]. destruct IH as (ps & P); [intros y Hy; apply IN; right; exact Hy|].
        destruct (proj1 (col_pos_in x (fcols f)) (IN x (or_introl eq_refl))) as (i & Hi). exists (i :: ps). constructor; assumption. }
      eexists. apply select_columns_spec. exists ps. split; [exact P|reflexivity].
    - exfalso. apply in_map_iff in H as ((k & cs) & Ek & IE). cbn in Ek. subst k. assert (C := find_none _ _ E _ IE). cbn in C. rewrite String.eqb_refl in C. discriminate. }
  clear -A. induction dfs as [|e l IH]; [exists []; constructor|]. destruct IH as (data & F); [intros; apply A; right; assumption|].
  destruct (A e (or_introl eq_refl)) as (cs & C & d & S). exists ((fst e, d) :: data). constructor; [|exact F]. cbn. split; [reflexivity|]. exists cs. auto.
Qed.

(* ------------------------------------------------------- the matched set of all datasets *)
Definition others_of (data : df_dict) (tref : string) : df_dict := filter (fun e => negb (String.eqb (fst e) tref)) data.
(* the sets returned by a matcher: one of all datasets, or none if it would have no rows *)
Definition one_set (out : list (list string * frame)) (tref : string) (names : list string) (F : frame) : Prop :=
  (exists kk, out = [(kk, F)] /\ hd_error kk = Some tref /\ Permutation kk names) \/ (out = [] /\ frows F = []).

Lemma combinations_all {A} (l : list A) : combinations (List.length l) l = [l].
Proof.
  assert (E : forall k (l : list A), (List.length l < k)%nat -> combinations k l = []).
  { intros k m. revert k. induction m as [|x m IH]; intros [|k] H; cbn in *; try lia; [reflexivity|]. rewrite !IH by (cbn; lia). reflexivity. }
  induction l as [|x l IH]; [reflexivity|]. cbn [List.length combinations]. rewrite IH, (E (S (List.length l)) l) by lia. reflexivity.
Qed.
Lemma others_perm data tref ref : NoDup (map fst data) -> In (tref, ref) data -> Permutation ((tref, ref) :: others_of data tref) data.
Proof.
  intros N I. apply NoDup_Permutation.
  - constructor; [unfold others_of; intros C; apply filter_In in C as [_ C]; cbn in C; rewrite String.eqb_refl in C; discriminate|].
    apply NoDup_filter. clear -N. apply (NoDup_map_inv (@fst string frame)), N.
  - clear -N. apply (NoDup_map_inv (@fst string frame)), N.
  - intros [n f]. cbn [In]. unfold others_of. rewrite filter_In. cbn [fst]. split.
    + intros [[= <- <-]|[H _]]; assumption.
    + intros H. destruct (String.eqb_spec n tref) as [->|NE]; [left; f_equal; eapply nodup_key; eassumption|right; auto].
Qed.
Lemma matched_row_in data tref ref w t r : NoDup (map fst data) -> In (tref, ref) data ->
  (matched_row ref (map snd (others_of data tref)) w t r <->
   exists rows, Forall2 (row_in tref w t) ((tref, ref) :: others_of data tref) rows /\ r = List.concat rows).
Proof.
  intros N I. unfold matched_row.
  assert (E : forall rs, Forall2 (fun o row => nearest_row (frows o) (List.length (fcols o)) t w row) (map snd (others_of data tref)) rs <->
                         Forall2 (row_in tref w t) (others_of data tref) rs).
  { unfold others_of. intros rs. rewrite Forall2_map_l. clear. revert rs. induction data as [|[n f] data IH]; intros rs; cbn [filter fst]; [split; intros F; inversion F; constructor|].
    destruct (String.eqb n tref) eqn:En; cbn [negb]; [apply IH|].
    split; intros F; inversion F as [|? ? ? ? H1 H2]; subst; (constructor; [|apply IH; assumption]); unfold row_in in *; cbn [fst snd] in *; rewrite En in *; exact H1. }
  split.
  - intros (rr & rs & F1 & F2 & ->). exists (rr :: rs). split; [|reflexivity]. constructor; [|apply E, F2].
    unfold row_in. cbn [fst snd]. rewrite String.eqb_refl. exact F1.
  - intros (rows & F & ->). inversion F as [|? rr ? rs H1 H2]; subst. exists rr, rs. split; [|split; [apply E, H2|reflexivity]].
    unfold row_in in H1. cbn [fst snd] in H1. rewrite String.eqb_refl in H1. exact H1.
Qed.
Lemma set_of_all store oob w data tref ref cd : NoDup (map fst data) -> In (tref, ref) data ->
  (forall k f, In (k, f) data -> usable f) ->
  exists F, combined_temporal_collocation store oob (df_name_multiindex ref tref)
      (named_frames data (filter (fun k => negb (String.eqb k tref)) (map fst data))) w match_opts cd true = Ok F /\
    NoDup (findex F) /\ (chronological (findex ref) -> StronglySorted Z.lt (findex F)) /\
    fcols F = flat_map columns_named ((tref, ref) :: others_of data tref) /\
    forall t r, In (t, r) (frows F) <->
      (exists rows, Forall2 (row_in tref w t) ((tref, ref) :: others_of data tref) rows /\ r = List.concat rows) /\ combined_keep cd r.
Proof.
  intros N I U. rewrite named_frames_others by exact N. fold (others_of data tref).
  destruct (matcher_rows store oob (df_name_multiindex ref tref) (map (fun e => df_name_multiindex (snd e) (fst e)) (others_of data tref)) w cd)
    as (m & E & Cm & Nm & Im).
  { intros o Ho. apply in_map_iff in Ho as ([k f] & <- & Ho). apply filter_In in Ho as [Ho Hk]. cbn in *. apply usable_named, (U k f Ho). }
  exists m. split; [exact E|]. split; [exact Nm|]. split; [intros C; eapply combined_sorted; [|exact E]; exact C|].
  split; [rewrite Cm, flat_map_map; reflexivity|]. intros t r. rewrite Im, matched_row_named, matched_row_in by assumption. reflexivity.
Qed.
Lemma names_perm (data : df_dict) tref (ref : frame) : NoDup (map fst data) -> In (tref, ref) data ->
  Permutation (tref :: filter (fun k => negb (String.eqb k tref)) (map fst data)) (map fst (data : df_dict)).
Proof.
  intros N I. apply NoDup_Permutation.
  - constructor; [intros C; apply filter_In in C as [_ C]; rewrite String.eqb_refl in C; discriminate|apply NoDup_filter, N].
  - exact N.
  - intros n. cbn [In]. rewrite filter_In. split.
    + intros [<-|[H _]]; [apply (in_map fst) in I; exact I|exact H].
    + intros H. destruct (String.eqb_spec n tref) as [->|NE]; [left; reflexivity|right; auto].
Qed.
Lemma combinatory_one store oob w data tref ref : NoDup (map fst data) -> In (tref, ref) data -> (forall k f, In (k, f) data -> usable f) ->
  exists out F, combinatory_matcher store oob w data tref (List.length data) = Ok out /\ one_set out tref (map fst data) F /\
    NoDup (findex F) /\ (chronological (findex ref) -> StronglySorted Z.lt (findex F)) /\
    fcols F = flat_map columns_named ((tref, ref) :: others_of data tref) /\
    forall t r, In (t, r) (frows F) <->
      (exists rows, Forall2 (row_in tref w t) ((tref, ref) :: others_of data tref) rows /\ r = List.concat rows) /\ exists c, In c r /\ c <> None.
Proof.
  intros N I U. destruct (set_of_all store oob w data tref ref CDAll N I U) as (F & E & NF & SF & CF & RF).
  unfold combinatory_matcher. rewrite list_remove_nodup; [|exact N|apply (in_map fst) in I; exact I].
  rewrite (proj2 (dict_get_in data tref ref N) I). set (keys := filter _ (map fst data)) in *.
  assert (P : Permutation (tref :: keys) (map fst data)) by (eapply names_perm; eassumption).
  assert (L : List.length data = S (List.length keys)) by (apply Permutation_length in P; rewrite map_length in P; cbn in P; lia).
  rewrite L, combinations_all. cbn [match_loop]. unfold basic_match. rewrite E. cbn [bindR].
  exists (if Nat.eqb (List.length (frows F)) 0 then [] else dict_set key_eqb [] (tref :: s_sort str_leb keys) F), F. split; [reflexivity|].
  split; [|split; [exact NF|split; [exact SF|split; [exact CF|exact RF]]]].
  destruct (Nat.eqb_spec (List.length (frows F)) 0) as [Z0|NZ].
  - right. split; [reflexivity|]. destruct (frows F); [reflexivity|discriminate].
  - left. eexists. split; [reflexivity|]. split; [reflexivity|]. etransitivity; [|exact P]. constructor. apply s_sort_perm.
Qed.
Lemma combined_one store oob hour window data tref ref : NoDup (map fst data) -> In (tref, ref) data -> (forall k f, In (k, f) data -> usable f) ->
  exists out F, combined_matcher store oob hour window data tref (Some (List.length data)) = Ok out /\ one_set out tref (map fst data) F /\
    NoDup (findex F) /\ (chronological (findex ref) -> StronglySorted Z.lt (findex F)) /\
    fcols F = flat_map columns_named ((tref, ref) :: others_of data tref) /\
    forall t r, In (t, r) (frows F) <->
      (exists rows, Forall2 (row_in tref (match window with Some w => w | None => hour end) t) ((tref, ref) :: others_of data tref) rows /\ r = List.concat rows) /\
      forall c, In c r -> c <> None.
Proof.
  intros N I U. set (w := match window with Some w => w | None => hour end). destruct (set_of_all store oob w data tref ref CDAny N I U) as (F & E & NF & SF & CF & RF).
  unfold combined_matcher. rewrite Nat.eqb_refl. cbn [negb]. fold w. rewrite (proj2 (dict_get_in data tref ref N) I), E. cbn [bindR].
  rewrite list_remove_nodup; [|exact N|apply (in_map fst) in I; exact I].
  eexists. exists F. split; [reflexivity|]. split; [|split; [exact NF|split; [exact SF|split; [exact CF|exact RF]]]].
  left. eexists. split; [reflexivity|]. split; [reflexivity|]. eapply names_perm; eassumption.
Qed.
