(* Proofs about validation runs with scaling and masking: the rows of the combinations. *)
From Verif Require Import RunScaleSpec BaseProofs SortProofs NamesProofs TemporalProofs MatchersProofs ValidationProofs ValidationProofs2 ValidationInputProps RunProofs RunProofs2 RunScaleProofs.
From Verif Require Import TemporalModel TemporalSpec.

Lemma compared_columns {G V} (c : @config G V) dfs data tref w key t r : wf_dict (c_ds c) -> delivered (c_ds c) dfs -> data_columns c dfs data ->
  (forall nm cl, In (nm, cl) key -> exists cols, In (nm, cols) (c_ds c) /\ In cl cols) ->
  (compared data tref w key t r <-> compared dfs tref w key t r).
Proof.
  intros W D DC SEL. unfold compared. rewrite (has_time_data c dfs data D DC tref t).
  assert (E : Forall2 (observed data tref w t) key r <-> Forall2 (observed dfs tref w t) key r).
  { clear -SEL W D DC. split; intros F; (induction F as [|[n col] v key r O F IH]; constructor; [|apply IH; intros; apply SEL; right; assumption]);
      destruct (SEL n col (or_introl eq_refl)) as (cs & A & B); apply (observed_data c dfs data W D DC tref w t n col cs v A B); exact O. }
  rewrite E. reflexivity.
Qed.

(* masking removes observations of the temporal reference only *)
Lemma mask_dataset_rows {G V} (c : @config G V) mds gm ref g masked : mask_dataset c mds gm ref g = Ok masked ->
  fcols masked = fcols ref /\ exists bs, frows masked = mask_select bs (frows ref).
Proof.
  unfold mask_dataset. destruct (match_masking c gm ref g) as [matched|]; [|discriminate]. cbn [bindR].
  destruct (get_result_names mds "_reference" 2) as [names|]; [|discriminate]. cbn [bindR].
  destruct (seqR _) as [datas|]; [|discriminate]. cbn [bindR]. intros [= <-]. cbn [fcols frows]. split; [reflexivity|]. eexists. reflexivity.
Qed.
Lemma mask_select_sub {A} bs (l : list A) x : In x (mask_select bs l) -> In x l.
Proof.
  revert l. induction bs as [|b bs IH]; intros [|y l] H; cbn in H; try contradiction. destruct b; [destruct H as [<-|H]; [left; reflexivity|]|]; right; apply IH, H.
Qed.
Lemma sorted_mask {A} (P : A -> A -> Prop) bs l : StronglySorted P l -> StronglySorted P (mask_select bs l).
Proof.
  intros S. revert bs. induction S as [|x l S IH F]; intros [|b bs]; cbn; try constructor. destruct b; [|apply IH]. constructor; [apply IH|].
  apply Forall_forall. intros y Hy. apply mask_select_sub in Hy. rewrite Forall_forall in F. apply F, Hy.
Qed.
Lemma map_mask {A B} (f : A -> B) bs l : map f (mask_select bs l) = mask_select bs (map f l).
Proof. revert l. induction bs as [|b bs IH]; intros [|x l]; cbn; try reflexivity. destruct b; cbn; rewrite IH; reflexivity. Qed.

Section Both.
Context {G V : Type}.
Variable code : Z -> V.
Variables (c : @config G V) (F : nat -> list field) (col : string) (g : G) (dfs0 dfs : df_dict) (rn oref : bool).
Hypothesis RUN : scaled_run c F col.
Hypothesis GET : c_get c g = Ok dfs0.
Hypothesis MD : masked_data c g dfs0 dfs.
Hypothesis D : delivered (c_ds c) dfs.

Lemma both_scaled w (KR : row -> Prop) (K : Z -> Prop) ig :
  (forall data ref, NoDup (map fst data) -> In (c_tref c, ref) data -> (forall k f, In (k, f) data -> usable f) -> List.length data = List.length (c_ds c) ->
    exists out joined, c_match c data (c_tref c) (List.length (c_ds c)) = Ok out /\ one_set out (c_tref c) (map fst data) joined /\
      NoDup (findex joined) /\ (chronological (findex ref) -> StronglySorted Z.lt (findex joined)) /\
      fcols joined = flat_map columns_named ((c_tref c, ref) :: others_of data (c_tref c)) /\
      forall t r, In (t, r) (frows joined) <->
        (exists rows, Forall2 (row_in (c_tref c) w t) ((c_tref c, ref) :: others_of data (c_tref c)) rows /\ r = List.concat rows) /\ KR r) ->
  (forall key data L t rows r, key <> [] -> data_columns c dfs data -> (forall e, In e L <-> In e data) -> NoDup (map fst L) -> Forall2 (row_in (c_tref c) w t) L rows ->
     compared L (c_tref c) w key t r -> (KR (List.concat rows) <-> K t)) ->
  exists R : list dscol -> list (Z * row),
    (forall n k f key, reported c oref n k f key ->
       NoDup (map fst (R key)) /\
       (forall ref, In (c_tref c, ref) dfs -> chronological (findex ref) -> StronglySorted Z.lt (map fst (R key))) /\
       (forall t r, In (t, r) (R key) <-> compared dfs (c_tref c) w (columns_read c col key) t r /\ K t)) /\
    forall n k f key m, reported c oref n k f key -> gpi_metrics code c ig rn oref g key m ->
      (some_scaling_error c oref g col R -> failed_with code f key g SCALING_FAILED m) /\
      (~ some_scaling_error c oref g col R ->
         scaled_outcome code c f (if rn then numbered k else map fst key) key (columns_read c col key) g (R key) m).
Proof.
  intros MATCH KK. destruct RUN as (W & SH & SR & TR & C). assert (WD := proj1 W).
  destruct (columns_exist c dfs WD D) as (data & DC).
  assert (ND := data_nodup c dfs data D DC).
  assert (UD := data_usable c dfs data WD D DC).
  assert (DN := data_names c dfs data DC).
  assert (D' := D). destruct D' as (ND0 & NS & U0).
  assert (IT : In (c_tref c) (map fst dfs)) by (apply NS, TR).
  assert (ITd : In (c_tref c) (map fst data)) by (rewrite DN; exact IT).
  apply in_map_iff in ITd as ([tr0 ref] & ET & IR). cbn in ET. subst tr0.
  assert (LD : List.length data = List.length (c_ds c)).
  { assert (P : Permutation (map fst data) (map fst (c_ds c))) by (apply NoDup_Permutation; [exact ND|exact (proj1 WD)|intros x; rewrite DN; apply NS]).
    apply Permutation_length in P. rewrite !map_length in P. exact P. }
  destruct (MATCH data ref ND IR (fun a b Iab => proj1 (UD a b Iab)) LD) as (out & joined & EM & OS & NF & SF & CF & RF).
  set (L := (c_tref c, ref) :: others_of data (c_tref c)) in *.
  assert (PL : Permutation L data) by (apply others_perm; assumption).
  assert (IL : forall e, In e L <-> In e data) by (intros e; split; apply Permutation_in; [exact PL|symmetry; exact PL]).
  assert (NL : NoDup (map fst L)) by (eapply Permutation_NoDup; [symmetry; apply Permutation_map; exact PL|exact ND]).
  assert (UL : forall n f, In (n, f) L -> usable f /\ NoDup (fcols f)) by (intros a b Iab; apply IL in Iab; exact (UD a b Iab)).
  assert (NE : dfs0 <> []).
  { intros ->. unfold masked_data in MD. destruct (c_mask c) as [[mds gm]|]; [|subst dfs; destruct IT]. destruct MD as (r0 & m0 & E & _). discriminate E. }
  assert (CP : forall n cols col, In (n, cols) (c_ds c) -> In col cols -> In (enc (n, col)) (fcols joined)).
  { intros nm cols cl A B. rewrite CF. apply in_flat_map.
    assert (In nm (map fst data)) by (rewrite DN; apply NS; apply (in_map fst) in A; exact A).
    apply in_map_iff in H as ([nm' d] & E & Id). cbn in E. subst nm'. exists (nm, d). split; [apply IL, Id|].
    destruct (data_of c dfs data DC nm d Id) as (f0 & cs & If & Ics & Se).
    assert (cs = cols) by exact (nodup_key (c_ds c) _ cs cols (proj1 WD) Ics A). subst cs.
    destruct (select_usable f0 cols d Se (proj1 (U0 nm f0 If))) as (_ & Ec & _). unfold columns_named, enc. cbn [fst snd]. rewrite Ec. apply in_map. exact B. }
  assert (MT : forall n k f, In ((n, k), f) (c_calcs c) -> c_match c data (c_tref c) n = Ok out) by (intros a b h Hh; rewrite (proj1 (C a b h Hh)); exact EM).
  exists (fun key => match select_columns (map enc (columns_read c col key)) joined with Ok f => frows (dropna_any f) | Err _ => [] end). split.
  - intros n k f key REP. assert (REP' := REP). destruct REP' as (IC & SEL & _).
    destruct (rows_spec c F col dfs data out joined W SR (fun a b h Hh => proj2 (C a b h Hh)) D DC MT CP k key SEL) as (d & CR & -> & _).
    destruct (rt_spec c col joined W SR k key SEL) as (_ & _ & SEL' & _).
    assert (NK : columns_read c col key <> []).
    { assert (K1 := proj1 (proj2 W) n k f IC). destruct SEL as (LK & _). unfold columns_read. destruct (c_scale c); [destruct (existsb _ _)|]; intros E;
        (destruct key; [cbn in LK; lia|discriminate]). }
    assert (SUB : exists p (l : list (Z * row)), frows d = filter p l /\ map fst l = findex joined).
    { destruct CR as (_ & ps & _ & E). eexists. eexists. split; [exact E|]. rewrite map_map. reflexivity. }
    destruct SUB as (p & l & El & Ef). split; [|split].
    + rewrite El. rewrite <- Ef in NF. clear -NF. induction l as [|x l IH]; cbn; [constructor|]. cbn in NF. inversion NF as [|? ? N1 N2]; subst.
      destruct (p x); [|apply IH, N2]. cbn. constructor; [|apply IH, N2]. intros C. apply N1. apply in_map_iff in C as (y & E & C). apply filter_In in C as [C _].
      rewrite <- E. apply in_map, C.
    + intros ref0 I0 C0. rewrite El. apply sorted_index_filter. rewrite Ef. apply SF.
      destruct (data_of c dfs data DC _ _ IR) as (f0 & cs & If & Ics & Se). assert (f0 = ref0) by exact (nodup_key dfs _ f0 ref0 ND0 If I0). subst f0.
      rewrite (proj2 (proj2 (select_usable ref0 cs ref Se (proj1 (U0 _ _ I0))))). exact C0.
    + intros t r.
      assert (REFIN : In (c_tref c) (map fst L)) by (left; reflexivity).
      rewrite (set_rows (c_tref c) w L joined (fun _ => KR) (columns_read c col key) d NL UL REFIN CF RF CR t r).
      rewrite <- (compared_columns c dfs data (c_tref c) w (columns_read c col key) t r WD D DC SEL').
      split.
      * intros [CO H]. split; [apply (compared_perm L data _ _ _ _ _ IL CO)|].
        destruct (rows_exist (c_tref c) w t L) as (rows & FR).
        { intros [a b] Iab. apply (UL a b Iab). }
        { intros [a b] Iab Ea. cbn in Ea. subst a. destruct CO as ((ref' & I' & HT) & _). cbn. rewrite (nodup_key L _ b ref' NL Iab I'). exact HT. }
        apply (KK _ data L t rows r NK DC IL NL FR CO). apply H, FR.
      * intros [CO H]. assert (CO' : compared L (c_tref c) w (columns_read c col key) t r) by (apply (compared_perm data L); [intros e; symmetry; apply IL|exact CO]).
        split; [exact CO'|]. intros rows FR. apply (KK _ data L t rows r NK DC IL NL FR CO'). exact H.
  - intros n k f key m REP GM.
    exact (scaled_point code c F col g dfs0 dfs data out joined rn oref W SH SR (fun a b h Hh => proj2 (C a b h Hh)) GET NE MD D DC MT OS CP ig n k f key m REP GM).
Qed.
End Both.
