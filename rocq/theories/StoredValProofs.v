(* Lemmas about scaling with stored parameters within a validation. *)
From Verif Require Import StoredValSpec BaseProofs SortProofs NamesProofs MatchersProofs ValidationProofs ValidationProofs2 MaskProofs ResultsProofs StoredProofs ValidationInputProps.
From Verif Require Import TemporalModel TemporalSpec.
Open Scope Z_scope.

Lemma enc_inj p q : enc p = enc q -> p = q.
Proof. destruct p, q. unfold enc. cbn [fst snd]. intros H. apply tup_inj in H as [-> ->]. reflexivity. Qed.
Lemma col_pos_enc (rt : list dscol) j p : NoDup rt -> nth_error rt j = Some p -> col_pos (enc p) (map enc rt) = Some j.
Proof.
  revert j. induction rt as [|x rt IH]; intros j N E; [destruct j; discriminate|]. apply NoDup_cons_iff in N as [N1 N2]. cbn [map col_pos]. destruct j as [|j]; cbn [nth_error] in E.
  - injection E as ->. rewrite String.eqb_refl. reflexivity.
  - destruct (String.eqb_spec (enc p) (enc x)) as [C|_]; [apply enc_inj in C; subst x; exfalso; apply N1; exact (nth_error_In _ _ E)|]. rewrite (IH j N2 E). reflexivity.
Qed.
Lemma columns_of_frame (d : frame) (rt : list dscol) : NoDup rt -> fcols d = map enc rt ->
  to_columns (drop_multiindex d) = map (fun p => (fst p, named_col d (enc p))) rt.
Proof.
  intros N E. unfold to_columns, drop_multiindex, set_columns. cbn [fcols frows]. rewrite E, map_map, map_length.
  apply (nth_error_ext' _ _ (List.length rt)); [rewrite map_length, seq_length; reflexivity|apply map_length|].
  intros j L. rewrite !nth_error_map. destruct (nth_error rt j) as [p|] eqn:EP; [|apply nth_error_None in EP; lia].
  rewrite (nth_error_nth' _ 0%nat) by (rewrite seq_length; exact L). rewrite seq_nth by exact L. cbn [option_map Nat.add]. f_equal.
  unfold named_col. rewrite E, (col_pos_enc rt j p N EP). f_equal. rewrite (nth_indep _ _ (untup (enc p))) by (rewrite map_length; exact L).
  rewrite (map_nth (fun x => untup (enc x)) rt p j). rewrite (nth_error_nth rt j p EP). apply untup_enc.
Qed.

Lemma col_pos_nth (x : string) l i : col_pos x l = Some i -> nth_error l i = Some x.
Proof.
  revert i. induction l as [|y l IH]; intros i H; [discriminate|]. cbn [col_pos] in H. destruct (String.eqb_spec x y) as [->|_]; [injection H as <-; reflexivity|].
  destruct (col_pos x l) as [j|]; [|discriminate]. injection H as <-. cbn. apply IH. reflexivity.
Qed.
Lemma index_of_ref (rt : list dscol) (vals : dscol -> list cell) sref i : index_of sref (map fst rt) = Ok i ->
  exists col, In (sref, col) rt /\ py_index (map (fun p => (fst p, vals p)) rt) (Z.of_nat i) = Ok (sref, vals (sref, col)).
Proof.
  unfold index_of. destruct (col_pos sref (map fst rt)) as [j|] eqn:E; [|discriminate]. intros H. injection H as <-. apply col_pos_nth in E. rewrite nth_error_map in E.
  destruct (nth_error rt j) as [[a b]|] eqn:EN; [|discriminate]. cbn [option_map fst] in E. injection E as ->. exists b. split; [exact (nth_error_In _ _ EN)|].
  assert (L : (j < List.length rt)%nat) by (apply nth_error_Some; congruence). unfold py_index. rewrite map_length.
  destruct (Z.ltb_spec (Z.of_nat j) 0); [lia|]. destruct (Z.leb_spec 0 (Z.of_nat j)); [|lia]. destruct (Z.ltb_spec (Z.of_nat j) (Z.of_nat (List.length rt))); [|lia]. cbn [andb].
  rewrite Nat2Z.id, nth_error_map, EN. reflexivity.
Qed.

Section Loop.
Context {G V : Type}.
Variable c : @config G V.

(* the step of one combination *)
Definition step_data (matched : list (list string * frame)) (key : list dscol) (d : frame) (i : nat) : Prop :=
  extract c true matched key = Ok (Some d) /\ index_of (c_sref c) (fcols (drop_multiindex d)) = Ok i.

Lemma scale_keys_fixed o only_ref matched gpi keys : forall st p st' outs, gp_get st gpi = Some p ->
  scale_keys o st c only_ref matched gpi keys = (st', VOk outs) ->
  forall key out, In (key, out) outs -> In key keys /\ exists d i, step_data matched key d i /\ scale_columns p (to_columns (drop_multiindex d)) (Z.of_nat i) = Ok out.
Proof.
  induction keys as [|k keys IH]; intros st p st' outs GP H key out I; cbn [scale_keys] in H.
  - assert (outs = []) by congruence. subst outs. destruct I.
  - destruct (extract c true matched k) as [[d|]|] eqn:EX; [| |discriminate].
    2:{ destruct (IH st p st' outs GP H key out I) as [A B]. split; [right; exact A|exact B]. }
    destruct (skip_key c only_ref k); [destruct (IH st p st' outs GP H key out I) as [A B]; split; [right; exact A|exact B]|].
    destruct (Nat.eqb (List.length (frows d)) 0); [destruct (IH st p st' outs GP H key out I) as [A B]; split; [right; exact A|exact B]|].
    cbv zeta in H. destruct (index_of (c_sref c) (fcols (drop_multiindex d))) as [i|] eqn:EI; [|discriminate].
    rewrite (scale_with_stored o st _ _ gpi p GP) in H. destruct (scale_columns p _ _) as [o1|] eqn:ES; [|discriminate].
    destruct (scale_keys o st c only_ref matched gpi keys) as [st2 r] eqn:EK. destruct r as [l|]; cbn [bindV] in H; [|discriminate].
    assert (outs = (k, o1) :: l) by congruence. subst outs. destruct I as [I|I].
    + assert (k = key) by congruence. assert (o1 = out) by congruence. subst. split; [left; reflexivity|]. exists d, i. split; [split; assumption|exact ES].
    + destruct (IH st p st2 l GP EK key out I) as [A B]. split; [right; exact A|exact B].
Qed.

(* the parameters are those of the first combination that is scaled *)
Lemma scale_keys_first o only_ref matched gpi keys : forall st st' outs, gp_get st gpi = None ->
  scale_keys o st c only_ref matched gpi keys = (st', VOk outs) -> outs = [] \/
  exists key0 d0 i0 p, In key0 keys /\ step_data matched key0 d0 i0 /\ calc_parameters o (to_columns (drop_multiindex d0)) (Z.of_nat i0) = Ok p /\
    forall key out, In (key, out) outs -> In key keys /\ exists d i, step_data matched key d i /\ scale_columns p (to_columns (drop_multiindex d)) (Z.of_nat i) = Ok out.
Proof.
  induction keys as [|k keys IH]; intros st st' outs GP H; cbn [scale_keys] in H; [left; congruence|].
  assert (SKIP : scale_keys o st c only_ref matched gpi keys = (st', VOk outs) -> outs = [] \/
    exists key0 d0 i0 p, In key0 (k :: keys) /\ step_data matched key0 d0 i0 /\ calc_parameters o (to_columns (drop_multiindex d0)) (Z.of_nat i0) = Ok p /\
      forall key out, In (key, out) outs -> In key (k :: keys) /\ exists d i, step_data matched key d i /\ scale_columns p (to_columns (drop_multiindex d)) (Z.of_nat i) = Ok out).
  { intros H'. destruct (IH st st' outs GP H') as [E|(key0 & d0 & i0 & p & K & SD & CP & ALL)]; [left; exact E|]. right. exists key0, d0, i0, p. split; [right; exact K|]. split; [exact SD|]. split; [exact CP|].
    intros key out I. destruct (ALL key out I) as [A B]. split; [right; exact A|exact B]. }
  destruct (extract c true matched k) as [[d|]|] eqn:EX; [|exact (SKIP H)|discriminate].
  destruct (skip_key c only_ref k); [exact (SKIP H)|]. destruct (Nat.eqb (List.length (frows d)) 0); [exact (SKIP H)|]. clear SKIP.
  cbv zeta in H. destruct (index_of (c_sref c) (fcols (drop_multiindex d))) as [i|] eqn:EI; [|discriminate].
  unfold stored_scale, get_parameters in H. rewrite GP in H. destruct (calc_parameters o (to_columns (drop_multiindex d)) (Z.of_nat i)) as [p|] eqn:CP; [|discriminate]. cbn [bindR] in H.
  unfold store_parameters in H. destruct p as [|e p]; [discriminate|]. cbn [mapR] in H.
  set (st1 := dict_set Z.eqb st gpi (e :: p)) in *. destruct (scale_columns (e :: p) _ _) as [o1|] eqn:ES; [|discriminate].
  destruct (scale_keys o st1 c only_ref matched gpi keys) as [st2 r] eqn:EK. destruct r as [l|]; cbn [bindV] in H; [|discriminate].
  assert (outs = (k, o1) :: l) by congruence. subst outs. right. exists k, d, i, (e :: p). split; [left; reflexivity|]. split; [split; assumption|]. split; [exact CP|].
  intros key out [I|I].
  - assert (k = key) by congruence. assert (o1 = out) by congruence. subst. split; [left; reflexivity|]. exists d, i. split; [split; assumption|exact ES].
  - assert (G1 : gp_get st1 gpi = Some (e :: p)) by (unfold st1; rewrite gp_get_set, Z.eqb_refl; reflexivity).
    destruct (scale_keys_fixed o only_ref matched gpi keys st1 (e :: p) st2 l G1 EK key out I) as [A B]. split; [right; exact A|exact B].
Qed.

(* the columns that are read have different datasets *)
Lemma read_distinct k key rt scol : wf_dict (c_ds c) -> single_columns (c_ds c) -> selection (c_ds c) k key -> columns_of (c_ds c) (c_sref c) = Some [scol] ->
  read_columns c key rt -> NoDup (map fst rt) /\ (forall ds col, In (ds, col) rt -> In (ds, [col]) (c_ds c)) /\ (c_scale c <> None -> In (c_sref c, scol) rt).
Proof.
  intros W SC (LK & SS & SI) ES RC. apply (columns_of_in _ _ _ (proj1 W)) in ES.
  assert (KS : forall ds col, In (ds, col) key -> In (ds, [col]) (c_ds c)).
  { intros ds col I. destruct (SI ds col I) as (cols & D & C). destruct (SC ds cols D) as (col' & ->). destruct C as [->|[]]. exact D. }
  unfold read_columns in RC. destruct (c_scale c) as [s|]; [|subst rt; split; [apply strict_nodup, SS|split; [exact KS|congruence]]].
  destruct RC as (col & rest & EC & RC). apply (columns_of_in _ _ _ (proj1 W)) in EC.
  assert (EQ : col :: rest = [scol]).
  { apply (columns_of_in _ _ _ (proj1 W)) in ES. apply (columns_of_in _ _ _ (proj1 W)) in EC. congruence. }
  injection EQ as -> ->. destruct RC as [[I ->]|[N ->]].
  - split; [apply strict_nodup, SS|]. split; [exact KS|]. intros _. exact I.
  - rewrite map_app. cbn [map fst]. split; [|split].
    + apply NoDup_rev in SS || idtac. assert (NI : ~ In (c_sref c) (map fst key)).
      { intros J. apply in_map_iff in J as ([ds col] & E & J). cbn [fst] in E. subst ds. pose proof (KS _ _ J) as X. apply N.
        apply (columns_of_in _ _ _ (proj1 W)) in X. apply (columns_of_in _ _ _ (proj1 W)) in ES. assert (col = scol) by congruence. subst col. exact J. }
      apply nodup_app; [apply strict_nodup, SS|constructor; [intros []|constructor]|]. intros x X [Y|[]]. subst x. contradiction.
    + intros ds col I. apply in_app_or in I as [I|[I|[]]]; [exact (KS ds col I)|]. injection I as <- <-. exact ES.
    + intros _. apply in_or_app. right. left. reflexivity.
Qed.
End Loop.

(* success with given parameters *)
Lemma scale_columns_iff o data0 i0 ref0 p data i ref : NoDup (map fst data0) -> py_index data0 i0 = Ok ref0 -> calc_parameters o data0 i0 = Ok p ->
  py_index data i = Ok ref -> fst ref = fst ref0 ->
  ((exists out, scale_columns p data i = Ok out) <-> incl (map fst data) (map fst data0)).
Proof.
  intros N R0 CP R1 ER. destruct (calc_parameters_get o data0 i0 ref0 p N R0 CP) as [A B]. split.
  - intros (out & H). pose proof (scale_columns_inv p data i ref out R1 H) as F. intros n I. apply in_map_iff in I as (cc & <- & I).
    destruct (Forall2_In_l _ _ _ F cc I) as (d & _ & _ & [[E _]|[_ (t & T & _)]]).
    + rewrite E, ER. apply in_map. exact (py_index_in _ _ _ R0).
    + rewrite ER in T. destruct (B _ _ T) as (c' & C' & E' & _). rewrite <- E'. apply in_map, C'.
  - intros I. unfold scale_columns. rewrite R1. cbn [bindR].
    assert (X : forall l, incl (map fst l) (map fst data0) -> exists out, seqR (map (fun c => if String.eqb (fst c) (fst ref) then Ok c
        else match str_get p (param_key (fst c) (fst ref)) with None => Err EKey | Some t => Ok (fst c, cdf_predict t (snd c)) end) l) = Ok out).
    { induction l as [|x l IH]; intros IL; [eexists; reflexivity|]. destruct IH as (out & E); [intros y Y; apply IL; right; exact Y|]. cbn [map seqR].
      destruct (String.eqb_spec (fst x) (fst ref)) as [_|NE]; cbn [bindR]; [rewrite E; eexists; reflexivity|].
      assert (IX : In (fst x) (map fst data0)) by (apply IL; left; reflexivity). apply in_map_iff in IX as (y & EY & Y).
      destruct (A y Y) as (t & T & _); [congruence|]. rewrite EY, <- ER in T. rewrite T. cbn [bindR]. rewrite E. eexists. reflexivity. }
    apply X, I.
Qed.
