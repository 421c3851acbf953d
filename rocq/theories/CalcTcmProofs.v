(* Proofs about TCMetrics. *)
From Coq Require Import Reals Qreals List Lra Lia.
From Verif Require Import Base BaseProofs Calendar NamesModel NamesProofs GroupingModel RStats MetricsModel RollingModel TcolModel TcolProofs ConfintModel
  ConfintProofs2 StoredProofs DfMetricsModel DfMetricsSpec DfMetricsProofs DfMetricsProofs2 DfMetricsProps.
From Verif Require Import CalcModel CalcSpec CalcProofs CalcProofs2 CalcProofs3 CalcProofs4 CalcPairsModel CalcPairsSpec CalcPairsProofs CalcPairsProofs2.
Open Scope string_scope.
Open Scope list_scope.

(* ---- assigning known entries only ---- *)
Definition known (d : dataset) (k : key) : bool := match ds_get d k with Some _ => true | None => false end.
Lemma assign_known_ok l : forall d, (forall e, In e l -> known d (fst e) = true -> single d (fst e)) ->
  assign_known d l = assigns d (filter (fun e => known d (fst e)) l).
Proof.
  induction l as [|[k v] l IH]; intros d H; [reflexivity|]. cbn [assign_known filter fst]. unfold known at 1.
  destruct (ds_get d k) as [w|] eqn:E.
  - cbn [assigns]. assert (S1 : single d k). { apply (H (k, v)); [now left|]. cbn. unfold known. now rewrite E. }
    rewrite (set0_ok d k v S1). cbn [bindR].
    assert (KN : forall k', known (ds_set d k (Arr [v])) k' = known d k').
    { intros k'. unfold known. rewrite get_set. destruct (k_eqb_spec k k') as [<-|]; [now rewrite E|reflexivity]. }
    rewrite IH.
    + f_equal. apply filter_ext. intros e. apply KN.
    + intros e I K. apply single_set. apply (H e); [now right|]. now rewrite KN in K.
  - apply IH. intros e I. apply H. now right.
Qed.

(* ---- the triples ---- *)
Definition ref_combs (n : nat) : list (list nat) := n_combinations Nat.eqb (fun i => negb (Nat.eqb i 0)) (seq 0 n) 3 (MList [0%nat]) false.

Lemma name_combs others : NoDup ("ref" :: others) -> let cols := "ref" :: others in
  n_combinations String.eqb truthy cols 3 (MList ["ref"]) false = map (map (fun i => nth i cols "")) (ref_combs (List.length cols)).
Proof.
  intros N cols. unfold ref_combs, n_combinations. rewrite (map_nth_seq "" cols) at 1. rewrite combinations_map.
  assert (G : forall l, (forall c, In c l -> forall i, In i c -> (i < List.length cols)%nat) ->
    filter (fun c => forallb (fun i => existsb (String.eqb i) c) ["ref"]) (map (map (fun i => nth i cols "")) l) =
    map (map (fun i => nth i cols "")) (filter (fun c => forallb (fun i => existsb (Nat.eqb i) c) [0%nat]) l)).
  { induction l as [|c l IH]; intros B; [reflexivity|]. cbn [map filter].
    assert (E : forallb (fun i => existsb (String.eqb i) (map (fun i => nth i cols "") c)) ["ref"] = forallb (fun i => existsb (Nat.eqb i) c) [0%nat]).
    { cbn [forallb]. f_equal. apply Bool.eq_iff_eq_true. rewrite !existsb_exists. split.
      - intros (s & I & E). apply String.eqb_eq in E. subst s. apply in_map_iff in I as (i & E & I). exists i. split; [exact I|].
        apply Nat.eqb_eq. symmetry. apply (proj1 (NoDup_nth cols "") N i 0%nat); [exact (B c (or_introl eq_refl) i I)|cbn; lia|exact E].
      - intros (i & I & E). apply Nat.eqb_eq in E. subst i. exists "ref". split; [|apply String.eqb_refl]. apply in_map_iff. exists 0%nat. auto. }
    rewrite E. destruct (forallb (fun i => existsb (Nat.eqb i) c) [0%nat]); cbn [map]; [f_equal|]; apply IH; intros c' I'; apply B; now right. }
  apply G. intros c I i Ic. apply combinations_in in I as [I _]. apply (sublist_in _ _ _ I) in Ic. apply in_seq in Ic. lia.
Qed.

Lemma ref_combs_in n c : In c (ref_combs n) <-> exists a b, c = [0; a; b]%nat /\ (0 < a < b)%nat /\ (b < n)%nat.
Proof.
  unfold ref_combs. rewrite (C63_combinations Nat.eqb _ Nat.eqb_eq). split.
  - intros (S1 & L & R). specialize (R 0%nat (or_introl eq_refl)). apply selection_sublist in S1.
    assert (INC : forall l m s, sublist l (seq s m) -> StronglySorted lt l /\ Forall (fun i => s <= i < s + m)%nat l).
    { clear. intros l m. revert l. induction m as [|m IH]; intros l s H.
      - inversion H; subst. split; constructor.
      - cbn [seq] in H. inversion H as [|x k l' H' E1 E2|x k l' H' E1]; subst.
        + split; constructor.
        + destruct (IH _ _ H') as [A B]. split.
          * constructor; [exact A|]. rewrite Forall_forall in B |- *. intros j J. specialize (B j J). lia.
          * constructor; [lia|]. rewrite Forall_forall in B |- *. intros j J. specialize (B j J). lia.
        + destruct (IH _ _ H') as [A B]. split; [exact A|]. rewrite Forall_forall in B |- *. intros j J. specialize (B j J). lia. }
    destruct (INC _ _ _ S1) as [A B]. destruct c as [|x [|a [|b [|? ?]]]]; try discriminate.
    apply StronglySorted_inv in A as [A A1]. apply StronglySorted_inv in A as [A A2]. rewrite Forall_forall in A1, A2, B.
    pose proof (A1 a (or_introl eq_refl)). pose proof (A2 b (or_introl eq_refl)).
    assert (x = 0%nat). { destruct R as [->|[->|[->|[]]]]; [reflexivity|lia|lia]. }
    subst x. exists a, b. split; [reflexivity|]. specialize (B b ltac:(cbn; tauto)). lia.
  - intros (a & b & -> & L1 & L2). split; [|split; [reflexivity|]].
    + apply selection_sublist. replace n with (1 + (a - 1 + (1 + (b - a - 1 + (1 + (n - b - 1))))))%nat by lia.
      assert (SK : forall x y c : list nat, sublist x y -> sublist x (c ++ y)) by (intros x y c X; induction c; cbn; [exact X|constructor; assumption]).
      cbn [Nat.add seq]. apply sub_take. rewrite seq_app. apply SK. replace (1 + (a - 1))%nat with a by lia. cbn [Nat.add seq]. apply sub_take.
      rewrite seq_app. apply SK. replace (S a + (b - a - 1))%nat with b by lia. cbn [seq]. apply sub_take, sub_nil.
    + intros x [<-|[]]. now left.
Qed.

Lemma map_inj {A B} (g : A -> B) l a b : NoDup (map g l) -> In a l -> In b l -> g a = g b -> a = b.
Proof.
  induction l as [|x l IH]; intros N Ia Ib E; [destruct Ia|]. cbn [map] in N. apply NoDup_cons_iff in N as [N1 N2].
  destruct Ia as [->|Ia], Ib as [->|Ib]; auto.
  - exfalso. apply N1. rewrite E. now apply in_map.
  - exfalso. apply N1. rewrite <- E. now apply in_map.
Qed.

(* a column by its name *)
Definition colv (f : frame) (c : string) : list cell := match column f c with Ok v => v | Err _ => [] end.
Lemma index_of_nth l i : NoDup l -> (i < List.length l)%nat -> index_of l (nth i l "") = Some i.
Proof.
  revert i. induction l as [|x l IH]; intros i N L; [cbn in L; lia|]. apply NoDup_cons_iff in N as [N1 N2]. destruct i as [|i]; cbn [index_of nth].
  - now rewrite String.eqb_refl.
  - destruct (String.eqb_spec x (nth i l "")) as [->|_]; [exfalso; apply N1, nth_In; cbn in L; lia|]. rewrite IH by (first [assumption|cbn in L; lia]). reflexivity.
Qed.
Lemma colv_nth f i : NoDup (f_cols f) -> (i < List.length (f_cols f))%nat -> colv f (nth i (f_cols f) "") = nth i (map snd (table f)) [].
Proof.
  intros N L. unfold colv, column. rewrite index_of_nth by assumption. rewrite table_snd.
  rewrite (nth_indep (map (col_at f) (seq 0 (List.length (f_cols f)))) [] (col_at f 0)) by (rewrite map_length, seq_length; lia).
  rewrite map_nth, seq_nth by lia. reflexivity.
Qed.

(* the estimates for three columns given by name *)
Definition triple_of (f : frame) (names : key) (q : nat) : list (string * option R) :=
  combine names (match tcol_method 0 (map (colv f) names) with Ok c => nth q c [] | Err _ => [] end).

Lemma triple_names f names q : (q < 3)%nat -> List.length names = 3%nat -> map fst (triple_of f names q) = names.
Proof.
  intros Q L. unfold triple_of. destruct names as [|a [|b [|c [|? ?]]]]; try discriminate. apply combine_names. cbn [map].
  unfold tcol_method, tcol_metrics, tcol_metrics_from_cov. cbn [Nat.ltb Nat.leb].
  match goal with |- context [np_cov ?r] => destruct (np_cov r) end; cbn [mapR fst snd]; destruct q as [|[|[|q]]]; try lia; reflexivity.
Qed.
Lemma triple_result_of f comb q : NoDup (f_cols f) -> In comb (ref_combs (List.length (f_cols f))) ->
  triple_result (table f) comb (position 0 comb) q = triple_of f (map (fun i => nth i (f_cols f) "") comb) q.
Proof.
  intros N I. apply ref_combs_in in I as (a & b & -> & L1 & L2). unfold triple_result, triple_of. cbn [position Nat.eqb].
  rewrite table_fst. f_equal. cbn [map]. rewrite !colv_nth by (first [assumption|lia]). reflexivity.
Qed.

(* ---- _tc_res_dict ---- *)
Lemma res_dict_ok (rs : list (list (string * option R))) : forall acc, NoDup (map fst acc ++ map (map fst) rs) ->
  fold_left (fun d r => dict_set key_eqb d (map fst r) r) rs acc = acc ++ map (fun r => (map fst r, r)) rs.
Proof.
  induction rs as [|r rs IH]; intros acc N; cbn [fold_left map]; [rewrite app_nil_r; reflexivity|]. cbn [map] in N.
  rewrite (MaskProofs.dict_set_new _ dlist_eqb_spec).
  - rewrite IH; [rewrite <- app_assoc; reflexivity|]. rewrite map_app. cbn [map fst]. rewrite <- app_assoc. exact N.
  - intros I. apply NoDup_remove_2 in N. apply N, in_or_app. left; exact I.
Qed.
Lemma res_dict_get rs k r : NoDup (map (map fst) rs) -> In r rs -> map fst r = k -> exists d, tc_res_dict rs = Ok d /\ triple_get d k = Ok r.
Proof.
  intros N I E. unfold tc_res_dict. destruct rs as [|r0 rs0] eqn:ER; [destruct I|]. rewrite <- ER in *. eexists. split; [reflexivity|].
  rewrite (res_dict_ok rs []) by exact N. cbn [app]. unfold triple_get.
  destruct (find_key (map (fun r => (map fst r, r)) rs) k) as ([a v] & F & Ea).
  { rewrite map_map. cbn [fst]. apply in_map_iff. exists r. auto. }
  rewrite F. apply find_some in F as [F _]. apply in_map_iff in F as (r' & E' & I'). injection E' as Ea' <-. cbn [fst] in Ea. f_equal.
  apply (map_inj (map fst) rs); auto. congruence.
Qed.

(* ---- the layout ---- *)
Definition name_of (lay : layout) (c : string) : string := match lut_get (l_lut lay) c with Ok n => n | Err _ => "" end.
Lemma labels_in lut sep combs ps p : labels lut sep combs = Ok ps -> In p ps -> exists l, seqR (map (lut_get lut) (fst p)) = Ok l /\ snd p = String.concat sep l.
Proof.
  intros H I. apply seqR_inv in H. induction H as [|c [c' s] combs ps E _ IH]; [destruct I|]. destruct I as [<-|I]; [|auto].
  destruct (seqR (map (lut_get lut) c)) as [l|] eqn:S1; [|discriminate]. cbn [mapR] in E. injection E as <- <-. exists l. cbn [fst snd]. auto.
Qed.
Lemma seqR_each {A B} (g : A -> res B) l out : seqR (map g l) = Ok out -> forall a, In a l -> exists b, g a = Ok b.
Proof.
  revert out. induction l as [|x l IH]; intros out H a I; [destruct I|]. cbn in H. destruct (g x) as [b|] eqn:E; [|discriminate].
  destruct (seqR (map g l)) as [o|] eqn:E'; [|discriminate]. destruct I as [<-|I]; eauto.
Qed.
Lemma seqR_value {A B} (g : A -> res B) (h : A -> B) l : (forall a, In a l -> g a = Ok (h a)) -> seqR (map g l) = Ok (map h l).
Proof. apply TemporalProofs.seqR_map_ok. Qed.

Lemma tcm_init_ok others nonref names lay : tcm_init others nonref names = Ok lay -> NoDup ("ref" :: others) ->
  l_cols lay = "ref" :: others /\ (forall p, In p (l_pairs lay) -> In (fst p) (combinations 2 (l_cols lay))) /\
  map fst (l_triples lay) = map (map (fun i => nth i (l_cols lay) "")) (ref_combs (List.length (l_cols lay))) /\
  (forall t c, In t (l_triples lay) -> In c (fst t) -> lut_get (l_lut lay) c = Ok (name_of lay c)).
Proof.
  unfold tcm_init. intros H N. set (cols := "ref" :: others) in *.
  set (lut := combine cols match names with Some n => n | None => cols end) in *. clearbody lut.
  destruct (labels lut "_and_" (n_combinations String.eqb truthy cols 2 _ false)) as [ps|] eqn:E; [|discriminate]. cbn [bindR] in H.
  destruct (labels lut "_and_" (n_combinations String.eqb truthy cols 3 _ false)) as [ts|] eqn:E2; [|discriminate]. cbn [mapR] in H. injection H as <-.
  cbn [l_cols l_pairs l_triples l_lut]. split; [reflexivity|]. split; [|split].
  - intros p I. apply (in_map fst) in I. rewrite (labels_fst _ _ _ _ E) in I. unfold n_combinations in I. apply filter_In in I as [I _]. exact I.
  - rewrite (labels_fst _ _ _ _ E2). apply name_combs, N.
  - intros t c It Ic. destruct (labels_in _ _ _ _ t E2 It) as (l & S1 & _). destruct (seqR_each _ _ _ S1 c Ic) as (b & Eb).
    unfold name_of. cbn [l_lut]. rewrite Eb. reflexivity.
Qed.

(* ---- the values of the triples ---- *)
Definition triple_values (lay : layout) (f : frame) : list (key * rcell) :=
  flat_map (fun t => flat_map (fun qm => map (fun cv => ([t_key (snd qm) (name_of lay (fst cv)) (snd t)], RNum (snd cv))) (triple_of f (fst t) (fst qm)))
                              (combine (seq 0 3) tc_names)) (l_triples lay).
Definition triple_keys (lay : layout) : list string :=
  flat_map (fun t => flat_map (fun m => map (fun c => t_key m (name_of lay c) (snd t)) (fst t)) tc_names) (l_triples lay).

Lemma triple_values_keys lay f : (forall t, In t (l_triples lay) -> List.length (fst t) = 3%nat) ->
  map fst (triple_values lay f) = map (fun s => [s]) (triple_keys lay).
Proof.
  intros L. unfold triple_values, triple_keys. revert L. induction (l_triples lay) as [|t ts IH]; intros L; [reflexivity|].
  cbn [flat_map]. rewrite !map_app. rewrite IH by (intros x I; apply L; now right). f_equal.
  specialize (L t (or_introl eq_refl)). cbn [seq combine tc_names flat_map fst snd]. rewrite !app_nil_r, !map_app, !map_map. cbn [fst].
  assert (T : forall m q, (q < 3)%nat -> map (fun x : string * option R => [t_key m (name_of lay (fst x)) (snd t)]) (triple_of f (fst t) q) =
    map (fun x => [t_key m (name_of lay x) (snd t)]) (fst t)).
  { intros m q Q. rewrite <- (triple_names f (fst t) q Q L) at 2. rewrite map_map. reflexivity. }
  rewrite !T by lia. reflexivity.
Qed.

Lemma full_columns f : (forall r, In r (f_rows f) -> List.length (snd r) = List.length (f_cols f) /\ Forall (fun x => x <> None) (snd r)) ->
  forall c, In c (table f) -> Forall (fun x => x <> None) (snd c).
Proof.
  intros H c I. apply (in_map snd) in I. rewrite table_snd in I. apply in_map_iff in I as (i & E & I). apply in_seq in I. rewrite <- E.
  unfold col_at. apply Forall_forall. intros x Ix. apply in_map_iff in Ix as (r & <- & Ir). destruct (H r Ir) as [L F].
  rewrite Forall_forall in F. apply F. apply nth_In. unfold cell in *. lia.
Qed.

Lemma triple_entries_ok lay f : NoDup (f_cols f) -> (3 <= List.length (f_cols f))%nat -> l_cols lay = f_cols f ->
  map fst (l_triples lay) = map (map (fun i => nth i (l_cols lay) "")) (ref_combs (List.length (l_cols lay))) ->
  (forall t c, In t (l_triples lay) -> In c (fst t) -> lut_get (l_lut lay) c = Ok (name_of lay c)) ->
  (1 <= nrows f)%nat ->
  (forall r, In r (f_rows f) -> List.length (snd r) = List.length (f_cols f) /\ Forall (fun x => x <> None) (snd r)) ->
  exists tc ds, df_tcol_metrics (table f) (Some 0%nat) = Ok tc /\
    (match tc with [snr; err; beta] => Ok (combine tc_names tc) | _ => Err EValue end) = Ok (combine tc_names tc) /\
    seqR (map (fun nd => mapR (fun d => (fst nd, d)) (tc_res_dict (snd nd))) (combine tc_names tc)) = Ok ds /\
    triple_entries lay ds = Ok (triple_values lay f).
Proof.
  intros N K LC TN LUT NR FULL. set (n := List.length (f_cols f)) in *.
  set (rs := fun q => map (fun names => triple_of f names q) (map (map (fun i => nth i (f_cols f) "")) (ref_combs n))).
  assert (TCOL : df_tcol_metrics (table f) (Some 0%nat) = Ok [rs 0%nat; rs 1%nat; rs 2%nat]).
  { rewrite (C52_reference_partial (table f) (nrows f) 0); auto.
    - rewrite table_ncols. fold n. fold (ref_combs n). cbn [map]. unfold rs. rewrite !map_map.
      assert (X : forall q, map (fun comb => triple_result (table f) comb (position 0 comb) q) (ref_combs n) =
                            map (fun x => triple_of f (map (fun i => nth i (f_cols f) "") x) q) (ref_combs n)).
      { intros q. apply map_ext_in. intros comb I. now apply triple_result_of. }
      now rewrite !X.
    - now apply table_wf.
    - rewrite table_ncols. exact K.
    - now apply full_columns.
    - rewrite table_ncols. lia. }
  assert (LEN3 : forall names, In names (map (map (fun i => nth i (f_cols f) "")) (ref_combs n)) -> List.length names = 3%nat).
  { intros names I. apply in_map_iff in I as (c & <- & I). apply ref_combs_in in I as (a & b & -> & _). reflexivity. }
  assert (NDN : NoDup (map (map (fun i => nth i (f_cols f) "")) (ref_combs n))).
  { apply nodup_map_inj.
    - intros a b Ia Ib E. apply (map_nth_inj (f_cols f)); auto;
        intros i I; [apply ref_combs_in in Ia as (x & y & -> & ? & ?)|apply ref_combs_in in Ib as (x & y & -> & ? & ?)];
        fold n; cbn in I; lia.
    - unfold ref_combs, n_combinations. apply NoDup_filter, combinations_nodup, seq_NoDup. }
  assert (KEYS : forall q, (q < 3)%nat -> map (map fst) (rs q) = map (map (fun i => nth i (f_cols f) "")) (ref_combs n)).
  { intros q Q. unfold rs. rewrite map_map. rewrite <- (map_id (map (map (fun i => nth i (f_cols f) "")) (ref_combs n))) at 2.
    apply map_ext_in. intros names I. apply triple_names; auto. }
  assert (NE : exists names, In names (map (map (fun i => nth i (f_cols f) "")) (ref_combs n))).
  { eexists. apply in_map. apply ref_combs_in. exists 1%nat, 2%nat. split; [reflexivity|]. lia. }
  assert (DICT : forall q, (q < 3)%nat -> exists d, tc_res_dict (rs q) = Ok d /\
            forall names, In names (map (map (fun i => nth i (f_cols f) "")) (ref_combs n)) -> triple_get d names = Ok (triple_of f names q)).
  { intros q Q. destruct NE as (n0 & I0).
    destruct (res_dict_get (rs q) n0 (triple_of f n0 q)) as (d & E & _).
    - rewrite KEYS; auto.
    - unfold rs. apply in_map_iff. eauto.
    - apply triple_names; auto.
    - exists d. split; [exact E|]. intros names I. destruct (res_dict_get (rs q) names (triple_of f names q)) as (d' & E' & G).
      + rewrite KEYS; auto.
      + unfold rs. apply in_map_iff. eauto.
      + apply triple_names; auto.
      + congruence. }
  destruct (DICT 0%nat ltac:(lia)) as (d0 & E0 & G0). destruct (DICT 1%nat ltac:(lia)) as (d1 & E1 & G1). destruct (DICT 2%nat ltac:(lia)) as (d2 & E2 & G2).
  eexists _, [("snr", d0); ("err_std", d1); ("beta", d2)]. split; [exact TCOL|]. split; [reflexivity|]. split.
  - cbn [tc_names combine map seqR fst snd]. rewrite E0, E1, E2. reflexivity.
  - unfold triple_entries. rewrite (seqR_value _ (fun t => map (fun qm =>
      map (fun cv => ([t_key (snd qm) (name_of lay (fst cv)) (snd t)], RNum (snd cv))) (triple_of f (fst t) (fst qm))) (combine (seq 0 3) tc_names))).
    + cbn [mapR]. f_equal. unfold triple_values. rewrite flat_map_concat_map.
      generalize (l_triples lay). intros ts. induction ts as [|t ts IH]; [reflexivity|]. cbn [map List.concat]. rewrite concat_app, IH. f_equal.
    + intros t It.
      assert (IN : In (fst t) (map (map (fun i => nth i (f_cols f) "")) (ref_combs n))).
      { unfold n. rewrite <- LC, <- TN. now apply in_map. }
      assert (ROW : forall m q, (q < 3)%nat -> seqR (map (fun cv : string * option R => mapR (fun n0 => ([t_key m n0 (snd t)], RNum (snd cv))) (lut_get (l_lut lay) (fst cv))) (triple_of f (fst t) q)) =
        Ok (map (fun cv => ([t_key m (name_of lay (fst cv)) (snd t)], RNum (snd cv))) (triple_of f (fst t) q))).
      { intros m q Q. apply seqR_value. intros cv Ic. rewrite (LUT t (fst cv) It); [reflexivity|].
        apply (in_map fst) in Ic. rewrite triple_names in Ic; auto. }
      cbn [map snd fst]. rewrite (G0 _ IN), (G1 _ IN), (G2 _ IN). cbn [bindR]. rewrite !ROW by lia. reflexivity.
Qed.

(* ---- the template ---- *)
Definition all_single (t : dataset) : Prop := forall k v, ds_get t k = Some v -> exists c, v = Arr [c].
Lemma all_single_update d e : all_single d -> (forall k v, In (k, v) e -> exists c, v = Arr [c]) -> all_single (ds_update d e).
Proof.
  intros D E k v G. destruct (in_dec (list_eq_dec string_dec) k (map fst e)) as [J|J].
  - destruct (get_update_any e d k J) as (w & V & G'). rewrite G' in G. assert (w = v) by congruence. subst w. exact (E k v V).
  - rewrite get_update_out in G by exact J. exact (D k v G).
Qed.
Lemma pair_template_all_single meta lay : all_single (pair_template meta lay).
Proof.
  unfold pair_template. apply all_single_update; [apply all_single_update; [|apply metric_template_single]|].
  - unfold base_template. set (t := [([_], _); _; _; _] : dataset).
    assert (T : all_single t).
    { intros k v G. subst t. cbn [ds_get] in G. unfold ds_get in G. cbn in G.
      repeat (destruct (k_eqb _ k); [injection G as <-; eexists; reflexivity|]). discriminate. }
    destruct meta as [m|]; [|exact T]. apply all_single_update; [exact T|]. intros k v I. apply in_map_iff in I as ([a b] & E & _). injection E as _ <-. eexists. reflexivity.
  - intros k0 v J. apply in_flat_map in J as (p & _ & J). apply in_map_iff in J as (m & E & _). injection E as _ <-. eexists. reflexivity.
Qed.

Lemma Ok_inj {A} (a b : A) : Ok a = Ok b -> a = b.
Proof. congruence. Qed.
Lemma triple_template_ok lay for_ref tt : triple_template lay for_ref = Ok tt ->
  (forall k v, In (k, v) tt -> exists c, v = Arr [c]) /\
  (forall t m c, In t (l_triples lay) -> In m tc_names -> In c (fst t) -> In c (l_cols lay) -> (for_ref = true \/ c <> "ref") ->
     In [t_key m (name_of lay c) (snd t)] (map fst tt)).
Proof.
  unfold triple_template. intros H. destruct (seqR (map (lut_get (l_lut lay)) _)) as [stored|] eqn:ES; [|discriminate]. cbn [bindR] in H.
  match type of H with mapR _ (seqR ?x) = _ => destruct (seqR x) as [rows|] eqn:ER; [|discriminate] end. cbn [mapR] in H. injection H as <-. split.
  - intros k v I. apply in_concat in I as (row & IR & I). apply seqR_inv in ER. clear ES. revert IR. induction ER as [|t r ts rs E _ IH]; [intros []|]. intros [<-|IR]; [|auto].
    destruct (seqR _) as [members|]; [|discriminate]. cbn [mapR] in E. apply Ok_inj in E. subst r.
    apply in_flat_map in I as (m & _ & I). apply in_flat_map in I as (s & _ & I). destruct (existsb _ _); [|destruct I]. destruct I as [E|[]]. injection E as _ <-. eexists. reflexivity.
  - intros t m c It Im Ic Il Hc.
    assert (IS : In (name_of lay c) stored).
    { assert (IF : In c (filter (fun c => for_ref || negb (String.eqb c "ref")) (l_cols lay))).
      { apply filter_In. split; [exact Il|]. destruct Hc as [->|Hc]; [reflexivity|]. destruct (String.eqb_spec c "ref"); [contradiction|]. apply Bool.orb_true_r. }
      revert ES IF. generalize (filter (fun c => for_ref || negb (String.eqb c "ref")) (l_cols lay)). clear. intros l. revert stored.
      induction l as [|x l IH]; intros out H I; [destruct I|]. cbn in H. destruct (lut_get (l_lut lay) x) as [b|] eqn:E; [|discriminate].
      destruct (seqR (map (lut_get (l_lut lay)) l)) as [o|] eqn:E'; [|discriminate]. injection H as <-. destruct I as [->|I]; [left; unfold name_of; now rewrite E|right; eauto]. }
    clear ES. revert rows ER It. generalize (l_triples lay). intros ts. induction ts as [|x ts IH]; intros rows ER It; [destruct It|]. cbn [map seqR] in ER.
    destruct (seqR (map (lut_get (l_lut lay)) (fst x))) as [members|] eqn:EM; [|discriminate]. cbn [mapR] in ER.
    match type of ER with context [seqR ?y] => destruct (seqR y) as [o|] eqn:E'; [|discriminate] end. apply Ok_inj in ER. subst rows. cbn [List.concat]. rewrite map_app. apply in_app_iff.
    destruct It as [->|It]; [left|right; eauto].
    assert (IM : In (name_of lay c) members).
    { revert members EM Ic. clear. generalize (fst t). intros l. induction l as [|y l IH]; intros out H I; [destruct I|]. cbn in H. destruct (lut_get (l_lut lay) y) as [b|] eqn:E; [|discriminate].
      destruct (seqR (map (lut_get (l_lut lay)) l)) as [o|] eqn:E'; [|discriminate]. injection H as <-. destruct I as [->|I]; [left; unfold name_of; now rewrite E|right; eauto]. }
    apply in_map_iff. exists ([t_key m (name_of lay c) (snd t)], nan). split; [reflexivity|]. apply in_flat_map. exists m. split; [exact Im|]. apply in_flat_map.
    exists (name_of lay c). split; [exact IS|]. assert (EX : existsb (String.eqb (name_of lay c)) members = true).
    { apply existsb_exists. exists (name_of lay c). split; [exact IM|apply String.eqb_refl]. }
    rewrite EX. left. reflexivity.
Qed.

Lemma triple_keys_first lay s : In s (triple_keys lay) -> exists m r, In m tc_names /\ s = (m ++ r)%string.
Proof.
  intros I. apply in_flat_map in I as (t & _ & I). apply in_flat_map in I as (m & M & I). apply in_map_iff in I as (c & <- & _). unfold t_key. eauto.
Qed.
Lemma triple_keys_clash lay s : In s (location_keys ++ ["status"; "n_obs"]) -> ~ In s (triple_keys lay).
Proof.
  intros J I. apply triple_keys_first in I as (m & r & M & ->). cbn in M. destruct M as [<-|[<-|[<-|[]]]]; cbn in J; intuition discriminate.
Qed.
Lemma triple_pair_clash lay s : In s (pair_keys lay) -> ~ In s (triple_keys lay).
Proof.
  intros J I. apply triple_keys_first in I as (m & r & M & ->). apply in_flat_map in J as (p & _ & J). apply in_map_iff in J as (x & E & X). unfold p_key in E.
  cbn in M, X. repeat (destruct X as [<-|X]; [destruct M as [<-|[<-|[<-|[]]]]; discriminate|]). destruct X.
Qed.

Lemma in_singles s l : In [s] (map (fun s : string => [s]) l) <-> In s l.
Proof. rewrite in_map_iff. split; [intros (x & E & I); injection E as ->; exact I|eauto]. Qed.
Lemma nodup_filter_map {A B} (g : A -> B) p l : NoDup (map g l) -> NoDup (map g (filter p l)).
Proof.
  induction l as [|a l IH]; intros N; [constructor|]. cbn [map] in N. apply NoDup_cons_iff in N as [N1 N2]. cbn [filter]. destruct (p a); [|auto].
  cbn [map]. constructor; [|auto]. intros I. apply N1. apply in_map_iff in I as (x & E & I). apply filter_In in I as [I _]. rewrite <- E. now apply in_map.
Qed.

Section Tcm.
Variables m_pearson m_spearman m_kendall m_bias m_ubrmsd m_rmsd m_mse m_rss : list (list cell) -> res (list (option R)).
Variable scale_mean_std : frame -> res frame.
Variable min_obs : nat.
Variable meta : metadata.
Notation tables := (pair_tables m_pearson m_spearman m_kendall m_bias m_ubrmsd m_rmsd m_mse m_rss scale_mean_std).
Notation calc := (tcm_calc m_pearson m_spearman m_kendall m_bias m_ubrmsd m_rmsd m_mse m_rss scale_mean_std min_obs meta).

Lemma tcm_ok others nonref names for_ref lay template calc_tau f i :
  tcm_init others nonref names = Ok lay -> tcm_template meta lay for_ref = Ok template -> NoDup ("ref" :: others) -> f_cols f = "ref" :: others ->
  (2 <= List.length others)%nat -> (1 <= min_obs)%nat ->
  (forall r, In r (f_rows f) -> List.length (snd r) = List.length (f_cols f) /\ Forall (fun x => x <> None) (snd r)) ->
  good_meta meta i ("n_obs" :: pair_keys lay ++ triple_keys lay) -> NoDup (map snd (l_pairs lay)) -> NoDup (triple_keys lay) ->
  (forall g h, scale_mean_std g = Ok h -> f_cols h = f_cols g) ->
  forall named, ((min_obs <= nrows f)%nat -> tables true calc_tau f = Ok named) ->
  exists d, calc lay template calc_tau f i = Ok d /\ identified d i /\ meta_copied d meta i /\ holds d ["n_obs"] (RInt (Z.of_nat (nrows f))) /\
    ((nrows f < min_obs)%nat -> insufficient d template meta) /\
    ((min_obs <= nrows f)%nat -> holds d ["status"] (RInt 0) /\
      (forall nd p, In nd named -> In p (l_pairs lay) -> holds d [p_key (fst nd) (snd p)] (value_at nd (fst p))) /\
      (forall t qm cv, In t (l_triples lay) -> In qm (combine (seq 0 3) tc_names) -> In cv (triple_of f (fst t) (fst qm)) -> (for_ref = true \/ fst cv <> "ref") ->
         holds d [t_key (snd qm) (name_of lay (fst cv)) (snd t)] (RNum (snd cv))) /\
      (forall k, ds_get template k = None -> ds_get d k = None)).
Proof.
  intros HI HT NC FC L2 MO FULL G NL NT SC named TB. destruct (tcm_init_ok others nonref names lay HI NC) as (LC & PI & TN & LUT).
  unfold tcm_template in HT. destruct (triple_template lay for_ref) as [tt|] eqn:ET; [|discriminate]. cbn [mapR] in HT.
  assert (HT' : template = ds_update (pair_template meta lay) tt) by congruence. clear HT. destruct (triple_template_ok lay for_ref tt ET) as [TS TI].
  assert (HB : has_base template meta) by (rewrite HT'; apply has_base_update; [exact TS|apply pair_has_base]).
  assert (AS : all_single template) by (rewrite HT'; apply all_single_update; [apply pair_template_all_single|exact TS]).
  assert (LEN3 : forall t, In t (l_triples lay) -> List.length (fst t) = 3%nat).
  { intros t I. apply (in_map fst) in I. rewrite TN in I. apply in_map_iff in I as (c & <- & I). apply ref_combs_in in I as (a & b & -> & _). reflexivity. }
  assert (TC : forall t c, In t (l_triples lay) -> In c (fst t) -> In c (l_cols lay)).
  { intros t c I Ic. apply (in_map fst) in I. rewrite TN in I. apply in_map_iff in I as (x & E & I). rewrite <- E in Ic. apply in_map_iff in Ic as (j & <- & J).
    apply ref_combs_in in I as (a & b & -> & ? & ?). apply nth_In. cbn in J. lia. }
  assert (PS : forall k, In k ("n_obs" :: pair_keys lay) -> single template [k]).
  { intros k I. rewrite HT'. apply single_update; [exact TS|]. now apply pair_template_single_in. }
  unfold tcm_calc.
  destruct (meta_calc_ok template meta i _ HB G) as (d & E & PREP). rewrite E. cbn [bindR].
  destruct (set_n_obs d template meta i _ (count f) PREP G (or_introl eq_refl) (PS _ (or_introl eq_refl))) as (d1 & E1 & PN & HN).
  rewrite E1. cbn [bindR]. destruct (Nat.ltb_spec (nrows f) min_obs) as [L|L].
  - destruct (finish_insufficient d1 _ meta i _ PN HB G) as (d' & E' & ID & MC & INS & KEEP).
    exists d'. split; [exact E'|]. split; [exact ID|]. split; [exact MC|]. split; [unfold holds; rewrite KEEP by discriminate; exact HN|].
    split; [intros _; exact INS|]. lia.
  - specialize (TB L). rewrite TB. cbn [bindR].
    assert (CV : covers named lay).
    { apply (pair_covers m_pearson m_spearman m_kendall m_bias m_ubrmsd m_rmsd m_mse m_rss scale_mean_std true calc_tau lay f named);
        [intros; apply SC; assumption|rewrite FC; exact NC|rewrite FC, <- LC; exact PI|exact TB]. }
    assert (RP : ref_position f = Ok 0%nat) by (unfold ref_position; rewrite FC; reflexivity). rewrite RP. cbn [bindR].
    destruct (triple_entries_ok lay f) as (tc & ds & T1 & T2 & T3 & T4);
      [rewrite FC; exact NC|rewrite FC; cbn; lia|rewrite FC; exact LC|exact TN|exact LUT|lia|exact FULL|].
    rewrite T1. cbn [bindR]. rewrite T2. cbn [bindR]. rewrite T3. cbn [bindR]. rewrite T4. cbn [bindR].
    set (tv := triple_values lay f) in *. pose proof (triple_values_keys lay f LEN3) as TVK. fold tv in TVK.
    assert (SK : forall e, In e tv -> exists s, fst e = [s] /\ In s (triple_keys lay)).
    { intros e I. apply (in_map fst) in I. rewrite TVK in I. apply in_map_iff in I as (s & <- & I). eauto. }
    assert (GD : forall s, In s (triple_keys lay) -> ds_get d1 [s] = ds_get template [s]).
    { intros s I. destruct PN as (_ & _ & _ & OUT). apply OUT. intros s' EQ. assert (s = s') by congruence. subst s'. split.
      - intros X. apply (triple_keys_clash lay s); [|exact I]. apply in_app_iff in X as [X|X]; apply in_app_iff; [left; exact X|right]. cbn in X |- *; tauto.
      - intros m0 EM X. destruct (G m0 EM) as (_ & G2 & _). apply (G2 s X). apply in_app_iff. right. right. right. apply in_app_iff. right. exact I. }
    assert (SN : forall e, In e tv -> known d1 (fst e) = true -> single template (fst e)).
    { intros e I K. destruct (SK e I) as (s & ES & S'). rewrite ES in *. unfold known in K. rewrite GD in K by exact S'.
      destruct (ds_get template [s]) as [v|] eqn:EV; [|discriminate]. destruct (AS _ _ EV) as [c ->]. exists c. exact EV. }
    rewrite assign_known_ok by (intros e I K; apply (proj1 PN), SN; assumption).
    destruct (all_pair_values_keys lay named true calc_tau NL (pair_tables_names _ _ _ _ _ _ _ _ _ _ _ _ _ TB)) as [K1 K2].
    set (kv := filter (fun e => known d1 (fst e)) tv).
    assert (KV : forall k v, In (k, v) kv -> exists s, k = [s] /\ In s (triple_keys lay) /\ single template k).
    { intros k v I. apply filter_In in I as [I K]. destruct (SK _ I) as (s & ES & S'). exists s. split; [exact ES|]. split; [exact S'|]. exact (SN _ I K). }
    destruct (finish_ok d1 template meta i _ (kv ++ all_pair_values lay named) PN HB G) as (d0 & d' & E0 & E2 & ID & MC & ST & VAL & _ & KEEP).
    + intros k v I. apply in_app_iff in I as [I|I].
      * destruct (KV k v I) as (s & -> & S1 & S2). split; [exact S2|]. intros s' EQ. assert (s = s') by congruence. subst s'. right. apply in_app_iff. right. exact S1.
      * destruct (K2 k v I) as (s & -> & S'). split; [apply PS; right; exact S'|]. intros s' EQ. assert (s = s') by congruence. subst s'. right. apply in_app_iff. left. exact S'.
    + intros [X|X]; [discriminate|]. apply in_app_iff in X as [X|X]; [apply (pair_keys_clash lay "status"); [cbn; auto|exact X]|apply (triple_keys_clash lay "status"); [cbn; auto|exact X]].
    + intros s I [X|X]; [subst s; cbn in I; intuition discriminate|]. apply in_app_iff in X as [X|X];
        [apply (pair_keys_clash lay s); [apply in_app_iff; left; exact I|exact X]|apply (triple_keys_clash lay s); [apply in_app_iff; left; exact I|exact X]].
    + rewrite map_app. apply nodup_app.
      * apply nodup_filter_map. rewrite TVK. apply nodup_map_inj; [intros a b _ _ EQ; congruence|exact NT].
      * exact K1.
      * intros k Ik Jk. apply in_map_iff in Ik as ([k1 v1] & EQ1 & I1). apply in_map_iff in Jk as ([k2 v2] & EQ2 & I2). cbn [fst] in EQ1, EQ2. subst k1 k2.
        destruct (KV _ _ I1) as (s & -> & S1 & _). destruct (K2 _ _ I2) as (s' & EQ & S2). assert (s = s') by congruence. subst s'. exact (triple_pair_clash lay s S2 S1).
    + exists d'. rewrite assigns_app in E0. destruct (assigns d1 kv) as [d2|e] eqn:EA; [|discriminate]. cbn [bindR] in E0 |- *.
      rewrite (pair_values_ok lay named CV). cbn [bindR]. rewrite E0. cbn [bindR]. split; [exact E2|]. split; [exact ID|]. split; [exact MC|].
      assert (OUT : forall k, ~ In k (map fst (kv ++ all_pair_values lay named)) -> k <> ["status"] -> ds_get d' k = ds_get d1 k) by (intros; apply KEEP; assumption).
      assert (KEYS : forall k, In k (map fst (kv ++ all_pair_values lay named)) -> single template k /\ exists s, k = [s] /\ In s (pair_keys lay ++ triple_keys lay)).
      { intros k I. apply in_map_iff in I as ([k0 v] & EQ & I). cbn [fst] in EQ. subst k0. apply in_app_iff in I as [I|I].
        - destruct (KV _ _ I) as (s & -> & S1 & S2). split; [exact S2|]. exists s. split; [reflexivity|]. apply in_app_iff. right. exact S1.
        - destruct (K2 _ _ I) as (s & -> & S'). split; [apply PS; right; exact S'|]. exists s. split; [reflexivity|]. apply in_app_iff. left. exact S'. }
      split.
      { unfold holds. rewrite OUT; [exact HN| |discriminate]. intros I. destruct (KEYS _ I) as (_ & s & EQ & S'). assert (s = "n_obs") by congruence. subst s.
        apply in_app_iff in S' as [S'|S']; [apply (pair_keys_clash lay "n_obs"); [cbn; tauto|exact S']|apply (triple_keys_clash lay "n_obs"); [cbn; tauto|exact S']]. }
      split; [lia|]. intros _. split; [exact ST|]. split; [|split].
      * intros nd p I P. apply VAL. apply in_app_iff. right. apply in_flat_map. exists p. split; [exact P|]. apply in_map_iff. eauto.
      * intros t qm cv It Iq Ic Hc. apply VAL. apply in_app_iff. left.
        assert (IV : In ([t_key (snd qm) (name_of lay (fst cv)) (snd t)], RNum (snd cv)) tv).
        { unfold tv, triple_values. apply in_flat_map. exists t. split; [exact It|]. apply in_flat_map. exists qm. split; [exact Iq|]. apply in_map_iff. eauto. }
        apply filter_In. split; [exact IV|]. cbn [fst]. destruct (SK _ IV) as (s & ES & S'). cbn [fst] in ES. unfold known. rewrite ES, GD by exact S'.
        assert (Q3 : (fst qm < 3)%nat /\ In (snd qm) tc_names).
        { destruct qm as [q m]. split; [apply in_combine_l in Iq; apply in_seq in Iq; cbn; lia|apply in_combine_r in Iq; exact Iq]. }
        assert (Icn : In (fst cv) (fst t)). { apply (in_map fst) in Ic. rewrite triple_names in Ic; [exact Ic|tauto|auto]. }
        assert (SI : single template [s]).
        { rewrite <- ES, HT'. apply single_update_in; [exact TS|]. apply TI; try tauto. exact (TC t _ It Icn). }
        destruct SI as [c ->]. reflexivity.
      * intros k NK. assert (X : forall k0, single template k0 -> k <> k0) by (intros k0 [c EQ] ->; congruence).
        rewrite OUT; [|intros I; destruct (KEYS _ I) as [S1 _]; exact (X k S1 eq_refl)|apply X; apply (proj1 HB); cbn; auto].
        destruct PN as (_ & _ & _ & OUT1). rewrite OUT1; [exact NK|]. intros s EQ. split.
        -- intros I. apply in_app_iff in I as [I|[<-|[]]]; [|exact (X _ (PS _ (or_introl eq_refl)) EQ)]. apply (X [s]); [apply (proj1 HB), in_app_iff; left; exact I|exact EQ].
        -- intros m EM I. apply (X [s]); [exact (proj2 HB m s EM I)|exact EQ].
Qed.
End Tcm.
