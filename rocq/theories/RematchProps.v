(* Property theorems C121: collocating again, and the influence of the other reference times. *)
From Verif Require Import Base BaseProofs TemporalModel TemporalSpec TemporalProofs TemporalProps.
Open Scope Z_scope.

(* what the specification of nearest collocation expects at a reference time is unique *)
Lemma nearest_row_unique obs n t w r r' : nearest_row obs n t w r -> nearest_row obs n t w r' -> r = r'.
Proof.
  intros [(s & F & D & M)|[E M]] [(s' & F' & D' & M')|[E' M']].
  - assert (I := find_some _ _ F). assert (I' := find_some _ _ F'). destruct I as [I _], I' as [I' _].
    assert (X := M s' r' I'). assert (Y := M' s r I). assert (S : s = s') by lia. subst s'. congruence.
  - assert (I := find_some _ _ F). destruct I as [I _]. specialize (M' s r I). lia.
  - assert (I := find_some _ _ F'). destruct I as [I _]. specialize (M s' r' I). lia.
  - congruence.
Qed.

(* The row at a reference time does not depend on the other reference times: one function of the time describes the results
   for all lists of reference times. *)
Theorem C121_other_reference_times :
  forall (store : cell -> cell) (oob : Z) (other : frame) (w : Z), chronological (findex other) ->
    exists g, forall ref, temporal_collocation store oob ref other w nearest_opts =
      Ok (mkFrame (fcols other) (map (fun t => (t, g t)) (dedup_first (fun t => t) ref))).
Proof.
  intros store oob other w C. assert (M := C02_sorted_qualifies other C). destruct (C02_nearest store oob [] other w M) as (g & _ & H). exists g. intros ref.
  destruct (C02_nearest store oob ref other w M) as (g' & E & H'). rewrite E. do 2 f_equal. apply map_ext. intros t. f_equal. exact (nearest_row_unique _ _ _ _ _ _ (H' t) (H t)).
Qed.

(* Data that already are at the reference times are returned as they are. *)
Theorem C121_at_reference :
  forall (store : cell -> cell) (oob : Z) (other : frame) (w : Z), 0 <= w -> StronglySorted Z.lt (findex other) ->
    temporal_collocation store oob (findex other) other w nearest_opts = Ok other.
Proof.
  intros store oob other w W S. assert (N := SSorted_lt_nodup _ S). assert (M := C02_sorted_qualifies other (SSorted_lt_le _ S)).
  destruct (C02_nearest store oob (findex other) other w M) as (g & E & H). rewrite E. rewrite dedup_id by (rewrite map_id; exact N).
  assert (X : map (fun t => (t, g t)) (findex other) = frows other).
  { unfold findex. rewrite map_map. rewrite <- (map_id (frows other)) at 2. apply map_ext_in. intros [t r] I. cbn [fst]. f_equal.
    apply (nearest_row_unique (frows other) (List.length (fcols other)) t w); [apply H|]. left. exists t. split; [|split].
    - apply (find_nodup fst (frows other) (t, r) N I).
    - replace (t - t) with 0 by lia. exact W.
    - intros s' r' _. destruct (Z.eq_dec s' t) as [->|D]; [right|left]; lia. }
  rewrite X. destruct other; reflexivity.
Qed.

Lemma dedup_sorted_lt ref : chronological ref -> StronglySorted Z.lt (dedup_first (fun t => t) ref).
Proof.
  intros C. apply SSorted_le_lt; [assert (X := dedup_nodup (fun t => t) ref); rewrite map_id in X; exact X|].
  unfold dedup_first. generalize (@nil Z). unfold chronological in C. induction C as [|t ref C IH F]; intros seen; cbn [dedup_aux]; [constructor|]. destruct (existsb _ seen); [apply IH|]. constructor; [apply IH|].
  apply Forall_forall. intros x I. rewrite Forall_forall in F. apply F. apply dedup_aux_in in I as [I _]. exact I.
Qed.
(* Collocating the result again to the same reference times, with any window, changes nothing. *)
Theorem C121_twice :
  forall (store : cell -> cell) (oob : Z) (ref : list Z) (other out : frame) (w w' : Z), chronological ref -> chronological (findex other) -> 0 <= w' ->
    temporal_collocation store oob ref other w nearest_opts = Ok out -> temporal_collocation store oob ref out w' nearest_opts = Ok out.
Proof.
  intros store oob ref other out w w' CR CO W E. destruct (C02_nearest store oob ref other w (C02_sorted_qualifies other CO)) as (g & E' & _).
  assert (X : out = mkFrame (fcols other) (map (fun t => (t, g t)) (dedup_first (fun t => t) ref))) by congruence.
  assert (I : findex out = dedup_first (fun t => t) ref) by (rewrite X; unfold findex; cbn [frows]; rewrite map_map; cbn [fst]; apply map_id).
  assert (S := dedup_sorted_lt ref CR). rewrite <- I in S. assert (Y := C121_at_reference store oob out w' W S).
  destruct (C121_other_reference_times store oob out w' (SSorted_lt_le _ S)) as (h & H). rewrite H in Y |- *. rewrite dedup_id in Y by (rewrite map_id; apply SSorted_lt_nodup, S). rewrite I in Y. exact Y.
Qed.
(* With dropna rows are left out, and the result is to be collocated to the times that are left: this changes nothing. *)
Definition dropna_opts : tc_opts := mkOpts MNearest false false false true NoFlag false.
Lemma dropna_of store oob ref other w : temporal_collocation store oob ref other w dropna_opts = mapR dropna_all (temporal_collocation store oob ref other w nearest_opts).
Proof.
  unfold temporal_collocation, dropna_opts, nearest_opts. cbn [o_flag eval_flag bindR o_method o_dropna o_return_index o_return_distance o_use_invalid o_dropduplicates].
  destruct (collocate_nearest _ _ _ _ _ _ _); reflexivity.
Qed.
Lemma sorted_filter (p : Z * row -> bool) l : StronglySorted Z.lt (map fst l) -> StronglySorted Z.lt (map fst (filter p l)).
Proof.
  induction l as [|a l IH]; intros S; cbn [filter map] in *; [constructor|]. apply StronglySorted_inv in S as [S F]. destruct (p a); [|apply IH, S]. cbn [map]. constructor; [apply IH, S|].
  apply Forall_forall. intros x I. rewrite Forall_forall in F. apply F. apply in_map_iff in I as (y & <- & I). apply filter_In in I as [I _]. apply in_map, I.
Qed.
Lemma filter_twice {A} (p : A -> bool) l : filter p (filter p l) = filter p l.
Proof. induction l as [|a l IH]; cbn [filter]; [reflexivity|]. destruct (p a) eqn:K; [|exact IH]. cbn [filter]. rewrite K, IH. reflexivity. Qed.
Theorem C121_twice_dropna :
  forall (store : cell -> cell) (oob : Z) (ref : list Z) (other out : frame) (w w' : Z), chronological ref -> chronological (findex other) -> 0 <= w' ->
    temporal_collocation store oob ref other w dropna_opts = Ok out -> temporal_collocation store oob (findex out) out w' dropna_opts = Ok out.
Proof.
  intros store oob ref other out w w' CR CO W E. rewrite dropna_of in E. destruct (C02_nearest store oob ref other w (C02_sorted_qualifies other CO)) as (g & E' & _).
  rewrite E' in E. cbn [mapR bindR] in E. set (full := mkFrame (fcols other) (map (fun t => (t, g t)) (dedup_first (fun t => t) ref))) in *.
  assert (X : out = dropna_all full) by congruence.
  assert (S : StronglySorted Z.lt (findex out)).
  { rewrite X. unfold findex, dropna_all. cbn [frows]. apply sorted_filter. unfold full. cbn [frows]. rewrite map_map. cbn [fst]. rewrite map_id. apply dedup_sorted_lt, CR. }
  rewrite dropna_of, (C121_at_reference store oob out w' W S). cbn [mapR bindR]. f_equal. rewrite X. unfold dropna_all. cbn [frows fcols]. f_equal.
  apply filter_twice.
Qed.
(* Collocated to the original reference times, what dropna left out is filled from a neighbour: an observation that is further
   away than the window is used. *)
Theorem C121_twice_dropna_refuted :
  exists ref other out out', chronological ref /\ chronological (findex other) /\
    temporal_collocation (fun c => c) 0 ref other 5 dropna_opts = Ok out /\ temporal_collocation (fun c => c) 0 ref out 5 dropna_opts = Ok out' /\ out' <> out.
Proof.
  exists [0; 3], (mkFrame ["x"%string] [(8, [Some 1%Q])]). eexists. eexists. split; [repeat constructor; lia|]. split; [repeat constructor|]. split; [reflexivity|]. split; [reflexivity|]. discriminate.
Qed.

(* ------------------------------------------------------- mean collocation *)
Lemma window_single (obs : list (Z * cell)) t w c : NoDup (map fst obs) -> In (t, c) obs -> 0 <= w -> (forall s c', In (s, c') obs -> s <> t -> w < Z.abs (s - t)) -> window_obs t w obs = [(t, c)].
Proof.
  unfold window_obs. induction obs as [|[s d] obs IH]; intros N I W H; [destruct I|]. cbn [filter fst map] in *. inversion N as [|? ? N1 N2]. subst.
  assert (NONE : forall l : list (Z * cell), (forall s c', In (s, c') l -> w < Z.abs (s - t)) -> filter (fun o => (t - w <=? fst o) && (fst o <=? t + w)) l = []).
  { clear. induction l as [|[s d] l IH]; intros H; [reflexivity|]. cbn [filter fst]. assert (X := H s d (or_introl eq_refl)). destruct ((t - w <=? s) && (s <=? t + w)) eqn:E; [apply andb_true_iff in E as [E1 E2]; apply Z.leb_le in E1, E2; lia|]. apply IH. intros. eapply H. right. eassumption. }
  destruct I as [I|I].
  - injection I as -> ->. replace ((t - w <=? t) && (t <=? t + w)) with true by (symmetry; apply andb_true_iff; split; apply Z.leb_le; lia). f_equal. apply NONE. intros s' c' I. apply (H s' c' (or_intror I)). intros ->. apply N1. apply in_map_iff. exists (t, c'). split; [reflexivity|exact I].
  - assert (D : s <> t) by (intros ->; apply N1; apply in_map_iff; exists (t, c); split; [reflexivity|exact I]). assert (X := H s d (or_introl eq_refl) D).
    destruct ((t - w <=? s) && (s <=? t + w)) eqn:E; [apply andb_true_iff in E as [E1 E2]; apply Z.leb_le in E1, E2; lia|]. apply IH; [exact N2|exact I|exact W|]. intros s' c' I' D'. apply (H s' c' (or_intror I') D').
Qed.
(* Means of data at the reference times are the data, if the times are further apart than the window. *)
Theorem C121_mean_at_reference :
  forall (oob : Z) (other : frame) (w : Z), 0 <= w -> wf_frame other -> StronglySorted Z.lt (findex other) -> fcols other <> [] ->
    (forall s t, In s (findex other) -> In t (findex other) -> s <> t -> w < Z.abs (s - t)) ->
    exists out, temporal_collocation (fun c => c) oob (findex other) other w mean_opts = Ok out /\ fcols out = fcols other /\
      Forall2 (fun a b => fst a = fst b /\ Forall2 ceq (snd a) (snd b)) (frows out) (frows other).
Proof.
  intros oob other w W WF S NC H. eexists. split; [apply C01_mean_is_window_mean; [apply SSorted_lt_le, S|apply SSorted_lt_le, S|exact NC]|]. split; [reflexivity|]. cbn [frows].
  assert (N := SSorted_lt_nodup _ S). unfold findex at 1. rewrite map_map.
  assert (G : forall l, incl l (frows other) -> Forall2 (fun a b : Z * row => fst a = fst b /\ Forall2 ceq (snd a) (snd b)) (map (fun x => (fst x, map (fun i => window_mean (fst x) w (series other i)) (seq 0 (List.length (fcols other))))) l) l).
  { induction l as [|[t r] l IH]; intros IN; cbn [map]; constructor; [|apply IH; intros x Hx; apply IN; right; exact Hx]. cbn [fst snd]. split; [reflexivity|].
    assert (I : In (t, r) (frows other)) by (apply IN; left; reflexivity). assert (L := WF t r I).
    assert (EQ : forall i, ceq (window_mean t w (series other i)) (nth i r None)).
    { intros i. unfold window_mean. rewrite (window_single (series other i) t w (nth i r None)); [|unfold series; rewrite map_map; exact N|unfold series; apply in_map_iff; exists (t, r); split; [reflexivity|exact I]|exact W|].
      - cbn [map snd]. unfold nanmean. destruct (nth i r None) as [v|]; cbn; [unfold qmean, qsum, qlen; cbn; field|exact Logic.I].
      - intros s c' I' D. apply H; [| |exact D].
        + unfold series in I'. apply in_map_iff in I' as ([s' r'] & E & I'). cbn [fst snd] in E. injection E as <- _. unfold findex. apply in_map_iff. exists (s', r'). split; [reflexivity|exact I'].
        + unfold findex. apply in_map_iff. exists (t, r). split; [reflexivity|exact I]. }
    assert (R : r = map (fun i => nth i r None) (seq 0 (List.length r))).
    { clear. induction r as [|c r IH]; [reflexivity|]. cbn [List.length seq map nth]. f_equal. rewrite <- seq_shift, map_map. exact IH. }
    rewrite R at 1. rewrite L. generalize (seq 0 (List.length (fcols other))). intros ks. induction ks as [|k ks IHk]; cbn [map]; constructor; [apply EQ|exact IHk]. }
  exact (G (frows other) (incl_refl _)).
Qed.
(* Otherwise a second collocation averages what has been averaged already. *)
Theorem C121_mean_twice_refuted :
  exists ref other out out' w, chronological ref /\ chronological (findex other) /\ temporal_collocation (fun c => c) 0 ref other w mean_opts = Ok out /\
    temporal_collocation (fun c => c) 0 ref out w mean_opts = Ok out' /\
    exists a b, In (0, [Some a]) (frows out) /\ In (0, [Some b]) (frows out') /\ ~ (a == b)%Q.
Proof.
  exists [0; 2], (mkFrame ["x"%string] [(0, [Some 1%Q]); (2, [Some 2%Q]); (4, [Some 6%Q])]). eexists. eexists. exists 2. split; [repeat constructor; lia|]. split; [repeat constructor; cbn; lia|].
  split; [reflexivity|]. split; [vm_compute; reflexivity|]. eexists. eexists. split; [left; reflexivity|]. split; [left; reflexivity|]. vm_compute. discriminate.
Qed.
Example C121_ex : chronological [0; 3; 10] /\
  temporal_collocation (fun c => c) 0 [0; 3; 10] (mkFrame ["x"%string] [(2, [Some 1%Q]); (8, [Some 2%Q])]) 3 nearest_opts = Ok (mkFrame ["x"%string] [(0, [Some 1%Q]); (3, [Some 1%Q]); (10, [Some 2%Q])]) /\
  (forall s t, In s [0; 3; 10] -> In t [0; 3; 10] -> s <> t -> 2 < Z.abs (s - t)).
Proof. split; [repeat constructor; lia|]. split; [reflexivity|]. cbn. intros s t I J D. intuition lia. Qed.

Print Assumptions C121_other_reference_times.
Print Assumptions C121_twice.
Print Assumptions C121_twice_dropna.
Print Assumptions C121_twice_dropna_refuted.
Print Assumptions C121_mean_at_reference.
Print Assumptions C121_mean_twice_refuted.
