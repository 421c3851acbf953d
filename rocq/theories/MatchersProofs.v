(* Proofs about the temporal matchers. *)
From Verif Require Import MatchersSpec BaseProofs SortProofs NamesProofs TemporalProofs.
From Verif Require Import TemporalModel TemporalSpec.

Lemma nearest_row_unique obs n t w r r' : nearest_row obs n t w r -> nearest_row obs n t w r' -> r = r'.
Proof.
  intros [(s & F & D & M)|[E M]] [(s' & F' & D' & M')|[E' M']].
  - assert (Hs : In (s, r) obs) by (apply find_some in F; tauto).
    assert (Hs' : In (s', r') obs) by (apply find_some in F'; tauto).
    apply M in Hs'. apply M' in Hs. assert (s = s') by lia. subst s'. congruence.
  - assert (Hs : In (s, r) obs) by (apply find_some in F; tauto). apply M' in Hs. lia.
  - assert (Hs : In (s', r') obs) by (apply find_some in F'; tauto). apply M in Hs. lia.
  - congruence.
Qed.

Lemma nearest_row_length f t w r : wf_frame f -> nearest_row (frows f) (List.length (fcols f)) t w r ->
  List.length r = List.length (fcols f).
Proof.
  intros W [(s & F & _)|[-> _]]; [|apply repeat_length]. apply find_some in F as [F _]. exact (W _ _ F).
Qed.

Lemma dedup_map_fst {A} (l : list (Z * A)) : dedup_first (fun t => t) (map fst l) = map fst (dedup_first fst l).
Proof.
  unfold dedup_first. generalize (@nil Z). induction l as [|[t a] l IH]; intros seen; cbn; [reflexivity|].
  destruct (existsb (Z.eqb t) seen); cbn; rewrite IH; reflexivity.
Qed.

Lemma all_none (r : row) : existsb notna r = false -> r = repeat None (List.length r).
Proof. induction r as [|c r IH]; cbn; [reflexivity|]. destruct c; [discriminate|]. cbn. intros H. f_equal. apply IH, H. Qed.

(* one dataset collocated with the matchers' options *)
Lemma match_one store oob idx o w : usable o ->
  exists d, temporal_collocation store oob idx o w (mkOpts MNearest false false true true NoFlag false) = Ok d /\
    fcols d = fcols o /\
    (forall t, has_time d t -> In t idx) /\
    (forall t r, In t idx -> (cells_at d t r <-> nearest_row (frows o) (List.length (fcols o)) t w r)).
Proof.
  intros [W Hm]. destruct (tc_nearest_correct store oob idx o w Hm) as (g & E & G).
  exists (dropna_all (mkFrame (fcols o) (map (fun t => (t, g t)) (dedup_first (fun t => t) idx)))).
  assert (Hin : forall t, In t (dedup_first (fun t => t) idx) <-> In t idx) by apply (dedup_ref_spec idx).
  split.
  { unfold temporal_collocation, nearest_opts in *. cbn [o_flag eval_flag bindR o_method o_dropna
      o_return_index o_return_distance o_use_invalid o_dropduplicates] in *.
    destruct (collocate_nearest _ _ w None false false false) as [f|]; cbn [mapR] in *; [|discriminate].
    f_equal. f_equal. congruence. }
  split; [reflexivity|]. split.
  { intros t (r & H). cbn in H. apply filter_In in H as [H _]. apply in_map_iff in H as (t' & E' & H).
    injection E' as <- _. apply Hin, H. }
  intros t r Ht.
  assert (Len : List.length (g t) = List.length (fcols o)) by (eapply nearest_row_length; [exact W|apply G]).
  assert (Hrow : forall r', In (t, r') (frows (dropna_all (mkFrame (fcols o) (map (fun t => (t, g t)) (dedup_first (fun t => t) idx))))) <->
                 r' = g t /\ existsb notna (g t) = true).
  { intros r'. cbn. rewrite filter_In, in_map_iff. cbn. split.
    - intros [(t' & E' & H) N]. injection E' as -> <-. auto.
    - intros [-> N]. split; [exists t; split; [reflexivity|apply Hin, Ht]|exact N]. }
  split.
  - intros [H|[Hno ->]].
    + apply Hrow in H as [-> _]. apply G.
    + destruct (existsb notna (g t)) eqn:N.
      * exfalso. apply Hno. exists (g t). apply Hrow. auto.
      * apply all_none in N. rewrite Len in N. cbn [fcols dropna_all]. rewrite <- N. apply G.
  - intros H. pose proof (nearest_row_unique _ _ _ _ _ _ H (G t)) as ->.
    destruct (existsb notna (g t)) eqn:N.
    + left. apply Hrow. auto.
    + right. split; [intros (r' & H'); apply Hrow in H'; destruct H'; congruence|].
      apply all_none in N. rewrite Len in N. exact N.
Qed.

Lemma match_all store oob idx others w : (forall o, In o others -> usable o) ->
  exists dfs, Forall2 (fun o d => temporal_collocation store oob idx o w (mkOpts MNearest false false true true NoFlag false) = Ok d) others dfs /\
    flat_map fcols dfs = flat_map fcols others /\
    (forall d t, In d dfs -> has_time d t -> In t idx) /\
    (forall t r, In t idx -> (row_of dfs t r <-> exists rs, Forall2 (fun o row => nearest_row (frows o) (List.length (fcols o)) t w row) others rs /\ r = List.concat rs)).
Proof.
  induction others as [|o others IH]; intros H.
  - exists []. split; [constructor|]. split; [reflexivity|]. split; [intros d t []|].
    intros t r _. split.
    + intros R. inversion R; subst. exists []. split; [constructor|reflexivity].
    + intros (rs & F & ->). inversion F; subst. constructor.
  - destruct IH as (dfs & F & C & T & R); [intros; apply H; right; assumption|].
    destruct (match_one store oob idx o w (H o (or_introl eq_refl))) as (d & E & Cd & Td & Rd).
    exists (d :: dfs). split; [constructor; assumption|]. split; [cbn; rewrite C, Cd; reflexivity|].
    split; [intros d' t [<-|Hd]; [apply Td|apply T; exact Hd]|].
    intros t r Ht. split.
    + intros X. inversion X as [|? ? ? r1 rs1 X1 X2]; subst. apply Rd in X1; [|exact Ht]. apply R in X2 as (rs & F2 & ->); [|exact Ht].
      exists (r1 :: rs). split; [constructor; assumption|reflexivity].
    + intros (rs & F2 & ->). inversion F2; subst. cbn. constructor; [apply Rd; assumption|]. apply R; [exact Ht|]. eauto.
Qed.

Lemma combined_dedup store oob reference others w cd :
  combined_temporal_collocation store oob reference others w match_opts cd true =
  combined_temporal_collocation store oob (mkFrame (fcols reference) (dedup_first fst (frows reference))) others w match_opts cd true.
Proof.
  unfold combined_temporal_collocation, match_opts. cbn [o_method o_dropduplicates o_dropna o_flag o_use_invalid fcols frows].
  assert (E : forall o, temporal_collocation store oob (findex reference) o w (mkOpts MNearest false false true true NoFlag false) =
              temporal_collocation store oob (findex (mkFrame (fcols reference) (dedup_first fst (frows reference)))) o w (mkOpts MNearest false false true true NoFlag false)).
  { intros o. unfold temporal_collocation. cbn [o_method o_dropduplicates o_dropna o_flag o_use_invalid eval_flag bindR].
    assert (Ed : dedup_first (fun t => t) (findex reference) =
                 dedup_first (fun t => t) (findex (mkFrame (fcols reference) (dedup_first fst (frows reference))))).
    { unfold findex. cbn [frows]. rewrite <- (dedup_map_fst (frows reference)). symmetry. apply dedup_id. rewrite map_id.
      rewrite dedup_map_fst. apply dedup_nodup. }
    rewrite Ed. reflexivity. }
  rewrite (map_ext _ _ E). rewrite dedup_id with (l := dedup_first fst (frows reference)) by apply dedup_nodup.
  reflexivity.
Qed.

Lemma matcher_rows store oob reference others w cd : (forall o, In o others -> usable o) ->
  exists m, combined_temporal_collocation store oob reference others w match_opts cd true = Ok m /\
    fcols m = fcols reference ++ flat_map fcols others /\ NoDup (findex m) /\
    (forall t r, In (t, r) (frows m) <-> matched_row reference others w t r /\ combined_keep cd r).
Proof.
  intros H. rewrite combined_dedup. set (R := mkFrame (fcols reference) (dedup_first fst (frows reference))).
  destruct (match_all store oob (findex R) others w H) as (dfs & F & C & T & Rw).
  assert (ND : NoDup (findex R)) by apply dedup_nodup.
  destruct (combined_correct store oob R others w match_opts cd true dfs ND F) as (m & E & Cm & Nm & Im); [discriminate|].
  exists m. split; [exact E|]. split; [rewrite Cm; cbn; rewrite C; reflexivity|]. split; [exact Nm|].
  assert (Hf : forall t rr, first_row reference t rr <-> In (t, rr) (frows R)).
  { intros t rr. unfold first_row, R. cbn [frows]. rewrite <- dedup_find. split.
    - intros X. apply find_some in X. tauto.
    - intros X. exact (find_nodup fst _ (t, rr) (dedup_nodup fst _) X). }
  intros t r. rewrite Im. unfold matched_row. split.
  - intros ((f & Hp & Ht) & Ro & K). split; [|exact K].
    assert (HtR : In t (findex R)).
    { destruct Hp as [<-|Hp]; [apply has_time_index; exact Ht|]. eapply T; eassumption. }
    inversion Ro as [|? ? ? r1 rs1 X1 X2]; subst. apply Rw in X2 as (rs & F2 & ->); [|exact HtR].
    exists r1, rs. split; [|split; [exact F2|reflexivity]]. apply Hf.
    destruct X1 as [X1|[X1 _]]; [exact X1|]. exfalso. apply X1. apply has_time_index. exact HtR.
  - intros ((rr & rs & Fr & F2 & ->) & K). apply Hf in Fr.
    assert (HtR : has_time R t) by (exists rr; exact Fr).
    split; [exists R; split; [left; reflexivity|exact HtR]|]. split; [|exact K].
    constructor; [left; exact Fr|]. apply Rw; [apply has_time_index; exact HtR|]. exists rs. auto.
Qed.

Lemma tup_inj a b a' b' : tup a b = tup a' b' -> a = a' /\ b = b'.
Proof.
  revert a'; induction a as [|c a IH]; intros [|c' a'] E; cbn in E; try discriminate.
  - injection E as ->. auto.
  - injection E as -> E. apply IH in E as [-> ->]. auto.
Qed.

Lemma key_eqb_spec a b : key_eqb a b = true <-> a = b.
Proof.
  revert b; induction a as [|x a IH]; intros [|y b]; cbn; split; intros H; try discriminate; try reflexivity.
  - apply andb_prop in H as [H1 H2]. apply String.eqb_eq in H1. apply IH in H2. congruence.
  - injection H as -> ->. rewrite String.eqb_refl. cbn. apply IH. reflexivity.
Qed.

Lemma list_remove_nodup x l : NoDup l -> In x l -> list_remove x l = Some (filter (fun k => negb (String.eqb k x)) l).
Proof.
  induction l as [|y l IH]; cbn; intros N H; [contradiction|]. inversion N; subst.
  destruct (String.eqb_spec y x) as [->|Ne]; cbn.
  - f_equal. symmetry. apply filter_all. intros a Ha. apply negb_true_iff, String.eqb_neq. congruence.
  - destruct H as [->|H]; [congruence|]. rewrite IH by assumption. reflexivity.
Qed.
Lemma list_remove_absent x l : ~ In x l -> list_remove x l = None.
Proof.
  induction l as [|y l IH]; cbn; intros H; [reflexivity|]. destruct (String.eqb_spec y x) as [->|Ne]; [tauto|].
  rewrite IH by tauto. reflexivity.
Qed.

Lemma dict_get_in {V} (d : list (string * V)) k v : NoDup (map fst d) -> (dict_get d k = Some v <-> In (k, v) d).
Proof.
  unfold dict_get. induction d as [|[a u] d IH]; cbn; intros N; [split; [discriminate|tauto]|].
  inversion N as [|? ? N1 N2]; subst. destruct (String.eqb_spec a k) as [->|Ne]; cbn.
  - split; [intros E; injection E as ->; left; reflexivity|]. intros [E|H]; [congruence|].
    exfalso. apply N1. apply (in_map fst) in H. exact H.
  - rewrite IH by exact N2. split; [tauto|]. intros [E|H]; [congruence|exact H].
Qed.

(* the frames of a sublist of the keys *)
Lemma named_frames_sub dfs c : NoDup (map fst dfs) -> sublist c (map fst dfs) ->
  named_frames dfs c = map (fun e => df_name_multiindex (snd e) (fst e)) (filter (fun e => existsb (String.eqb (fst e)) c) dfs).
Proof.
  intros N S. unfold named_frames.
  assert (G : forall d c, NoDup (map fst d) -> sublist c (map fst d) -> (forall k v, In (k, v) d -> dict_get dfs k = Some v) ->
    flat_map (fun k => match dict_get dfs k with Some f => [df_name_multiindex f k] | None => [] end) c =
    map (fun e => df_name_multiindex (snd e) (fst e)) (filter (fun e => existsb (String.eqb (fst e)) c) d)).
  { induction d as [|[k v] d IH]; intros c0 N0 S0 H0.
    - inversion S0; subst. reflexivity.
    - cbn in N0, S0. inversion N0 as [|? ? N1 N2]; subst. inversion S0 as [|x c1 l S1|x c1 l S1]; subst.
      + rewrite filter_none; [reflexivity|]. intros; reflexivity.
      + cbn [flat_map]. rewrite (H0 k v (or_introl eq_refl)). cbn [filter fst]. cbn [existsb]. rewrite String.eqb_refl. cbn [orb map app].
        f_equal. rewrite (IH c1 N2 S1) by (intros; apply H0; right; assumption). f_equal. apply filter_ext_in.
        intros [k' v'] H'. cbn. destruct (String.eqb_spec k' k) as [->|]; [|reflexivity].
        exfalso. apply N1. apply (in_map fst) in H'. exact H'.
      + cbn [filter fst]. destruct (existsb (String.eqb k) c0) eqn:X.
        * exfalso. apply existsb_exists in X as (y & Hy & Ey). apply String.eqb_eq in Ey. subst y.
          apply N1. eapply sublist_in; eassumption.
        * apply IH; [exact N2|exact S1|intros; apply H0; right; assumption]. }
  apply G; [exact N|exact S|]. intros k v H. apply dict_get_in; assumption.
Qed.

Lemma sublist_filter {A} (p : A -> bool) l : sublist (filter p l) l.
Proof. induction l as [|x l IH]; cbn; [constructor|]. destruct (p x); [apply sub_take|apply sub_skip]; exact IH. Qed.
Lemma sublist_trans {A} (a b c : list A) : sublist a b -> sublist b c -> sublist a c.
Proof.
  intros H1 H2. revert a H1. induction H2 as [l|x k l H IH|x k l H IH]; intros a H1.
  - inversion H1; subst. constructor.
  - inversion H1; subst; [constructor|apply sub_take, IH; assumption|apply sub_skip, IH; assumption].
  - apply sub_skip, IH. exact H1.
Qed.
Lemma sublist_nodup {A} (a b : list A) : sublist a b -> NoDup b -> NoDup a.
Proof.
  induction 1 as [l|x k l H IH|x k l H IH]; intros N; [constructor| |].
  - inversion N; subst. constructor; [|apply IH; assumption]. intros X. apply H2. eapply sublist_in; eassumption.
  - inversion N; subst. apply IH; assumption.
Qed.

Lemma mem_in x l : existsb (String.eqb x) l = true <-> In x l.
Proof.
  rewrite existsb_exists. split; [intros (y & H & E); apply String.eqb_eq in E; subst; exact H|].
  intros H. exists x. split; [exact H|apply String.eqb_refl].
Qed.
Lemma mem_ext a b x : (In x a <-> In x b) -> existsb (String.eqb x) a = existsb (String.eqb x) b.
Proof.
  intros H. destruct (existsb (String.eqb x) a) eqn:E1, (existsb (String.eqb x) b) eqn:E2; try reflexivity.
  - apply mem_in, H, mem_in in E1. congruence.
  - apply mem_in, H, mem_in in E2. congruence.
Qed.
(* a sublist of a duplicate free list is determined by its elements *)
Lemma sublist_is_filter c l : NoDup l -> sublist c l -> c = filter (fun x => existsb (String.eqb x) c) l.
Proof.
  intros N S. induction S as [l|x k l H IH|x k l H IH].
  - rewrite filter_none; [reflexivity|]. reflexivity.
  - inversion N; subst. cbn [filter existsb]. rewrite String.eqb_refl. cbn [orb]. f_equal. rewrite IH at 1 by assumption.
    apply filter_ext_in. intros y Hy. destruct (String.eqb_spec y x) as [->|]; [contradiction|reflexivity].
  - inversion N; subst. cbn [filter]. destruct (existsb (String.eqb x) k) eqn:E; [|apply IH; assumption].
    exfalso. apply mem_in in E. apply H2. eapply sublist_in; eassumption.
Qed.

Definition combos_of (dfs : df_dict) (refkey : string) (n' : nat) : list (list string) :=
  combinations n' (filter (fun k => negb (String.eqb k refkey)) (map fst dfs)).

Lemma dict_set_fresh {V} (d : list (list string * V)) k v : ~ In k (map fst d) -> dict_set key_eqb d k v = d ++ [(k, v)].
Proof.
  induction d as [|[k' v'] d IH]; cbn; intros H; [reflexivity|]. destruct (key_eqb k' k) eqn:E.
  - apply key_eqb_spec in E. subst. tauto.
  - rewrite IH by tauto. reflexivity.
Qed.

(* the loop appends one entry per combination with a non-empty join *)
Lemma match_loop_spec store oob w dfs refkey R (J : list string -> frame) combos matched :
  (forall c, In c combos -> basic_match store oob w R (named_frames dfs c) = Ok (J c)) ->
  NoDup (map (fun c => refkey :: s_sort str_leb c) combos) ->
  (forall c, In c combos -> ~ In (refkey :: s_sort str_leb c) (map fst matched)) ->
  match_loop store oob w dfs refkey R combos matched =
  Ok (matched ++ map (fun c => (refkey :: s_sort str_leb c, J c)) (filter (fun c => negb (Nat.eqb (List.length (frows (J c))) 0)) combos)).
Proof.
  revert matched; induction combos as [|c combos IH]; intros matched HJ N F.
  - cbn. rewrite app_nil_r. reflexivity.
  - cbn [match_loop]. rewrite (HJ c (or_introl eq_refl)). cbn [bindR map filter] in *. inversion N as [|? ? N1 N2]; subst.
    destruct (Nat.eqb (List.length (frows (J c))) 0) eqn:E; cbn [negb].
    + apply IH; [intros; apply HJ; right; assumption|exact N2|intros; apply F; right; assumption].
    + rewrite dict_set_fresh by (apply F; left; reflexivity). rewrite IH.
      * rewrite <- app_assoc. reflexivity.
      * intros; apply HJ; right; assumption.
      * exact N2.
      * intros c' Hc' X. rewrite map_app, in_app_iff in X. destruct X as [X|[X|[]]]; [apply (F c' (or_intror Hc')); exact X|].
        cbn in X. apply N1. rewrite X. apply (in_map (fun c => refkey :: s_sort str_leb c)). exact Hc'.
Qed.

Lemma subset_combo dfs refkey n' c : NoDup (map fst dfs) -> In c (combos_of dfs refkey n') ->
  name_subset dfs refkey n' (s_sort str_leb c) /\ NoDup c /\ sublist c (map fst dfs) /\ ~ In refkey c.
Proof.
  intros N H. apply combinations_in in H as [S L].
  assert (S' : sublist c (map fst dfs)) by (eapply sublist_trans; [exact S|apply sublist_filter]).
  assert (Nc : NoDup c) by (eapply sublist_nodup; [exact S'|exact N]).
  assert (Hr : ~ In refkey c).
  { intros X. apply (sublist_in _ _ _ S) in X. apply filter_In in X as [_ X]. rewrite String.eqb_refl in X. discriminate. }
  split; [|auto]. split; [rewrite s_sort_length; exact L|]. split; [apply str_sorted_strict, Nc|].
  intros x Hx. apply s_sort_in in Hx. split; [eapply sublist_in; eassumption|]. intros ->. contradiction.
Qed.

Lemma str_sort_id s : StronglySorted str_lt s -> s_sort str_leb s = s.
Proof.
  intros S. apply s_sort_id; [apply str_leb_total|apply str_leb_trans|apply str_leb_antisym|].
  induction S as [|x l S IH F]; constructor; [exact IH|]. rewrite Forall_forall in *. intros y Hy. apply F, Hy.
Qed.

(* the combination behind an alphabetical subset *)
Lemma combo_subset dfs refkey n' s : NoDup (map fst dfs) -> name_subset dfs refkey n' s ->
  exists c, In c (combos_of dfs refkey n') /\ s_sort str_leb c = s /\ forall x, In x c <-> In x s.
Proof.
  intros N (L & S & H).
  set (keys := filter (fun k => negb (String.eqb k refkey)) (map fst dfs)).
  set (c := filter (fun x => existsb (String.eqb x) s) keys).
  assert (Hc : forall x, In x c <-> In x s).
  { intros x. unfold c, keys. rewrite !filter_In, mem_in, negb_true_iff, String.eqb_neq. split; [tauto|].
    intros X. split; [apply H, X|exact X]. }
  assert (Nk : NoDup keys) by (apply NoDup_filter, N).
  assert (P : Permutation c s).
  { apply NoDup_Permutation; [apply NoDup_filter, Nk|apply strict_nodup, S|exact Hc]. }
  exists c. split; [|split; [|exact Hc]].
  - apply combinations_in. split; [apply sublist_filter|]. rewrite (Permutation_length P). exact L.
  - rewrite (s_sort_perm_eq str_leb str_leb_total str_leb_trans str_leb_antisym _ _ P). apply str_sort_id, S.
Qed.
Lemma combo_unique dfs refkey n' c c' : NoDup (map fst dfs) -> In c (combos_of dfs refkey n') -> In c' (combos_of dfs refkey n') ->
  s_sort str_leb c = s_sort str_leb c' -> c = c'.
Proof.
  intros N H H' E. destruct (subset_combo _ _ _ _ N H) as (_ & _ & S & _). destruct (subset_combo _ _ _ _ N H') as (_ & _ & S' & _).
  rewrite (sublist_is_filter c _ N S), (sublist_is_filter c' _ N S'). apply filter_ext. intros x. apply mem_ext.
  rewrite <- (s_sort_in str_leb c), <- (s_sort_in str_leb c'). rewrite E. tauto.
Qed.

Lemma usable_named f k : usable f -> usable (df_name_multiindex f k).
Proof.
  intros [W M]. split; [|exact M]. intros t r H. cbn in *. rewrite map_length. apply (W t), H.
Qed.

Lemma matched_row_named r0 k0 others w t r :
  matched_row (df_name_multiindex r0 k0) (map (fun e => df_name_multiindex (snd e) (fst e)) others) w t r <->
  matched_row r0 (map snd others) w t r.
Proof.
  unfold matched_row. split; intros (rr & rs & F & F2 & E); exists rr, rs; (split; [exact F|split; [|exact E]]).
  - clear -F2. revert rs F2. induction others as [|e others IH]; intros rs F2; inversion F2; subst; constructor; [|apply IH; assumption].
    cbn in *. rewrite map_length in *. assumption.
  - clear -F2. revert rs F2. induction others as [|e others IH]; intros rs F2; inversion F2; subst; constructor; [|apply IH; assumption].
    cbn in *. rewrite map_length in *. assumption.
Qed.

Lemma flat_map_map {A B C} (f : B -> list C) (g : A -> B) l : flat_map f (map g l) = flat_map (fun x => f (g x)) l.
Proof. induction l as [|a l IH]; cbn; [reflexivity|]. rewrite IH. reflexivity. Qed.

Lemma filter_filter' {A} (p q : A -> bool) l : filter p (filter q l) = filter (fun x => q x && p x) l.
Proof. induction l as [|a l IH]; cbn; [reflexivity|]. destruct (q a); cbn; rewrite IH; [destruct (p a); reflexivity|reflexivity]. Qed.

Lemma combinatory_spec store oob w dfs refkey n ref :
  NoDup (map fst dfs) -> In (refkey, ref) dfs -> (1 <= n)%nat ->
  (forall k f, In (k, f) dfs -> k <> refkey -> usable f) ->
  exists out, combinatory_matcher store oob w dfs refkey n = Ok out /\ NoDup (map fst out) /\
    (forall key f, In (key, f) out -> exists s, key = refkey :: s /\ name_subset dfs refkey (n - 1) s) /\
    (forall s, name_subset dfs refkey (n - 1) s ->
       exists f, NoDup (findex f) /\
         fcols f = columns_named (refkey, ref) ++ flat_map columns_named (pick dfs s) /\
         (forall t r, In (t, r) (frows f) <->
            matched_row ref (map snd (pick dfs s)) w t r /\ exists c, In c r /\ c <> None) /\
         (frows f <> [] -> In (refkey :: s, f) out) /\
         (frows f = [] -> ~ In (refkey :: s) (map fst out))).
Proof.
  intros N Hr Hn U. destruct n as [|n']; [lia|]. replace (S n' - 1)%nat with n' by lia. clear Hn.
  assert (Hk : In refkey (map fst dfs)) by (apply (in_map fst) in Hr; exact Hr).
  set (R := df_name_multiindex ref refkey).
  assert (HJ : forall c, exists f, In c (combos_of dfs refkey n') ->
     basic_match store oob w R (named_frames dfs c) = Ok f /\ NoDup (findex f) /\
     fcols f = columns_named (refkey, ref) ++ flat_map columns_named (pick dfs c) /\
     forall t r, In (t, r) (frows f) <-> matched_row ref (map snd (pick dfs c)) w t r /\ exists x, In x r /\ x <> None).
  { intros c. destruct (in_dec (list_eq_dec string_dec) c (combos_of dfs refkey n')) as [Hc|Hc]; [|exists R; tauto].
    destruct (subset_combo _ _ _ _ N Hc) as (_ & _ & Sc & Hrc).
    destruct (matcher_rows store oob R (named_frames dfs c) w CDAll) as (m & E & Cm & Nm & Im).
    { rewrite named_frames_sub by assumption. intros o Ho. apply in_map_iff in Ho as ([k f] & <- & Ho).
      apply filter_In in Ho as [Ho Hm]. apply mem_in in Hm. cbn in *. apply usable_named. apply (U k f Ho). intros ->. contradiction. }
    exists m. intros _. split; [exact E|]. split; [exact Nm|]. rewrite named_frames_sub in * by assumption. split.
    - rewrite Cm, flat_map_map. reflexivity.
    - intros t r. rewrite Im. unfold R. rewrite matched_row_named. reflexivity. }
  assert (HJ' : exists J, forall c, In c (combos_of dfs refkey n') ->
     basic_match store oob w R (named_frames dfs c) = Ok (J c) /\ NoDup (findex (J c)) /\
     fcols (J c) = columns_named (refkey, ref) ++ flat_map columns_named (pick dfs c) /\
     forall t r, In (t, r) (frows (J c)) <-> matched_row ref (map snd (pick dfs c)) w t r /\ exists x, In x r /\ x <> None).
  { exists (fun c => match basic_match store oob w R (named_frames dfs c) with Ok f => f | Err _ => R end).
    intros c Hc. destruct (HJ c) as (f & Hf). destruct (Hf Hc) as (E & Rest). rewrite E. auto. }
  clear HJ. destruct HJ' as (J & HJ).
  assert (NK : NoDup (map (fun c => refkey :: s_sort str_leb c) (combos_of dfs refkey n'))).
  { apply nodup_map_inj.
    - intros c c' Hc Hc' E. injection E as E. eapply combo_unique; eassumption.
    - apply combinations_nodup, NoDup_filter, N. }
  exists (map (fun c => (refkey :: s_sort str_leb c, J c)) (filter (fun c => negb (Nat.eqb (List.length (frows (J c))) 0)) (combos_of dfs refkey n'))).
  split.
  { unfold combinatory_matcher. rewrite list_remove_nodup by assumption. rewrite (proj2 (dict_get_in dfs refkey ref N) Hr).
    fold R. fold (combos_of dfs refkey n'). rewrite (match_loop_spec store oob w dfs refkey R J); [reflexivity| |exact NK|intros c _ []].
    intros c Hc. apply HJ, Hc. }
  split.
  { rewrite map_map. cbn [fst]. clear -NK. induction (combos_of dfs refkey n') as [|c l IH]; cbn in *; [constructor|].
    inversion NK; subst. destruct (negb _); [|apply IH; assumption]. cbn. constructor; [|apply IH; assumption].
    intros X. apply H1. apply in_map_iff in X as (c' & E & X). rewrite <- E. apply filter_In in X as [X _].
    apply (in_map (fun c => refkey :: s_sort str_leb c)). exact X. }
  split.
  { intros key f H. apply in_map_iff in H as (c & E & H). injection E as <- _. apply filter_In in H as [H _].
    exists (s_sort str_leb c). split; [reflexivity|]. apply subset_combo; assumption. }
  intros s Hs. destruct (combo_subset _ _ _ _ N Hs) as (c & Hc & Es & Ic).
  destruct (HJ c Hc) as (E & Nf & Cf & If).
  assert (EP : pick dfs s = pick dfs c).
  { unfold pick. apply filter_ext. intros e. apply mem_ext. symmetry. apply Ic. }
  exists (J c). rewrite EP. split; [exact Nf|]. split; [exact Cf|]. split; [exact If|]. split.
  - intros Ne. apply in_map_iff. exists c. split; [rewrite Es; reflexivity|]. apply filter_In. split; [exact Hc|].
    destruct (frows (J c)); [congruence|reflexivity].
  - intros Em X. rewrite map_map in X. apply in_map_iff in X as (c' & Ec & X). apply filter_In in X as [X1 X2]. cbn in Ec.
    injection Ec as Ec. rewrite <- Es in Ec. assert (c' = c) by (eapply combo_unique; eassumption). subst c'.
    rewrite Em in X2. discriminate.
Qed.

Lemma combinatory_unknown_ref store oob w dfs refkey n : ~ In refkey (map fst dfs) ->
  combinatory_matcher store oob w dfs refkey n = Err EValue.
Proof. intros H. unfold combinatory_matcher. rewrite list_remove_absent by exact H. reflexivity. Qed.

(* -------------------------------------------------------- combined matcher *)

Lemma named_frames_others dfs refname : NoDup (map fst dfs) ->
  named_frames dfs (filter (fun k => negb (String.eqb k refname)) (map fst dfs)) =
  map (fun e => df_name_multiindex (snd e) (fst e)) (filter (fun e => negb (String.eqb (fst e) refname)) dfs).
Proof.
  intros N. rewrite named_frames_sub; [|exact N|apply sublist_filter]. f_equal. apply filter_ext_in. intros [k v] H. cbn.
  destruct (negb (String.eqb k refname)) eqn:E.
  - apply mem_in, filter_In. split; [apply (in_map fst) in H; exact H|exact E].
  - destruct (existsb _ _) eqn:X; [|reflexivity]. apply mem_in, filter_In in X as [_ X]. congruence.
Qed.

Lemma combined_matcher_spec store oob hour window dfs refname n ref :
  NoDup (map fst dfs) -> In (refname, ref) dfs ->
  (forall k f, In (k, f) dfs -> k <> refname -> usable f) ->
  match n with Some m => m = List.length dfs | None => True end ->
  let others := filter (fun e => negb (String.eqb (fst e) refname)) dfs in
  let w := match window with Some w => w | None => hour end in
  exists f, combined_matcher store oob hour window dfs refname n = Ok [(refname :: map fst others, f)] /\
    NoDup (findex f) /\ fcols f = columns_named (refname, ref) ++ flat_map columns_named others /\
    forall t r, In (t, r) (frows f) <-> matched_row ref (map snd others) w t r /\ forall c, In c r -> c <> None.
Proof.
  intros N Hr U Hn others w. unfold combined_matcher.
  replace (match n with Some m => negb (Nat.eqb (List.length dfs) m) | None => false end) with false
    by (destruct n as [m|]; [subst; rewrite Nat.eqb_refl; reflexivity|reflexivity]).
  fold w. rewrite (proj2 (dict_get_in dfs refname ref N) Hr).
  rewrite named_frames_others by exact N. fold others.
  destruct (matcher_rows store oob (df_name_multiindex ref refname) (map (fun e => df_name_multiindex (snd e) (fst e)) others) w CDAny)
    as (m & E & Cm & Nm & Im).
  { intros o Ho. apply in_map_iff in Ho as ([k f] & <- & Ho). apply filter_In in Ho as [Ho Hk]. cbn in *.
    apply usable_named. apply (U k f Ho). apply negb_true_iff, String.eqb_neq in Hk. exact Hk. }
  rewrite E. cbn [bindR]. rewrite list_remove_nodup; [|exact N|apply (in_map fst) in Hr; exact Hr].
  exists m. split.
  { do 4 f_equal. unfold others. clear. induction dfs as [|[k v] d IH]; cbn; [reflexivity|].
    destruct (negb (String.eqb k refname)); cbn; rewrite IH; reflexivity. }
  split; [exact Nm|]. split; [rewrite Cm, flat_map_map; reflexivity|].
  intros t r. rewrite Im, matched_row_named. reflexivity.
Qed.

Lemma combined_matcher_wrong_number store oob hour window dfs refname n :
  n <> List.length dfs -> combined_matcher store oob hour window dfs refname (Some n) = Ok [].
Proof.
  intros H. unfold combined_matcher. replace (Nat.eqb (List.length dfs) n) with false; [reflexivity|].
  symmetry. apply Nat.eqb_neq. congruence.
Qed.
