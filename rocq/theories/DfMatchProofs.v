From Verif Require Import Base BaseProofs TemporalModel TemporalSpec TemporalProofs DfMatchModel DfMatchSpec.
From Coq Require Import ZifyBool ZifyNat.

Lemma insert_row_perm {A} (x : Z * A) l : Permutation (insert_row x l) (x :: l).
Proof.
  induction l as [|y l IH]; cbn; [reflexivity|]. destruct (fst x <=? fst y); [reflexivity|].
  rewrite IH. apply perm_swap.
Qed.
Lemma sort_index_perm {A} (l : list (Z * A)) : Permutation (sort_index l) l.
Proof. induction l as [|x l IH]; cbn; [reflexivity|]. rewrite insert_row_perm, IH. reflexivity. Qed.

Lemma insert_row_sorted {A} (x : Z * A) l :
  StronglySorted Z.le (map fst l) -> StronglySorted Z.le (map fst (insert_row x l)).
Proof.
  induction l as [|y l IH]; cbn; intros H; [repeat constructor|].
  inversion H as [|? ? Hs Hf]; subst. destruct (fst x <=? fst y) eqn:E; cbn.
  - constructor; [exact H|]. constructor; [lia|]. eapply Forall_impl; [|exact Hf]. cbn; intros; lia.
  - constructor; [auto|]. apply Forall_forall. intros z Hz.
    apply in_map_iff in Hz as (p & <- & Hp).
    apply (Permutation_in _ (insert_row_perm x l)) in Hp as [<-|Hp]; [lia|].
    rewrite Forall_forall in Hf. apply Hf, in_map, Hp.
Qed.
Lemma sort_index_sorted {A} (l : list (Z * A)) : StronglySorted Z.le (map fst (sort_index l)).
Proof. induction l as [|x l IH]; cbn; [constructor|]. apply insert_row_sorted, IH. Qed.

Lemma match_table_perm kd ref arg : Permutation (map fst (match_table kd ref arg)) ref.
Proof.
  unfold match_table. rewrite (Permutation_map fst (sort_index_perm _)). rewrite map_map. cbn.
  rewrite map_id. reflexivity.
Qed.

Lemma match_table_nearest kd ref arg t m : kd_correct kd -> frows arg <> [] ->
  In (t, m) (match_table kd ref arg) -> In t ref /\ nearest_match arg t m.
Proof.
  intros Hkd Hne Hin. apply (Permutation_in _ (sort_index_perm _)) in Hin.
  apply in_map_iff in Hin as (t' & [= -> <-] & Ht). split; [exact Ht|].
  assert (Hf : findex arg <> []) by (unfold findex; destruct (frows arg); [congruence|discriminate]).
  destruct (Hkd (findex arg) t Hf) as [Hlt Hmin].
  set (i := kd (findex arg) t) in *.
  assert (Hi : (i < List.length (frows arg))%nat) by (unfold findex in Hlt; rewrite map_length in Hlt; exact Hlt).
  destruct (nth_error (frows arg) i) as [[s r]|] eqn:E; [|apply nth_error_None in E; lia].
  assert (H1 : nth i (findex arg) 0 = s).
  { apply nth_error_nth. apply map_nth_error with (f := fst) in E. exact E. }
  assert (H2 : nth i (map snd (frows arg)) [] = r).
  { apply nth_error_nth. apply map_nth_error with (f := snd) in E. exact E. }
  unfold nearest_match; cbn. rewrite H1, H2. repeat split; [exact E|].
  intros s' r' Hin. rewrite <- H1. apply Hmin. apply (in_map fst) in Hin. exact Hin.
Qed.

Lemma match_table_total kd ref arg t : In t ref -> exists m, In (t, m) (match_table kd ref arg).
Proof.
  intros Ht. pose proof (Permutation_in _ (Permutation_sym (match_table_perm kd ref arg)) Ht) as H.
  apply in_map_iff in H as ([t' m] & <- & Hin). exists m; exact Hin.
Qed.

Lemma valid_dist_spec a w d : 0 < w -> a <> AsymOther ->
  exists b, valid_dist a w d = Some b /\ (b = true <-> in_asym_window a w d).
Proof.
  intros Hw Ha. destruct a; [| | |congruence]; cbn; eexists; (split; [reflexivity|]); lia.
Qed.

Definition windowed (w : Z) (a : asym) (x : Z * mrow) : Z * option mrow :=
  (fst x, match valid_dist a w (m_dist (snd x)) with Some true => Some (snd x) | _ => None end).

Lemma apply_window_ok w a l : 0 < w -> a <> AsymOther ->
  apply_window (Some w) a l = Ok (map (windowed w a) l).
Proof.
  intros Hw Ha. unfold apply_window. apply seqR_ok. rewrite map_map. apply map_ext. intros x.
  unfold windowed. destruct (valid_dist_spec a w (m_dist (snd x)) Hw Ha) as (b & -> & _).
  destruct b; reflexivity.
Qed.

Lemma df_match_window kd ref arg w a :
  kd_correct kd -> 0 < w -> a <> AsymOther -> ref <> [] -> frows arg <> [] ->
  exists rows, df_match kd ref arg (Some w) a false false = Ok rows /\
    Permutation (map fst rows) ref /\ StronglySorted Z.le (map fst rows) /\
    forall t o, In (t, o) rows -> exists m, nearest_match arg t m /\
      ((in_asym_window a w (m_dist m) /\ o = Some m) \/ (~ in_asym_window a w (m_dist m) /\ o = None)).
Proof.
  intros Hkd Hw Ha Hr Hne. unfold df_match.
  destruct ref as [|t0 ref']; [congruence|]. set (ref := t0 :: ref') in *.
  destruct (frows arg) eqn:E; [congruence|]. rewrite <- E in Hne. clear E.
  rewrite apply_window_ok by assumption. cbn [mapR].
  eexists; split; [reflexivity|].
  assert (Hfst : map fst (map (windowed w a) (match_table kd ref arg)) = map fst (match_table kd ref arg))
    by (rewrite map_map; reflexivity).
  rewrite Hfst. split; [apply match_table_perm|]. split; [apply sort_index_sorted|].
  intros t o Hin. apply in_map_iff in Hin as ([t' m] & Heq & Hin).
  unfold windowed in Heq; cbn [fst snd] in Heq. injection Heq as -> <-.
  apply (match_table_nearest kd ref arg t m Hkd Hne) in Hin as [_ Hm].
  exists m. split; [exact Hm|].
  destruct (valid_dist_spec a w (m_dist m) Hw Ha) as (b & -> & Hb).
  destruct b; [left|right]; split; try reflexivity; [apply Hb; reflexivity|].
  intros Hv. apply Hb in Hv. discriminate.
Qed.

Lemma drop_all_nan_windowed w a l : 0 < w -> a <> AsymOther ->
  forall x, In x (drop_all_nan (map (windowed w a) l)) <-> In x l /\ in_asym_window a w (m_dist (snd x)).
Proof.
  intros Hw Ha [t m]. unfold drop_all_nan. rewrite in_flat_map. split.
  - intros ([t' o] & Hin & Hx). apply in_map_iff in Hin as ([t2 m2] & Heq & Hin).
    unfold windowed in Heq; cbn [fst snd] in Heq. injection Heq as -> <-.
    destruct (valid_dist_spec a w (m_dist m2) Hw Ha) as (b & Hv & Hb). cbn [fst snd] in Hx. rewrite Hv in Hx.
    destruct b; [|destruct Hx]. destruct Hx as [[= <- <-]|[]]. split; [exact Hin|]. apply Hb; reflexivity.
  - intros [Hin Hv]. exists (windowed w a (t, m)). split; [apply in_map; exact Hin|].
    unfold windowed; cbn [fst snd] in *. destruct (valid_dist_spec a w (m_dist m) Hw Ha) as (b & -> & Hb).
    apply Hb in Hv. subst b. left; reflexivity.
Qed.

Lemma drop_all_nan_id l : drop_all_nan (map (fun x => (fst x, Some (snd x))) l) = l.
Proof. induction l as [|[t m] l IH]; cbn; [reflexivity|]. f_equal. exact IH. Qed.

Lemma argmin_dist_spec l : forall best,
  (argmin_dist best l = best \/ In (argmin_dist best l) l) /\
  Z.abs (m_dist (snd (argmin_dist best l))) <= Z.abs (m_dist (snd best)) /\
  forall x, In x l -> Z.abs (m_dist (snd (argmin_dist best l))) <= Z.abs (m_dist (snd x)).
Proof.
  induction l as [|x l IH]; intros best; cbn.
  - repeat split; [left; reflexivity|lia|intros y []].
  - destruct (Z.abs (m_dist (snd x)) <? Z.abs (m_dist (snd best))) eqn:E.
    + destruct (IH x) as (H1 & H2 & H3). repeat split.
      * right. destruct H1 as [H1|H1]; [left; symmetry; exact H1|right; exact H1].
      * lia.
      * intros y [<-|Hy]; [lia|auto].
    + destruct (IH best) as (H1 & H2 & H3). repeat split.
      * destruct H1 as [H1|H1]; [left; exact H1|right; right; exact H1].
      * lia.
      * intros y [<-|Hy]; [lia|auto].
Qed.

Lemma nodup_fst_unique {A} (l : list (Z * A)) t a b : NoDup (map fst l) -> In (t, a) l -> In (t, b) l -> a = b.
Proof.
  intros Hn Ha Hb. pose proof (find_nodup fst l (t, a) Hn Ha) as H1.
  pose proof (find_nodup fst l (t, b) Hn Hb) as H2. cbn in H1, H2. congruence.
Qed.

Lemma filter_fst_unique {A} (l : list (Z * A)) x : NoDup (map fst l) -> In x l ->
  filter (fun y => fst y =? fst x) l = [x].
Proof.
  induction l as [|z l IH]; intros Hn Hin; [destruct Hin|]. inversion Hn as [|? ? Hz Hn']; subst.
  cbn. destruct Hin as [->|Hin].
  - rewrite Z.eqb_refl. f_equal. apply filter_none. intros a Ha.
    destruct (fst a =? fst x) eqn:E; [|reflexivity]. exfalso; apply Hz.
    replace (fst x) with (fst a) by lia. apply in_map; exact Ha.
  - destruct (fst z =? fst x) eqn:E; [|auto]. exfalso; apply Hz.
    replace (fst z) with (fst x) by lia. apply in_map; exact Hin.
Qed.

(* representative of a group *)
Definition group_best (l : list (Z * mrow)) (k : Z) : option (Z * mrow) :=
  match filter (fun x => Z.of_nat (m_key (snd x)) =? k) l with
  | [] => None
  | x :: r => Some (argmin_dist x r)
  end.

Lemma group_best_some l k x : group_best l k = Some x ->
  In x l /\ Z.of_nat (m_key (snd x)) = k /\
  forall y, In y l -> Z.of_nat (m_key (snd y)) = k -> Z.abs (m_dist (snd x)) <= Z.abs (m_dist (snd y)).
Proof.
  unfold group_best. destruct (filter _ l) as [|x0 r] eqn:E; [discriminate|]. intros [= <-].
  destruct (argmin_dist_spec r x0) as (H1 & H2 & H3).
  assert (Hin : In (argmin_dist x0 r) (x0 :: r)) by (destruct H1 as [H1|H1]; [left; symmetry; exact H1|right; exact H1]).
  rewrite <- E in Hin. apply filter_In in Hin as [Hin Hk]. repeat split; [exact Hin|lia|].
  intros y Hy Hk2. assert (Hy2 : In y (filter (fun x => Z.of_nat (m_key (snd x)) =? k) l)) by (apply filter_In; split; [exact Hy|lia]).
  rewrite E in Hy2. destruct Hy2 as [<-|Hy2]; auto.
Qed.

Lemma drop_dups_best l : NoDup (map fst l) ->
  drop_dups l = flat_map (fun k => match group_best l k with Some x => [x] | None => [] end) (keys_sorted l).
Proof.
  intros Hn. unfold drop_dups. rewrite !flat_map_concat_map. f_equal. apply map_ext. intros k.
  destruct (group_best l k) as [x|] eqn:E.
  - pose proof (group_best_some _ _ _ E) as (Hin & _ & _). unfold group_best in E.
    destruct (filter _ l) as [|x0 r]; [discriminate|]. injection E as ->. cbv zeta.
    apply filter_fst_unique; assumption.
  - unfold group_best in E. destruct (filter _ l); [reflexivity|discriminate].
Qed.

Lemma drop_dups_spec l : NoDup (map fst l) ->
  (forall x, In x (drop_dups l) -> In x l) /\
  (NoDup (map (fun x => m_key (snd x)) (drop_dups l))) /\
  (forall y, In y l -> exists x, In x (drop_dups l) /\ m_key (snd x) = m_key (snd y)) /\
  (forall x y, In x (drop_dups l) -> In y l -> m_key (snd x) = m_key (snd y) ->
       Z.abs (m_dist (snd x)) <= Z.abs (m_dist (snd y))).
Proof.
  intros Hn. rewrite (drop_dups_best l Hn).
  assert (Hchar : forall ks x, In x (flat_map (fun k => match group_best l k with Some x => [x] | None => [] end) ks)
        <-> exists k, In k ks /\ group_best l k = Some x).
  { intros ks x. rewrite in_flat_map. split; intros (k & Hk & H); exists k; (split; [exact Hk|]).
    - destruct (group_best l k); [destruct H as [->|[]]; reflexivity|destruct H].
    - rewrite H. left; reflexivity. }
  repeat split.
  - intros x Hx. apply Hchar in Hx as (k & _ & Hx). apply group_best_some in Hx; tauto.
  - pose proof (SSorted_lt_nodup _ (sort_union_sorted (map (fun x => Z.of_nat (m_key (snd x))) l))) as Hk.
    fold (keys_sorted l) in Hk. induction Hk as [|k ks Hnk _ IH]; cbn; [constructor|].
    destruct (group_best l k) as [x|] eqn:E; cbn; [|exact IH].
    constructor; [|exact IH]. intros Hin. apply in_map_iff in Hin as (y & Hy & Hin).
    apply Hchar in Hin as (k' & Hk' & Hb). apply group_best_some in Hb as (_ & Hkey & _).
    apply group_best_some in E as (_ & Hkey2 & _). apply Hnk. replace k with k' by lia. exact Hk'.
  - intros y Hy. set (k := Z.of_nat (m_key (snd y))).
    destruct (group_best l k) as [x|] eqn:E.
    + exists x. split; [apply Hchar; exists k; split; [|exact E]|].
      * apply sort_union_in. apply in_map_iff. exists y; auto.
      * apply group_best_some in E as (_ & Hk & _). subst k; lia.
    + exfalso. unfold group_best in E. destruct (filter _ l) eqn:Ef; [|discriminate].
      assert (Hy2 : In y (filter (fun x => Z.of_nat (m_key (snd x)) =? k) l)) by (apply filter_In; split; [exact Hy|subst k; lia]).
      rewrite Ef in Hy2. destruct Hy2.
  - intros x y Hx Hy Hk. apply Hchar in Hx as (k & _ & Hx). apply group_best_some in Hx as (_ & Hk2 & Hmin).
    apply Hmin; [exact Hy|]. lia.
Qed.

Lemma drop_all_nan_in l x : In x (drop_all_nan l) -> In (fst x, Some (snd x)) l.
Proof.
  unfold drop_all_nan. rewrite in_flat_map. intros ([t o] & Hin & Hx). cbn in Hx.
  destruct o as [m|]; [|destruct Hx]. destruct Hx as [<-|[]]. exact Hin.
Qed.

Lemma drop_all_nan_nodup l : NoDup (map fst l) -> NoDup (map fst (drop_all_nan l)).
Proof.
  induction l as [|[t o] l IH]; intros Hn; [constructor|]. inversion Hn as [|? ? Ht Hn']; subst.
  unfold drop_all_nan. cbn [flat_map fst snd]. fold (drop_all_nan l).
  destruct o as [m|]; [|apply IH; exact Hn']. cbn. constructor; [|apply IH; exact Hn'].
  intros Hin. apply Ht. apply in_map_iff in Hin as (y & Hy & Hin). apply drop_all_nan_in in Hin.
  apply (in_map fst) in Hin. cbn in *. congruence.
Qed.

Lemma flat_map_nodup_fst w a l : NoDup (map fst l) -> NoDup (map fst (drop_all_nan (map (windowed w a) l))).
Proof. intros H. apply drop_all_nan_nodup. rewrite map_map. exact H. Qed.

Lemma df_match_dups kd ref arg w a dn :
  kd_correct kd -> 0 < w -> a <> AsymOther -> NoDup ref -> ref <> [] -> frows arg <> [] ->
  exists rows, df_match kd ref arg (Some w) a dn true = Ok (map (fun x => (fst x, Some (snd x))) rows) /\
    (forall t m, In (t, m) rows -> In t ref /\ nearest_match arg t m /\ in_asym_window a w (m_dist m)) /\
    NoDup (map (fun x => m_key (snd x)) rows) /\
    (forall t, In t ref -> exists m, nearest_match arg t m /\ (in_asym_window a w (m_dist m) ->
       exists t' m', In (t', m') rows /\ m_key m' = m_key m /\ Z.abs (m_dist m') <= Z.abs (m_dist m))).
Proof.
  intros Hkd Hw Ha Hnd Hr Hne.
  set (l := drop_all_nan (map (windowed w a) (match_table kd ref arg))).
  assert (Hl : NoDup (map fst l)).
  { apply flat_map_nodup_fst. eapply Permutation_NoDup; [symmetry; apply match_table_perm|exact Hnd]. }
  exists (drop_dups l). split.
  - unfold df_match. destruct ref as [|t0 ref'] eqn:Er; [congruence|]. rewrite <- Er in *.
    destruct (frows arg) eqn:E; [congruence|]. rewrite <- E in *.
    rewrite apply_window_ok by assumption. cbn [mapR].
    destruct dn; [rewrite drop_all_nan_id|]; subst l; rewrite Er; reflexivity.
  - destruct (drop_dups_spec l Hl) as (H1 & H2 & H3 & H4). split; [|split; [exact H2|]].
    + intros t m Hin. apply H1 in Hin. apply drop_all_nan_windowed in Hin as [Hin Hv]; [|exact Hw|exact Ha].
      apply match_table_nearest in Hin as [Ht Hm]; auto.
    + intros t Ht. destruct (match_table_total kd ref arg t Ht) as [m Hin].
      exists m. split; [eapply match_table_nearest; eauto|]. intros Hv.
      assert (Hl2 : In (t, m) l) by (apply drop_all_nan_windowed; auto).
      destruct (H3 _ Hl2) as ([t' m'] & Hx & Hk). exists t', m'. cbn [fst snd] in *. repeat split; auto.
      apply (H4 (t', m') (t, m)); auto.
Qed.

(* a linear scan is a correct nearest-neighbour search *)
Fixpoint scan_from (t : Z) (best : nat * Z) (pos : nat) (l : list Z) : nat :=
  match l with
  | [] => fst best
  | s :: r => if Z.abs (s - t) <? Z.abs (snd best - t) then scan_from t (pos, s) (S pos) r
              else scan_from t best (S pos) r
  end.
Definition scan_nearest (times : list Z) (t : Z) : nat :=
  match times with [] => 0%nat | s :: r => scan_from t (0%nat, s) 1 r end.

Lemma scan_from_spec t l : forall pre bi bs,
  nth_error pre bi = Some bs -> (forall s, In s pre -> Z.abs (bs - t) <= Z.abs (s - t)) ->
  let k := scan_from t (bi, bs) (List.length pre) l in
  exists s, nth_error (pre ++ l) k = Some s /\ forall s', In s' (pre ++ l) -> Z.abs (s - t) <= Z.abs (s' - t).
Proof.
  induction l as [|x l IH]; intros pre bi bs Hb Hmin; cbn [scan_from fst snd].
  - exists bs. rewrite app_nil_r. split; [exact Hb|exact Hmin].
  - assert (Hlen : List.length (pre ++ [x]) = S (List.length pre)) by (rewrite app_length; cbn; lia).
    replace (pre ++ x :: l) with ((pre ++ [x]) ++ l) by (rewrite <- app_assoc; reflexivity).
    destruct (Z.abs (x - t) <? Z.abs (bs - t)) eqn:E; rewrite <- Hlen.
    + apply IH.
      * rewrite nth_error_app2 by lia. replace (_ - _)%nat with 0%nat by lia. reflexivity.
      * intros s Hs. apply in_app_or in Hs as [Hs|[<-|[]]]; [specialize (Hmin s Hs)|]; lia.
    + apply IH.
      * rewrite nth_error_app1; [exact Hb|]. apply nth_error_Some. congruence.
      * intros s Hs. apply in_app_or in Hs as [Hs|[<-|[]]]; [specialize (Hmin s Hs)|]; lia.
Qed.

Lemma scan_nearest_correct : kd_correct scan_nearest.
Proof.
  intros [|s r] t Hne; [congruence|]. cbn [scan_nearest].
  destruct (scan_from_spec t r [s] 0%nat s eq_refl) as (x & Hx & Hmin).
  { intros y [<-|[]]; lia. }
  cbn [List.length app] in Hx, Hmin. split.
  - apply nth_error_Some. unfold scan_nearest. rewrite Hx. discriminate.
  - intros y Hy. rewrite (nth_error_nth _ _ _ Hx). apply Hmin, Hy.
Qed.
