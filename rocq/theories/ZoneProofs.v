(* Lemmas about temporal collocation with time zones. *)
From Verif Require Import BaseProofs ShiftProofs ZoneSpec.
Open Scope Z_scope.

Section ZoneProofs.
Variable wall : string -> Z -> Z.
Variable localize : string -> Z -> option Z.
Variable store : cell -> cell.
Variable oob : Z.

Lemma tz_localize_spec z l : forall u, tz_localize localize z l = Ok u <-> Forall2 (fun a b => localize z a = Some b) l u.
Proof.
  induction l as [|x l IH]; intros u; unfold tz_localize; cbn [map seqR].
  - split; [intros H; injection H as <-; constructor|intros H; inversion H; reflexivity].
  - fold (tz_localize localize z l). destruct (localize z x) as [y|] eqn:E; cbn [bindR].
    + split.
      * intros H. destruct (tz_localize localize z l) as [v|] eqn:E2; [|discriminate H]. cbn in H. injection H as <-. constructor; [exact E|]. apply IH. reflexivity.
      * intros H. inversion H; subst. rewrite E in H2. injection H2 as ->. rewrite (proj2 (IH _) H4). reflexivity.
    + split; [discriminate|]. intros H. inversion H; subst. congruence.
Qed.
Lemma localize_frame_spec z f g : localize_frame localize z f = Ok g <-> read_in localize z f g.
Proof.
  unfold localize_frame, read_in. split.
  - intros H. destruct (tz_localize localize z (findex f)) as [u|] eqn:E; [|discriminate H]. cbn in H. injection H as <-. apply tz_localize_spec in E. cbn. split; [reflexivity|].
    unfold findex in E. revert u E. generalize (frows f). intros l. induction l as [|[t r] l IH]; intros u E; inversion E; subst; cbn; constructor; auto.
  - intros [C H]. destruct g as [gc gr]. cbn in C, H. subst gc. assert (E : tz_localize localize z (findex f) = Ok (map fst gr)).
    { apply tz_localize_spec. unfold findex. revert H. generalize (frows f). intros l H. induction H as [|x y l l' [A B] H IH]; cbn; constructor; auto. }
    rewrite E. cbn. unfold with_index. do 2 f_equal. clear E. revert H. generalize (frows f). intros l H. induction H as [|x [y1 y2] l l' [A B] H IH]; cbn; [reflexivity|]. cbn in B. subst y2. f_equal. exact IH.
Qed.
Lemma read_in_length z f g : read_in localize z f g -> List.length (frows g) = List.length (frows f).
Proof. intros [_ H]. revert H. generalize (frows f) (frows g). intros l l' H. induction H; cbn; congruence. Qed.
Lemma read_in_snd z f g : read_in localize z f g -> map snd (frows g) = map snd (frows f).
Proof. intros [_ H]. revert H. generalize (frows f) (frows g). intros l l' H. induction H as [|x y l l' [A B] H IH]; cbn; congruence. Qed.
Lemma read_in_index z f g : read_in localize z f g -> Forall2 (fun a b => localize z a = Some b) (findex f) (findex g).
Proof. intros [_ H]. unfold findex. revert H. generalize (frows f) (frows g). intros l l' H. induction H as [|x y l l' [A B] H IH]; cbn; constructor; auto. Qed.
Lemma eval_flag_snd fl f g n m : fcols g = fcols f -> map snd (frows g) = map snd (frows f) -> n = m -> eval_flag fl f n = eval_flag fl g m.
Proof.
  intros C S ->. destruct fl as [|l|c]; try reflexivity. cbn [eval_flag]. rewrite C. destruct (col_pos c (fcols f)) as [i|]; [|reflexivity].
  assert (E : col_values g i = col_values f i). { unfold col_values. pose proof (f_equal (map (fun r => nth i r None)) S) as S2. rewrite !map_map in S2. exact S2. }
  rewrite E. reflexivity.
Qed.
Lemma with_index_same f : with_index f (findex f) = f.
Proof. unfold with_index, findex. destruct f as [c l]. cbn. f_equal. induction l as [|[t r] l IH]; cbn; congruence. Qed.
Lemma rows_of_index ref columns : map fst (rows_of_columns ref columns) = ref.
Proof.
  unfold rows_of_columns. rewrite map_map. cbn [fst]. apply (nth_ext _ _ 0 0).
  - rewrite map_length, seq_length. reflexivity.
  - intros n L. rewrite map_length, seq_length in L. rewrite (nth_indep _ 0 (nth 0 ref 0)) by (rewrite map_length, seq_length; exact L).
    rewrite (map_nth (fun i => nth i ref 0) (seq 0 (List.length ref)) 0%nat). rewrite seq_nth by exact L. reflexivity.
Qed.
Lemma mean_index ref other w fl ui f : collocate_mean store oob ref other w fl ui = Ok f -> findex f = ref.
Proof.
  unfold collocate_mean. cbv zeta. destruct (Nat.eqb _ _); [discriminate|]. destruct (Nat.eqb _ _); [|discriminate]. destruct (seqR _); [|discriminate]. cbn. intros H. injection H as <-. apply rows_of_index.
Qed.
Lemma with_index_fr c f : with_index (fr 1 c f) (findex f) = f.
Proof. unfold with_index, fr, findex. destruct f as [cc l]. cbn. f_equal. induction l as [|[t r] l IH]; cbn; congruence. Qed.
Lemma wall_map z c l : (forall t, wall z t = t + c) -> map (wall z) l = map (ShiftProofs.f 1 c) l.
Proof. intros H. apply map_ext. intros t. rewrite H. unfold ShiftProofs.f. ring. Qed.
Lemma with_wall z c g : (forall t, wall z t = t + c) -> with_index g (map (wall z) (findex g)) = fr 1 c g.
Proof.
  intros H. rewrite (wall_map z c _ H). unfold with_index, fr, findex. destruct g as [cc l]. cbn [fcols frows]. f_equal. induction l as [|[t r] l IH]; cbn [map combine fst snd]; congruence.
Qed.
(* the collocation after the alignment of the zones *)
Lemma aligned rz ref other w o z ref' g : align localize rz ref other = Ok (z, ref', g) -> match z with Some zn => by_instants wall localize zn o | None => True end ->
  fcols g = fcols (zdata other) -> map snd (frows g) = map snd (frows (zdata other)) -> List.length ref = List.length ref' ->
  zoned_collocation wall localize store oob rz ref other w o = mapR (ZF z) (temporal_collocation store oob ref' g w o).
Proof.
  intros A BY C S L. unfold zoned_collocation, temporal_collocation. cbv zeta. rewrite (eval_flag_snd (o_flag o) (zdata other) g _ _ C S L). rewrite map_bind. apply bind_ext. intros fl. rewrite A. cbn [bindR].
  assert (MM : forall (h : frame -> frame) (x : res frame), mapR (fun v => ZF z (h v)) x = mapR (ZF z) (mapR h x)) by (intros h [x|]; reflexivity).
  destruct (o_method o) eqn:M.
  - apply (MM (fun v => if o_dropna o then dropna_all v else v)).
  - destruct z as [zn|].
    + destruct BY as [BY|[c [F _]]]; [congruence|]. rewrite (with_wall zn c _ F), (wall_map zn c _ F).
      replace w with (1 * w) at 1 by ring. rewrite (collocate_mean_f 1 c ltac:(lia) oob oob).
      match goal with |- mapR _ (mapR _ ?x) = _ => destruct x as [v|] eqn:E end; [|reflexivity]. cbn [mapR]. pose proof (mean_index _ _ _ _ _ _ E) as IX. rewrite <- IX. rewrite with_index_fr. reflexivity.
    + apply (MM (fun v => if o_dropna o then dropna_all v else v)).
  - destruct z; reflexivity.
Qed.
Lemma Forall2_length' {A B} (R : A -> B -> Prop) l l' : Forall2 R l l' -> List.length l = List.length l'.
Proof. intros H. induction H; cbn; congruence. Qed.
Lemma aware_reference z ref other g w o : by_instants wall localize z o -> instants localize z other g ->
  zoned_collocation wall localize store oob (Some z) ref other w o = mapR (ZF (Some z)) (temporal_collocation store oob ref g w o).
Proof.
  intros BY H. unfold instants in H. destruct (zone other) as [z2|] eqn:E.
  - subst g. apply aligned; auto. unfold align. rewrite E. reflexivity.
  - apply aligned; auto.
    + unfold align. rewrite E. apply localize_frame_spec in H. rewrite H. reflexivity.
    + exact (proj1 H).
    + exact (read_in_snd _ _ _ H).
Qed.
Lemma naive_reference z ref ref' other w o : by_instants wall localize z o -> zone other = Some z -> Forall2 (fun a b => localize z a = Some b) ref ref' ->
  zoned_collocation wall localize store oob None ref other w o = mapR (ZF (Some z)) (temporal_collocation store oob ref' (zdata other) w o).
Proof.
  intros BY E H. apply aligned; auto.
  - unfold align. rewrite E. apply tz_localize_spec in H. rewrite H. reflexivity.
  - exact (Forall2_length' _ _ _ H).
Qed.
Lemma no_zones ref other w o : zone other = None -> zoned_collocation wall localize store oob None ref other w o = mapR (ZF None) (temporal_collocation store oob ref (zdata other) w o).
Proof. intros E. apply aligned; auto. unfold align. rewrite E. reflexivity. Qed.

(* the set of zones *)
Lemma zone_eqb_spec a b : zone_eqb a b = true <-> a = b.
Proof. destruct a as [a|], b as [b|]; cbn; split; intros H; try discriminate; try reflexivity; [apply String.eqb_eq in H; congruence|injection H as ->; apply String.eqb_refl]. Qed.
Lemma add_new_in z l x : In x (add_new z l) <-> x = z \/ In x l.
Proof.
  induction l as [|y l IH]; cbn [add_new]; [cbn; intuition|]. destruct (zone_eqb y z) eqn:E.
  - apply zone_eqb_spec in E. subst y. cbn. intuition.
  - cbn [In]. rewrite IH. intuition.
Qed.
Lemma add_new_nodup z l : NoDup l -> NoDup (add_new z l).
Proof.
  induction l as [|y l IH]; cbn [add_new]; intros H; [repeat constructor; intros []|]. destruct (zone_eqb y z) eqn:E; [exact H|]. inversion H; subst. constructor; [|auto].
  intros I. apply add_new_in in I. destruct I as [->|I]; [|auto]. rewrite (proj2 (zone_eqb_spec z z) eq_refl) in E. discriminate.
Qed.
Lemma zone_set_spec l : NoDup (zone_set l) /\ forall x, In x (zone_set l) <-> In x l.
Proof.
  assert (G : forall s, NoDup s -> NoDup (fold_left (fun s z => add_new z s) l s) /\ forall x, In x (fold_left (fun s z => add_new z s) l s) <-> In x s \/ In x l).
  { induction l as [|y l IH]; intros s N; cbn [fold_left]; [split; [exact N|intros x; cbn; intuition]|]. destruct (IH (add_new y s) (add_new_nodup y s N)) as [A B]. split; [exact A|]. intros x. rewrite B, add_new_in. cbn. intuition. }
  destruct (G [] (NoDup_nil _)) as [A B]. split; [exact A|]. intros x. unfold zone_set. rewrite B. cbn. intuition.
Qed.
Lemma singleton {A} (a : A) l : NoDup l -> In a l -> (forall x, In x l -> x = a) -> l = [a].
Proof.
  intros N I H. destruct l as [|x [|y l]]; [destruct I|rewrite (H x (or_introl eq_refl)); reflexivity|]. exfalso. pose proof (H x (or_introl eq_refl)). pose proof (H y (or_intror (or_introl eq_refl))). subst. inversion N. apply H2. left. reflexivity.
Qed.
Lemma target_same a zs : zs <> [] -> (forall x, In x zs -> x = a) -> target_zone zs = None.
Proof.
  intros N H. unfold target_zone. destruct (zone_set_spec zs) as [ND IN]. rewrite (singleton a (zone_set zs)); [reflexivity|exact ND| |].
  - apply IN. destruct zs as [|x zs]; [congruence|]. left. apply H. left. reflexivity.
  - intros x I. apply H, IN, I.
Qed.
Lemma target_mixed z zs : In None zs -> In (Some z) zs -> (forall x, In x zs -> x = None \/ x = Some z) -> target_zone zs = Some z.
Proof.
  intros N I H. unfold target_zone. destruct (zone_set_spec zs) as [ND IN].
  assert (E : zone_set (filter (fun z => match z with Some _ => true | None => false end) zs) = [Some z]).
  { destruct (zone_set_spec (filter (fun z => match z with Some _ => true | None => false end) zs)) as [ND2 IN2]. apply singleton; [exact ND2| |].
    - apply IN2, filter_In. auto.
    - intros x X. apply IN2, filter_In in X. destruct X as [X X2]. destruct (H x X) as [->| ->]; [discriminate|reflexivity]. }
  rewrite E. destruct (zone_set zs) as [|x [|y l]] eqn:ES; try reflexivity. exfalso. apply IN in N. apply IN in I. destruct N as [N|[]], I as [I|[]]. congruence.
Qed.

(* the combination of frames in one zone *)
Definition finish (cd : combined_dropna) (m : frame) : frame :=
  match cd with CDFalse => m | CDTrue | CDAny => dropna_any m | CDAll => dropna_all m end.
Lemma seqR_zoned z l : seqR (map (mapR (ZF z)) l) = mapR (map (ZF z)) (seqR l).
Proof. exact (seqR_f (ZF z) l). Qed.
Lemma map_zdata z l : map zdata (map (ZF z) l) = l.
Proof. rewrite map_map. cbn. apply map_id. Qed.
Lemma map_zone_in z l x : In x (map zone (map (ZF z) l)) -> x = z.
Proof. rewrite map_map. cbn. intros I. apply in_map_iff in I. destruct I as [? [<- _]]. reflexivity. Qed.
Lemma zone_head z l : match map (ZF z) l with d :: _ => zone d | [] => None end = match l with [] => None | _ => z end.
Proof. destruct l; reflexivity. Qed.
Lemma concat_nil : concat_axis1 [] = Err EValue.
Proof. reflexivity. Qed.
Lemma combined_aware reference others gs w o cd ad z : zone reference = Some z -> by_instants wall localize z o -> Forall2 (instants localize z) others gs ->
  zoned_combined wall localize store oob reference others w o cd ad =
  mapR (fun f => (ZF (Some z) f, reference)) (combined_temporal_collocation store oob (zdata reference) gs w o cd ad).
Proof.
  intros Z BY F. unfold zoned_combined, combined_temporal_collocation. cbv zeta. rewrite Z. set (o' := mkOpts _ _ _ _ _ _ _).
  assert (E : map (fun f => zoned_collocation wall localize store oob (Some z) (findex (zdata reference)) f w o') others =
              map (mapR (ZF (Some z))) (map (fun g => temporal_collocation store oob (findex (zdata reference)) g w o') gs)).
  { clear Z. induction F as [|x y l l' H F IH]; cbn [map]; [reflexivity|]. rewrite IH. f_equal. apply aware_reference; [exact BY|exact H]. }
  rewrite E, seqR_zoned, bind_map, map_bind. apply bind_ext. intros dfs.
  set (own := if o_dropduplicates o then _ else _). set (l := if ad then own :: dfs else dfs).
  assert (E2 : (if ad then ZF (Some z) own :: map (ZF (Some z)) dfs else map (ZF (Some z)) dfs) = map (ZF (Some z)) l) by (unfold l; destruct ad; reflexivity).
  rewrite E2. assert (T : l <> [] -> target_zone (map zone (map (ZF (Some z)) l)) = None).
  { intros N. apply (target_same (Some z)); [destruct l; [congruence|discriminate]|intros x; apply map_zone_in]. }
  destruct l as [|d l']; [destruct ad; [discriminate E2|reflexivity]|]. rewrite (T ltac:(discriminate)). cbn [bindR]. rewrite map_zdata. cbn [map]. destruct (concat_axis1 (d :: l')); reflexivity.
Qed.
Lemma combined_plain reference others w o cd ad : zone reference = None -> Forall (fun f => zone f = None) others ->
  zoned_combined wall localize store oob reference others w o cd ad =
  mapR (fun f => (ZF None f, reference)) (combined_temporal_collocation store oob (zdata reference) (map zdata others) w o cd ad).
Proof.
  intros Z F. unfold zoned_combined, combined_temporal_collocation. cbv zeta. rewrite Z. set (o' := mkOpts _ _ _ _ _ _ _).
  assert (E : map (fun f => zoned_collocation wall localize store oob None (findex (zdata reference)) f w o') others =
              map (mapR (ZF None)) (map (fun g => temporal_collocation store oob (findex (zdata reference)) g w o') (map zdata others))).
  { clear Z. induction F as [|x l H F IH]; cbn [map]; [reflexivity|]. rewrite IH. f_equal. apply no_zones. exact H. }
  rewrite E, seqR_zoned, bind_map, map_bind. apply bind_ext. intros dfs.
  set (own := if o_dropduplicates o then _ else _). set (l := if ad then own :: dfs else dfs).
  assert (E2 : (if ad then ZF None own :: map (ZF None) dfs else map (ZF None) dfs) = map (ZF None) l) by (unfold l; destruct ad; reflexivity).
  rewrite E2. assert (T : l <> [] -> target_zone (map zone (map (ZF None) l)) = None).
  { intros N. apply (target_same None); [destruct l; [congruence|discriminate]|intros x; apply map_zone_in]. }
  destruct l as [|d l']; [destruct ad; [discriminate E2|reflexivity]|]. rewrite (T ltac:(discriminate)). cbn [bindR]. rewrite map_zdata. cbn [map]. destruct (concat_axis1 (d :: l')); reflexivity.
Qed.
Lemma convert_aware z l : seqR (map (convert localize z) (map (ZF (Some z)) l)) = Ok (map (ZF (Some z)) l).
Proof. induction l as [|x l IH]; cbn [map seqR]; [reflexivity|]. unfold convert at 1. cbn. rewrite IH. reflexivity. Qed.
(* removing duplicates and localising *)
Lemma dedup_read z rows rows' : sound_zone wall localize z ->
  Forall2 (fun a b : Z * row => localize z (fst a) = Some (fst b) /\ snd b = snd a) rows rows' ->
  Forall2 (fun a b : Z * row => localize z (fst a) = Some (fst b) /\ snd b = snd a) (dedup_first fst rows) (dedup_first fst rows').
Proof.
  intros SZ. assert (G : forall seen seen', Forall2 (fun a b => localize z a = Some b) seen seen' -> forall rows rows',
    Forall2 (fun a b : Z * row => localize z (fst a) = Some (fst b) /\ snd b = snd a) rows rows' ->
    Forall2 (fun a b : Z * row => localize z (fst a) = Some (fst b) /\ snd b = snd a) (dedup_aux fst seen rows) (dedup_aux fst seen' rows')).
  { intros seen seen' S r r' F. revert seen seen' S. induction F as [|x y l l' [A B] F IH]; intros seen seen' S; cbn [dedup_aux]; [constructor|].
    assert (E : existsb (Z.eqb (fst x)) seen = existsb (Z.eqb (fst y)) seen').
    { clear IH F. induction S as [|a b s s' H S IHS]; cbn; [reflexivity|]. rewrite IHS. f_equal. destruct (Z.eqb_spec (fst x) a) as [E|N], (Z.eqb_spec (fst y) b) as [E2|N2]; try reflexivity.
      - subst a. rewrite A in H. injection H as H. congruence.
      - exfalso. apply N. rewrite E2 in A. apply SZ in A. apply SZ in H. congruence. }
    rewrite E. destruct (existsb (Z.eqb (fst y)) seen'); [apply IH; exact S|]. constructor; [split; auto|]. apply IH. constructor; auto. }
  apply G. constructor.
Qed.
Lemma combined_naive reference r' others w o cd ad z : zone reference = None -> others <> [] -> Forall (fun f => zone f = Some z) others ->
  by_instants wall localize z o -> sound_zone wall localize z -> read_in localize z (zdata reference) r' ->
  zoned_combined wall localize store oob reference others w o cd ad =
  mapR (fun f => (ZF (Some z) f, if (ad && negb (o_dropduplicates o))%bool then ZF (Some z) r' else reference))
    (combined_temporal_collocation store oob r' (map zdata others) w o cd ad).
Proof.
  intros Z NE F BY SZ RI. unfold zoned_combined, combined_temporal_collocation. cbv zeta. rewrite Z. set (o' := mkOpts _ _ _ _ _ _ _).
  assert (E : map (fun f => zoned_collocation wall localize store oob None (findex (zdata reference)) f w o') others =
              map (mapR (ZF (Some z))) (map (fun g => temporal_collocation store oob (findex r') g w o') (map zdata others))).
  { pose proof (read_in_index _ _ _ RI) as IX. clear NE. induction F as [|x l H F IH]; cbn [map]; [reflexivity|]. rewrite IH. f_equal. apply naive_reference; [exact BY|exact H|exact IX]. }
  rewrite E, seqR_zoned, bind_map, map_bind. destruct (seqR _) as [dfs|] eqn:S; [|reflexivity]. cbn [bindR].
  assert (DN : dfs <> []). { destruct others as [|o1 os]; [congruence|]. cbn [map seqR] in S. destruct (temporal_collocation _ _ _ _ _ _); [|discriminate]. cbn in S. destruct (seqR _); [|discriminate]. cbn in S. injection S as <-. discriminate. }
  destruct ad.
  - cbn [andb]. assert (T : target_zone (map zone (ZF None (if o_dropduplicates o then mkFrame (fcols (zdata reference)) (dedup_first fst (frows (zdata reference))) else zdata reference) :: map (ZF (Some z)) dfs)) = Some z).
    { apply target_mixed.
      - left. reflexivity.
      - right. destruct dfs; [congruence|]. left. reflexivity.
      - intros x [<-|I]; [left; reflexivity|right; exact (map_zone_in _ _ _ I)]. }
    rewrite T. cbn [map seqR]. unfold convert at 1. cbn [zone zdata].
    assert (OWN : localize_frame localize z (if o_dropduplicates o then mkFrame (fcols (zdata reference)) (dedup_first fst (frows (zdata reference))) else zdata reference) =
                  Ok (if o_dropduplicates o then mkFrame (fcols r') (dedup_first fst (frows r')) else r')).
    { apply localize_frame_spec. destruct (o_dropduplicates o); [|exact RI]. destruct RI as [C R]. split; [exact C|]. cbn. apply dedup_read; assumption. }
    rewrite OWN. cbn [mapR bindR]. rewrite convert_aware. cbn [bindR].
    assert (CR : convert localize z reference = Ok (ZF (Some z) r')). { unfold convert. rewrite Z. apply localize_frame_spec in RI. rewrite RI. reflexivity. }
    destruct (o_dropduplicates o); cbn [negb]; [|rewrite CR]; cbn [mapR bindR map zdata zone]; rewrite map_zdata; destruct (concat_axis1 _); reflexivity.
  - cbn [andb]. rewrite (target_same (Some z) (map zone (map (ZF (Some z)) dfs))); [|destruct dfs; [congruence|discriminate]|intros x; apply map_zone_in].
    cbn [bindR]. rewrite map_zdata. destruct dfs as [|d ds]; [congruence|]. cbn [map]. destruct (concat_axis1 (d :: ds)); reflexivity.
Qed.

(* all zones equal to one with a fixed offset, some times without zone *)
Lemma localize_fixed z c f : fixed_zone wall localize z c -> localize_frame localize z f = Ok (fr 1 (- c) f).
Proof.
  intros [_ H]. apply localize_frame_spec. split; [reflexivity|]. unfold fr. cbn [frows]. generalize (frows f). intros l. induction l as [|x l IH]; cbn; constructor; [|exact IH]. cbn. split; [|reflexivity]. rewrite H. f_equal. unfold ShiftProofs.f. lia.
Qed.
Definition at_instants (c : Z) (f : zframe) : frame := match zone f with Some _ => zdata f | None => fr 1 (- c) (zdata f) end.
Lemma convert_fixed z c d : fixed_zone wall localize z c -> convert localize z d = Ok (ZF (Some z) (at_instants c d)).
Proof. intros F. unfold convert, at_instants. destruct (zone d); [reflexivity|]. rewrite (localize_fixed z c _ F). reflexivity. Qed.
Lemma seq_convert z c l : fixed_zone wall localize z c -> seqR (map (convert localize z) l) = Ok (map (ZF (Some z)) (map (at_instants c) l)).
Proof. intros F. induction l as [|x l IH]; cbn [map seqR]; [reflexivity|]. rewrite (convert_fixed z c x F), IH. reflexivity. Qed.
Lemma collocation_fixed z c ref f w o : fixed_zone wall localize z c -> (zone f = None \/ zone f = Some z) -> o_return_index o = false -> o_return_distance o = false ->
  mapR (at_instants c) (zoned_collocation wall localize store oob None ref f w o) = temporal_collocation store oob (map (ShiftProofs.f 1 (- c)) ref) (at_instants c f) w o /\
  (forall d, zoned_collocation wall localize store oob None ref f w o = Ok d -> zone d = zone f).
Proof.
  intros F ZF0 RI RD. unfold at_instants at 2. destruct ZF0 as [Z|Z]; rewrite Z.
  - rewrite (no_zones ref f w o Z). split.
    + pose proof (collocation_f 1 (- c) ltac:(lia) oob oob store ref (zdata f) w o RI RD) as G. rewrite Z.mul_1_l in G. rewrite G. destruct (temporal_collocation _ _ ref (zdata f) _ _); reflexivity.
    + intros d H. destruct (temporal_collocation _ _ _ _ _ _); [|discriminate H]. cbn in H. injection H as <-. reflexivity.
  - assert (L : Forall2 (fun a b => localize z a = Some b) ref (map (ShiftProofs.f 1 (- c)) ref)).
    { clear - F. destruct F as [_ H]. induction ref as [|x l IH]; cbn; constructor; [|exact IH]. rewrite H. f_equal. unfold ShiftProofs.f. lia. }
    rewrite (naive_reference z ref _ f w o (or_intror (ex_intro _ c F)) Z L). split.
    + destruct (temporal_collocation _ _ _ _ _ _); reflexivity.
    + intros d H. destruct (temporal_collocation _ _ _ _ _ _); [|discriminate H]. cbn in H. injection H as <-. reflexivity.
Qed.
Lemma seq_fixed z c ref w o others : fixed_zone wall localize z c -> Forall (fun f => zone f = None \/ zone f = Some z) others -> o_return_index o = false -> o_return_distance o = false ->
  mapR (map (at_instants c)) (seqR (map (fun f => zoned_collocation wall localize store oob None ref f w o) others)) =
  seqR (map (fun g => temporal_collocation store oob (map (ShiftProofs.f 1 (- c)) ref) g w o) (map (at_instants c) others)) /\
  (forall dfs, seqR (map (fun f => zoned_collocation wall localize store oob None ref f w o) others) = Ok dfs -> map zone dfs = map zone others).
Proof.
  intros F A RI RD. induction A as [|f l H A [IH1 IH2]]; cbn [map seqR].
  - split; [reflexivity|]. intros dfs H. injection H as <-. reflexivity.
  - destruct (collocation_fixed z c ref f w o F H RI RD) as [C1 C2]. rewrite <- C1, <- IH1. split.
    + destruct (zoned_collocation _ _ _ _ _ _ f _ _); [|reflexivity]. cbn [mapR bindR]. destruct (seqR _); reflexivity.
    + intros dfs E. destruct (zoned_collocation _ _ _ _ _ _ f _ _) as [d|]; [|discriminate E]. cbn [bindR] in E. destruct (seqR _) as [ds|]; [|discriminate E]. cbn in E. injection E as <-. cbn [map]. f_equal; auto.
Qed.
Lemma zones_all z zs : In (Some z) zs -> (forall x, In x zs -> x = None \/ x = Some z) ->
  (target_zone zs = None /\ forall x, In x zs -> x = Some z) \/ target_zone zs = Some z.
Proof.
  intros I H. destruct (in_dec (fun a b : option string => ltac:(decide equality; apply string_dec)) None zs) as [N|N].
  - right. apply target_mixed; assumption.
  - left. assert (G : forall x, In x zs -> x = Some z). { intros x X. destruct (H x X) as [->|E]; [contradiction|exact E]. } split; [|exact G]. apply (target_same (Some z)); [intros ->; destruct I|exact G].
Qed.
Lemma at_instants_aware z c l : (forall x, In x (map zone l) -> x = Some z) -> l = map (ZF (Some z)) (map (at_instants c) l).
Proof.
  induction l as [|[zx d] l IH]; intros H; cbn [map]; [reflexivity|]. f_equal; [|apply IH; intros x X; apply H; right; exact X]. pose proof (H zx (or_introl eq_refl)) as E. subst zx. reflexivity.
Qed.
Lemma combined_fixed reference others w o cd ad z c : fixed_zone wall localize z c -> zone reference = None ->
  Forall (fun f => zone f = None \/ zone f = Some z) others -> Exists (fun f => zone f = Some z) others ->
  zoned_combined wall localize store oob reference others w o cd ad =
  mapR (fun f => (ZF (Some z) f, if (ad && negb (o_dropduplicates o))%bool then ZF (Some z) (at_instants c reference) else reference))
    (combined_temporal_collocation store oob (at_instants c reference) (map (at_instants c) others) w o cd ad).
Proof.
  intros F Z A X. unfold zoned_combined, combined_temporal_collocation. cbv zeta. rewrite Z. set (o' := mkOpts _ _ _ _ _ _ _).
  destruct (seq_fixed z c (findex (zdata reference)) w o' others F A eq_refl eq_refl) as [S1 S2].
  assert (AR : at_instants c reference = fr 1 (- c) (zdata reference)) by (unfold at_instants; rewrite Z; reflexivity).
  rewrite AR, findex_fr, <- S1. destruct (seqR (map (fun f => zoned_collocation _ _ _ _ _ _ f _ _) others)) as [dfs|]; [|reflexivity]. specialize (S2 dfs eq_refl). cbn [mapR bindR].
  set (own := if o_dropduplicates o then mkFrame (fcols (zdata reference)) (dedup_first fst (frows (zdata reference))) else zdata reference).
  assert (OWN : (if o_dropduplicates o then mkFrame (fcols (fr 1 (- c) (zdata reference))) (dedup_first fst (frows (fr 1 (- c) (zdata reference)))) else fr 1 (- c) (zdata reference)) = at_instants c (ZF None own)).
  { unfold at_instants, own. cbn [zone zdata]. destruct (o_dropduplicates o); [|reflexivity]. unfold fr. cbn [fcols frows]. rewrite (dedup_rows_f 1 (- c)) by lia. reflexivity. }
  rewrite OWN. clearbody own. set (l := if ad then ZF None own :: dfs else dfs).
  assert (E : (if ad then at_instants c (ZF None own) :: map (at_instants c) dfs else map (at_instants c) dfs) = map (at_instants c) l) by (unfold l; destruct ad; reflexivity). rewrite E.
  assert (IL : In (Some z) (map zone l)).
  { assert (I : In (Some z) (map zone dfs)). { rewrite S2. apply Exists_exists in X. destruct X as [x [X1 X2]]. rewrite <- X2. apply in_map. exact X1. } unfold l. destruct ad; [right|]; exact I. }
  assert (AL : forall x, In x (map zone l) -> x = None \/ x = Some z).
  { assert (G : forall x, In x (map zone dfs) -> x = None \/ x = Some z). { intros x I. rewrite S2 in I. apply in_map_iff in I. destruct I as [y [<- Y]]. rewrite Forall_forall in A. exact (A y Y). }
    unfold l. destruct ad; [|exact G]. intros x [<-|I]; [left; reflexivity|exact (G x I)]. }
  assert (LN : map (at_instants c) l <> []) by (intros N; apply map_eq_nil in N; rewrite N in IL; destruct IL).
  destruct (zones_all z _ IL AL) as [[T G]|T]; rewrite T; cbn [bindR].
  - assert (AD : ad = false). { destruct ad; [|reflexivity]. pose proof (G None (or_introl eq_refl)). discriminate. }
    pose proof (at_instants_aware z c l G) as AW. clear E IL AL G T. generalize dependent (map (at_instants c) l). intros m LN AW. rewrite AW, map_zdata, zone_head, AD. cbn [andb]. destruct m; [congruence|]. destruct (concat_axis1 _); reflexivity.
  - rewrite (seq_convert z c l F). cbn [bindR]. destruct (ad && negb (o_dropduplicates o))%bool.
    + rewrite (convert_fixed z c reference F). cbn [mapR bindR]. rewrite map_zdata, AR, zone_head. destruct (map (at_instants c) l); [congruence|]. destruct (concat_axis1 _); reflexivity.
    + cbn [bindR]. rewrite map_zdata, zone_head. destruct (map (at_instants c) l); [congruence|]. destruct (concat_axis1 _); reflexivity.
Qed.
End ZoneProofs.
