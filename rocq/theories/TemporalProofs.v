From Verif Require Import Base BaseProofs TemporalModel TemporalSpec.
From Coq Require Import ZifyBool ZifyNat.

(* ---------- resample_mean ---------- *)

Lemma adv_lower_spec lo suffix j :
  exists A B, suffix = A ++ B /\ adv_lower lo suffix j = (j + List.length A)%nat /\
    Forall (fun x => x < lo) A /\ match B with [] => True | y :: _ => lo <= y end.
Proof.
  revert j; induction suffix as [|x r IH]; intros j; cbn.
  - exists [], []. cbn. repeat split; [lia|constructor].
  - destruct (lo <=? x) eqn:E.
    + exists [], (x :: r). cbn. repeat split; [lia|constructor|lia].
    + destruct (IH (S j)) as (A & B & -> & Hl & HA & HB).
      exists (x :: A), B. cbn. repeat split; [lia| |exact HB]. constructor; [lia|exact HA].
Qed.

Lemma adv_upper_spec hi suffix j u :
  Exists (fun x => hi < x) suffix ->
  exists A y B, suffix = A ++ y :: B /\ adv_upper hi suffix j u = j + Z.of_nat (List.length A) - 1 /\
    Forall (fun x => x <= hi) A /\ hi < y.
Proof.
  revert j u; induction suffix as [|x r IH]; intros j u HE; [inversion HE|]. cbn.
  destruct (hi <? x) eqn:E.
  - exists [], x, r. cbn. repeat split; [lia|constructor|lia].
  - assert (HE' : Exists (fun x => hi < x) r) by (inversion HE; subst; [lia|assumption]).
    destruct (IH (j + 1) (j - 1) HE') as (A & y & B & -> & Hl & HA & HB).
    exists (x :: A), y, B. cbn [List.length app]. repeat split; [rewrite Hl; lia| |exact HB].
    constructor; [lia|exact HA].
Qed.

Lemma skipn_skipn' {A} (n m : nat) (l : list A) : skipn n (skipn m l) = skipn (m + n) l.
Proof.
  revert l; induction m as [|m IH]; intros l; cbn; [reflexivity|].
  destruct l as [|a l]; [destruct n; reflexivity|apply IH].
Qed.

Lemma firstn_in {A} n (l : list A) x : In x (firstn n l) -> In x l.
Proof. intros H. rewrite <- (firstn_skipn n l). apply in_or_app; auto. Qed.
Lemma skipn_in {A} n (l : list A) x : In x (skipn n l) -> In x l.
Proof. intros H. rewrite <- (firstn_skipn n l). apply in_or_app; auto. Qed.

Lemma slice_filter {X} (p q : X -> bool) (l : list X) (a b : nat) :
  (forall x, In x (firstn a l) -> p x = false) -> (forall x, In x (skipn a l) -> p x = true) ->
  (forall x, In x (firstn b l) -> q x = true) -> (forall x, In x (skipn b l) -> q x = false) ->
  filter (fun x => p x && q x) l = firstn (b - a) (skipn a l).
Proof.
  intros Hp1 Hp2 Hq1 Hq2.
  rewrite <- (firstn_skipn a l) at 1. rewrite filter_app.
  rewrite (filter_none _ (firstn a l)) by (intros x Hx; rewrite (Hp1 x Hx); reflexivity).
  cbn [app].
  rewrite <- (firstn_skipn (b - a) (skipn a l)) at 1. rewrite filter_app.
  rewrite (filter_all _ (firstn (b - a) (skipn a l))).
  2:{ intros x Hx. rewrite Hp2 by (eapply firstn_in; eauto). rewrite Hq1; [reflexivity|].
      destruct (Nat.le_gt_cases a b) as [Hab|Hab].
      - rewrite firstn_skipn_comm in Hx. apply skipn_in in Hx.
        replace (a + (b - a))%nat with b in Hx by lia. exact Hx.
      - replace (b - a)%nat with 0%nat in Hx by lia. destruct Hx. }
  rewrite (filter_none _ (skipn (b - a) (skipn a l))).
  - rewrite app_nil_r. reflexivity.
  - intros x Hx. rewrite skipn_skipn' in Hx.
    destruct (Nat.le_gt_cases a b) as [Hab|Hab].
    + replace (a + (b - a))%nat with b in Hx by lia. rewrite (Hq2 x Hx). apply andb_false_r.
    + replace (a + (b - a))%nat with a in Hx by lia.
      rewrite (Hq2 x); [apply andb_false_r|].
      replace a with (b + (a - b))%nat in Hx by lia. rewrite <- skipn_skipn' in Hx.
      eapply skipn_in; eauto.
Qed.

Lemma SSorted_firstn {A} (R : A -> A -> Prop) n l : StronglySorted R l -> StronglySorted R (firstn n l).
Proof. intros H. rewrite <- (firstn_skipn n l) in H. apply SSorted_app_inv in H; tauto. Qed.
Lemma SSorted_skipn {A} (R : A -> A -> Prop) n l : StronglySorted R l -> StronglySorted R (skipn n l).
Proof. intros H. rewrite <- (firstn_skipn n l) in H. apply SSorted_app_inv in H; tauto. Qed.

Lemma SSorted_hd_le l y r : StronglySorted Z.le l -> l = y :: r -> forall x, In x l -> y <= x.
Proof.
  intros H -> x [->|Hx]; [lia|]. inversion H; subst. rewrite Forall_forall in H3. auto.
Qed.

Definition rm_inv (times : list Z) (lo hi : Z) (st : nat * Z) : Prop :=
  (fst st <= List.length times)%nat /\ -1 <= snd st /\
  Forall (fun x => x < lo) (firstn (fst st) times) /\
  Forall (fun x => x <= hi) (firstn (Z.to_nat (Z.max 0 (snd st))) times).

Lemma last_in {A} (l : list A) d : l <> [] -> In (last l d) l.
Proof.
  induction l as [|x l IH]; intros H; [congruence|]. destruct l as [|y l]; [left; reflexivity|].
  right. apply IH. discriminate.
Qed.

Lemma last_max l d : StronglySorted Z.le l -> forall x, In x l -> x <= last l d.
Proof.
  induction 1 as [|y l Hs IH Hf]; intros x Hx; [destruct Hx|].
  destruct l as [|z l]; [destruct Hx as [->|[]]; cbn; lia|].
  change (last (y :: z :: l) d) with (last (z :: l) d).
  destruct Hx as [->|Hx]; [|auto].
  rewrite Forall_forall in Hf. apply Hf. apply last_in. discriminate.
Qed.

Lemma rm_step_empty oob half st t :
  snd (rm_step oob [] [] half st t) = None.
Proof.
  destruct st as [lower upper]. unfold rm_step. rewrite !skipn_nil. cbn [snd].
  match goal with |- (if ?c then _ else _) = _ => destruct c; [reflexivity|] end.
  rewrite firstn_nil. reflexivity.
Qed.

Lemma rm_step_spec oob (obs : list (Z * cell)) half st t :
  obs <> [] ->
  StronglySorted Z.le (map fst obs) ->
  rm_inv (map fst obs) (t - half) (t + half) st ->
  snd (rm_step oob (map fst obs) (map snd obs) half st t) = window_mean t half obs /\
  rm_inv (map fst obs) (t - half) (t + half)
         (fst (rm_step oob (map fst obs) (map snd obs) half st t)).
Proof.
  intros Hne Hs (Hlen & Hup & Hlo & Hhi). destruct st as [lower upper]; cbn [fst snd] in *.
  unfold rm_step.
  assert (Hne' : map fst obs <> []) by (destruct obs; [congruence|discriminate]).
  set (times := map fst obs) in *.
  destruct (adv_lower_spec (t - half) (skipn lower times) lower) as (A & B & HAB & Hl & HA & HB).
  rewrite Hl.
  assert (E1 : times = (firstn lower times ++ A) ++ B).
  { rewrite <- app_assoc, <- HAB. symmetry; apply firstn_skipn. }
  assert (HlenA : List.length (firstn lower times ++ A) = (lower + List.length A)%nat).
  { rewrite app_length, firstn_length. lia. }
  assert (F1 : firstn (lower + List.length A) times = firstn lower times ++ A).
  { rewrite E1 at 1. rewrite <- HlenA. apply firstn_app_len. }
  assert (F2 : skipn (lower + List.length A) times = B).
  { rewrite E1 at 1. rewrite <- HlenA. apply skipn_app_len. }
  assert (HlowAll : forall x, In x (firstn (lower + List.length A) times) -> x < t - half).
  { rewrite F1. intros x Hx. apply in_app_or in Hx as [Hx|Hx].
    - rewrite Forall_forall in Hlo; auto.
    - rewrite Forall_forall in HA; auto. }
  assert (HgeAll : forall x, In x (skipn (lower + List.length A) times) -> t - half <= x).
  { pose proof (SSorted_skipn _ (lower + List.length A)%nat _ Hs) as Hsk.
    rewrite F2 in *. destruct B as [|y r]; [intros x []|].
    intros x Hx. pose proof (SSorted_hd_le _ y r Hsk eq_refl x Hx). lia. }
  assert (Hl'len : (lower + List.length A <= List.length times)%nat).
  { rewrite E1. rewrite app_length, HlenA. lia. }
  set (l' := (lower + List.length A)%nat) in *.
  (* upper *)
  set (u' := if t + half <? rm_last oob times then _ else _).
  assert (Hu : exists b : nat, u' = Z.of_nat b - 1 /\ (b <= List.length times)%nat /\
             (forall x, In x (firstn b times) -> x <= t + half) /\
             (forall x, In x (skipn b times) -> t + half < x)).
  { subst u'. unfold rm_last. destruct (t + half <? last times oob) eqn:E.
    - set (k := Z.to_nat (Z.max 0 upper)) in *.
      assert (HE : Exists (fun x => t + half < x) (skipn k times)).
      { apply Exists_exists. exists (last times oob). split; [|lia].
        pose proof (last_in times oob Hne') as Hin.
        rewrite <- (firstn_skipn k times) in Hin at 2. apply in_app_or in Hin as [Hin|Hin]; [|exact Hin].
        rewrite Forall_forall in Hhi. specialize (Hhi _ Hin). lia. }
      destruct (adv_upper_spec (t + half) _ (Z.max 0 upper) upper HE) as (P & y & R & HP & Hv & HPle & Hy).
      assert (Hk : (k <= List.length times)%nat).
      { destruct (Nat.le_gt_cases k (List.length times)) as [|Hgt]; [assumption|].
        rewrite skipn_all2 in HE by lia. inversion HE. }
      assert (E2 : times = (firstn k times ++ P) ++ y :: R).
      { rewrite <- app_assoc, <- HP. symmetry; apply firstn_skipn. }
      assert (HlenP : List.length (firstn k times ++ P) = (k + List.length P)%nat).
      { rewrite app_length, firstn_length. lia. }
      exists (k + List.length P)%nat.
      assert (G1 : firstn (k + List.length P) times = firstn k times ++ P).
      { rewrite E2 at 1. rewrite <- HlenP. apply firstn_app_len. }
      assert (G2 : skipn (k + List.length P) times = y :: R).
      { rewrite E2 at 1. rewrite <- HlenP. apply skipn_app_len. }
      repeat split.
      + rewrite Hv. subst k. lia.
      + rewrite E2. rewrite app_length, HlenP. lia.
      + rewrite G1. intros x Hx. apply in_app_or in Hx as [Hx|Hx].
        * rewrite Forall_forall in Hhi; auto.
        * rewrite Forall_forall in HPle; auto.
      + pose proof (SSorted_skipn _ (k + List.length P)%nat _ Hs) as Hsk. rewrite G2 in *.
        intros x Hx. pose proof (SSorted_hd_le _ y R Hsk eq_refl x Hx). lia.
    - exists (List.length times). repeat split; [lia| |].
      + rewrite firstn_all. intros x Hx. pose proof (last_max _ oob Hs x Hx). lia.
      + rewrite skipn_all. intros x []. }
  destruct Hu as (b & Hb & Hblen & Hble & Hbgt).
  split; cbn [fst snd].
  - assert (Hslice : window_obs t half obs = firstn (b - l') (skipn l' obs)).
    { unfold window_obs.
      rewrite (slice_filter (fun o => t - half <=? fst o) (fun o => fst o <=? t + half) obs l' b).
      - reflexivity.
      - intros x Hx. apply (in_map fst) in Hx. rewrite <- firstn_map in Hx.
        specialize (HlowAll _ Hx). lia.
      - intros x Hx. apply (in_map fst) in Hx. rewrite <- skipn_map in Hx.
        specialize (HgeAll _ Hx). lia.
      - intros x Hx. apply (in_map fst) in Hx. rewrite <- firstn_map in Hx.
        specialize (Hble _ Hx). lia.
      - intros x Hx. apply (in_map fst) in Hx. rewrite <- skipn_map in Hx.
        specialize (Hbgt _ Hx). lia. }
    unfold window_mean. rewrite Hslice, <- firstn_map, <- skipn_map.
    rewrite Hb. destruct (Z.max (Z.of_nat b - 1 - Z.of_nat l' + 1) 0 =? 0) eqn:E.
    + replace (b - l')%nat with 0%nat by lia. reflexivity.
    + do 2 f_equal. lia.
  - repeat split; cbn [fst snd].
    + exact Hl'len.
    + lia.
    + apply Forall_forall; exact HlowAll.
    + apply Forall_forall. intros x Hx. apply Hble. rewrite Hb in Hx.
      destruct b as [|b]; [cbn in Hx; exact Hx|].
      replace (Z.to_nat (Z.max 0 (Z.of_nat (S b) - 1))) with b in Hx by lia.
      assert (Hsub : firstn b times = firstn b (firstn (S b) times)).
      { rewrite firstn_firstn. f_equal. lia. }
      rewrite Hsub in Hx. eapply firstn_in; eauto.
Qed.

Lemma rm_inv_mono times lo hi lo' hi' st :
  lo <= lo' -> hi <= hi' -> rm_inv times lo hi st -> rm_inv times lo' hi' st.
Proof.
  intros H1 H2 (A & B & C & D). repeat split; auto.
  - eapply Forall_impl; [|exact C]. cbn; intros; lia.
  - eapply Forall_impl; [|exact D]. cbn; intros; lia.
Qed.

Lemma rm_loop_spec oob (obs : list (Z * cell)) half targets : forall st,
  StronglySorted Z.le (map fst obs) -> StronglySorted Z.le targets ->
  (forall t r, targets = t :: r -> rm_inv (map fst obs) (t - half) (t + half) st) ->
  rm_loop oob (map fst obs) (map snd obs) half st targets =
  map (fun t => window_mean t half obs) targets.
Proof.
  induction targets as [|t r IH]; intros st Hs Ht Hinv; [reflexivity|].
  cbn [rm_loop map].
  destruct (rm_step oob (map fst obs) (map snd obs) half st t) as [st' out] eqn:E.
  inversion Ht as [|t' r' Hr Hf]; subst.
  destruct obs as [|o obs'].
  - f_equal.
    + pose proof (rm_step_empty oob half st t) as Hn. cbn [map] in E. rewrite E in Hn. exact Hn.
    + clear - r. revert st'. induction r as [|t r IH]; intros st'; [reflexivity|].
      cbn [rm_loop map]. destruct (rm_step oob [] [] half st' t) as [st2 out2] eqn:E. f_equal.
      * pose proof (rm_step_empty oob half st' t) as Hn. rewrite E in Hn. exact Hn.
      * apply IH.
  - pose proof (rm_step_spec oob (o :: obs') half st t ltac:(discriminate) Hs (Hinv _ _ eq_refl)) as [Ho Hi].
    rewrite E in Ho, Hi. cbn [fst snd] in Ho, Hi. rewrite Ho. f_equal.
    apply IH; [exact Hs|exact Hr|].
    intros t2 r2 ->. inversion Hf; subst.
    eapply rm_inv_mono; [| |exact Hi]; lia.
Qed.

Lemma resample_mean_correct oob (obs : list (Z * cell)) half targets :
  StronglySorted Z.le (map fst obs) -> StronglySorted Z.le targets ->
  resample_mean oob (map fst obs) (map snd obs) targets half =
  Ok (map (fun t => window_mean t half obs) targets).
Proof.
  intros Hs Ht. unfold resample_mean. rewrite !map_length, Nat.eqb_refl. f_equal.
  apply rm_loop_spec; auto. intros t r _. repeat split; cbn; try lia; constructor.
Qed.

(* ---------- temporal_collocation, method="mean" ---------- *)

Lemma series_times f i : map fst (series f i) = findex f.
Proof. unfold series, findex. rewrite map_map. reflexivity. Qed.
Lemma series_values f i : map snd (series f i) = col_values f i.
Proof. unfold series, col_values. rewrite map_map. reflexivity. Qed.

Lemma mask_select_true {A B} (l : list A) (m : list B) :
  List.length m = List.length l -> mask_select (map (fun _ => true) m) l = l.
Proof.
  revert l; induction m as [|b m IH]; intros [|a l] H; cbn in *; try lia; [reflexivity|].
  f_equal. apply IH; lia.
Qed.

Lemma map_nth_seq {A} (l : list A) d : map (fun k => nth k l d) (seq 0 (List.length l)) = l.
Proof.
  induction l as [|a l IH]; [reflexivity|]. cbn [List.length seq map nth]. f_equal.
  rewrite <- seq_shift, map_map. exact IH.
Qed.

Lemma map_seq_nth {A B} (F : A -> B) (l : list A) d :
  map F l = map (fun k => F (nth k l d)) (seq 0 (List.length l)).
Proof. rewrite <- (map_nth_seq l d) at 1. apply map_map. Qed.

Lemma rows_of_columns_map (index : list Z) (cols : list nat) (g : Z -> nat -> cell) :
  rows_of_columns index (map (fun i => map (fun t => g t i) index) cols) =
  map (fun t => (t, map (g t) cols)) index.
Proof.
  unfold rows_of_columns.
  rewrite (map_seq_nth (fun t => (t, map (g t) cols)) index 0).
  apply map_ext_in. intros k Hk. apply in_seq in Hk. cbn in Hk.
  f_equal. rewrite map_map. apply map_ext. intros i.
  rewrite nth_indep with (d' := g 0 i) by (rewrite map_length; lia).
  rewrite map_nth with (f := fun t => g t i). reflexivity.
Qed.

Lemma seqR_map_ok {A B} (f : A -> res B) (g : A -> B) l :
  (forall a, In a l -> f a = Ok (g a)) -> seqR (map f l) = Ok (map g l).
Proof.
  intros H. apply seqR_ok. rewrite map_map. apply map_ext_in. exact H.
Qed.

Lemma collocate_mean_correct store oob ref other w fl ui :
  chronological (findex other) -> chronological ref -> fcols other <> [] ->
  has_invalid fl = false \/ ui = true ->
  collocate_mean store oob ref other w fl ui =
  Ok (mkFrame (fcols other)
        (map (fun t => (t, map (fun i => store (window_mean t w (series other i)))
                               (seq 0 (List.length (fcols other))))) ref)).
Proof.
  intros Ho Hr Hc Hfl. unfold collocate_mean.
  replace (negb (has_invalid fl) || ui) with true
    by (destruct Hfl as [->| ->]; [reflexivity|symmetry; apply orb_true_r]).
  unfold ncols. destruct (Nat.eqb (List.length (fcols other)) 0) eqn:E0.
  { apply Nat.eqb_eq in E0. destruct (fcols other); [congruence|discriminate]. }
  rewrite map_length, Nat.eqb_refl.
  rewrite (seqR_map_ok _ (fun i => map (fun t => store (window_mean t w (series other i))) ref)).
  - cbn [mapR]. rewrite rows_of_columns_map. reflexivity.
  - intros i _. rewrite mask_select_true
      by (unfold findex, col_values; rewrite !map_length; reflexivity).
    rewrite <- (series_times other i), <- series_values.
    rewrite resample_mean_correct.
    + cbn [mapR]. rewrite map_map. reflexivity.
    + rewrite series_times. exact Ho.
    + exact Hr.
Qed.

Lemma tc_mean_correct store oob ref other w :
  chronological (findex other) -> chronological ref -> fcols other <> [] ->
  temporal_collocation store oob ref other w mean_opts =
  Ok (mkFrame (fcols other)
        (map (fun t => (t, map (fun i => store (window_mean t w (series other i)))
                               (seq 0 (List.length (fcols other))))) ref)).
Proof.
  intros Ho Hr Hc. unfold temporal_collocation, mean_opts. cbn.
  rewrite collocate_mean_correct; auto.
Qed.

(* flags with method="mean": excluded rows always end in an exception *)
Lemma tc_mean_flag_error store oob ref other w o fl :
  o_method o = MMean -> o_flag o = FlagArr fl -> o_use_invalid o = false ->
  existsb (fun b => b) fl = true ->
  exists e, temporal_collocation store oob ref other w o = Err e.
Proof.
  intros Hm Hf Hu He. unfold temporal_collocation. rewrite Hf, Hm. cbn [eval_flag].
  destruct (Nat.eqb (List.length fl) (List.length ref)); cbn [bindR]; [|eexists; reflexivity].
  rewrite Hu. set (other' := if o_dropduplicates o then _ else other).
  set (ref' := if o_dropduplicates o then _ else ref).
  unfold collocate_mean. cbn [has_invalid]. rewrite He. cbn [negb orb].
  destruct (Nat.eqb (ncols other') 0) eqn:E0; [eexists; reflexivity|].
  rewrite map_length.
  destruct (Nat.eqb (List.length fl) (List.length (findex other'))) eqn:El; [|eexists; reflexivity].
  assert (Hlt : forall (m : list bool) (l : list cell), existsb (fun b => b) m = true ->
            List.length m = List.length l ->
            (List.length (mask_select (map negb m) l) < List.length l)%nat).
  { clear. assert (Hle : forall (m : list bool) (l : list cell),
       (List.length (mask_select m l) <= List.length l)%nat).
    { induction m as [|b m IH]; intros [|c l]; cbn; try lia. specialize (IH l). destruct b; cbn; lia. }
    induction m as [|b m IH]; intros [|c l] H1 H2; cbn in *; try discriminate.
    destruct b; cbn; [specialize (Hle (map negb m) l); lia|]. specialize (IH l H1). lia. }
  apply Nat.eqb_eq in El. apply Nat.eqb_neq in E0.
  destruct (ncols other') as [|n]; [congruence|]. cbn [seq map seqR].
  unfold resample_mean at 1.
  assert (Hl : List.length (col_values other' 0) = List.length (findex other'))
    by (unfold col_values, findex; rewrite !map_length; reflexivity).
  specialize (Hlt fl (col_values other' 0%nat) He ltac:(lia)).
  destruct (Nat.eqb (List.length (findex other')) _) eqn:Eq; [apply Nat.eqb_eq in Eq; lia|].
  eexists; reflexivity.
Qed.

(* ---------- nearest neighbour ---------- *)

Lemma countb_prefix (p : Z -> bool) l k :
  (forall x, In x (firstn k l) -> p x = true) -> (forall x, In x (skipn k l) -> p x = false) ->
  (k <= List.length l)%nat -> countb p l = k.
Proof.
  intros H1 H2 Hk. unfold countb. rewrite <- (firstn_skipn k l), filter_app.
  rewrite filter_all by exact H1. rewrite filter_none by exact H2.
  rewrite app_nil_r, firstn_length. lia.
Qed.

(* a predicate that is closed towards the front of a sorted list *)
Lemma sorted_split (R : Z -> Z -> Prop) (p : Z -> bool) l :
  StronglySorted R l -> (forall x y, R x y -> p y = true -> p x = true) ->
  forall i, (i < List.length l)%nat -> ((i < countb p l)%nat <-> p (nth i l 0) = true).
Proof.
  intros Hs Hp. induction Hs as [|x l Hs IH Hf]; intros i Hi; [cbn in Hi; lia|].
  unfold countb in *. cbn [filter]. destruct (p x) eqn:E.
  - cbn [List.length]. destruct i as [|i]; cbn [nth]; [rewrite E; split; [auto|lia]|].
    cbn in Hi. rewrite <- IH by lia. lia.
  - assert (Hnone : filter p l = []).
    { apply filter_none. intros y Hy. rewrite Forall_forall in Hf. specialize (Hf y Hy).
      destruct (p y) eqn:Ey; [|reflexivity]. specialize (Hp _ _ Hf Ey). congruence. }
    rewrite Hnone. cbn [List.length]. split; [lia|].
    destruct i as [|i]; cbn [nth]; [congruence|].
    cbn in Hi. intros H. exfalso.
    assert (Hin : In (nth i l 0) l) by (apply nth_In; lia).
    rewrite Forall_forall in Hf. specialize (Hf _ Hin). specialize (Hp _ _ Hf H). congruence.
Qed.

Lemma countb_le {A} (p : A -> bool) l : (countb p l <= List.length l)%nat.
Proof. unfold countb. induction l as [|x l IH]; cbn; [lia|]. destruct (p x); cbn; lia. Qed.

Lemma last_nth (l : list Z) d : l <> [] -> last l d = nth (List.length l - 1) l 0.
Proof.
  induction l as [|x l IH]; intros H; [congruence|]. destruct l as [|y l]; [reflexivity|].
  change (last (x :: y :: l) d) with (last (y :: l) d). rewrite IH by discriminate.
  cbn [List.length]. replace (S (S (List.length l)) - 1)%nat with (S (List.length (y :: l) - 1)) by (cbn; lia).
  reflexivity.
Qed.

Definition best_pos (times : list Z) (tol t : Z) (i : Z) : Prop :=
  (i = -1 /\ forall s, In s times -> tol < Z.abs (s - t)) \/
  (0 <= i < Z.of_nat (List.length times) /\
   let s := nth (Z.to_nat i) times 0 in
   Z.abs (s - t) <= tol /\
   forall s', In s' times -> Z.abs (s - t) < Z.abs (s' - t) \/
                             (Z.abs (s - t) = Z.abs (s' - t) /\ s' <= s)).

Lemma nth_sorted_lt (R : Z -> Z -> Prop) l : StronglySorted R l ->
  forall i j, (i < j < List.length l)%nat -> R (nth i l 0) (nth j l 0).
Proof.
  induction 1 as [|x l Hs IH Hf]; intros i j Hij; [cbn in Hij; lia|].
  destruct i as [|i], j as [|j]; cbn [nth]; cbn in Hij; try lia.
  - rewrite Forall_forall in Hf. apply Hf, nth_In; lia.
  - apply IH; lia.
Qed.

Lemma nearest_pos_inc times tol t :
  StronglySorted Z.lt times -> best_pos times tol t (nearest_pos true times tol t).
Proof.
  intros Hs. unfold nearest_pos. destruct times as [|x0 tl] eqn:Et.
  { left. split; [reflexivity|intros s []]. }
  rewrite <- Et in *. assert (Hne : times <> []) by (rewrite Et; discriminate).
  assert (Hlen : (0 < List.length times)%nat) by (rewrite Et; cbn; lia).
  clear x0 tl Et.
  unfold pad_pos, backfill_pos. cbn [andb].
  set (a := countb (fun s => s <=? t) times).
  set (b := countb (fun s => s <? t) times).
  assert (Ha : (a <= List.length times)%nat) by apply countb_le.
  assert (Hb : (b <= List.length times)%nat) by apply countb_le.
  pose proof (sorted_split Z.lt (fun s => s <=? t) times Hs) as Sa. fold a in Sa.
  pose proof (sorted_split Z.lt (fun s => s <? t) times Hs) as Sb. fold b in Sb.
  specialize (Sa ltac:(intros; lia)). specialize (Sb ltac:(intros; lia)).
  assert (Hmem : forall s, In s times -> exists i, (i < List.length times)%nat /\ nth i times 0 = s)
    by (intros s Hin; apply In_nth; exact Hin).
  pose proof (nth_sorted_lt _ _ Hs) as Hn.
  assert (Hlast : last times 0 = nth (List.length times - 1) times 0) by (apply last_nth; exact Hne).
  assert (Hba : (b <= a)%nat).
  { destruct (Nat.le_gt_cases b a) as [|Hgt]; [assumption|].
    pose proof (proj1 (Sb (b - 1)%nat ltac:(lia)) ltac:(lia)).
    pose proof (proj2 (Sa (b - 1)%nat ltac:(lia)) ltac:(lia)). lia. }
  assert (HL : (0 < a)%nat -> forall s, In s times -> s <= t -> s <= nth (a - 1) times 0).
  { intros Ha0 s Hin Hst. destruct (Hmem s Hin) as (i & Hi & <-).
    assert (i < a)%nat by (apply Sa; lia).
    destruct (Nat.eq_dec i (a - 1)) as [->|Hne2]; [lia|]. specialize (Hn i (a-1)%nat ltac:(lia)). lia. }
  assert (HL2 : (0 < a)%nat -> nth (a - 1) times 0 <= t).
  { intros Ha0. pose proof (proj1 (Sa (a - 1)%nat ltac:(lia)) ltac:(lia)). lia. }
  assert (HL0 : a = 0%nat -> forall s, In s times -> t < s).
  { intros Ha0 s Hin. destruct (Hmem s Hin) as (i & Hi & <-).
    destruct (Z.lt_ge_cases t (nth i times 0)) as [|Hge]; [assumption|].
    assert (i < a)%nat by (apply Sa; lia). lia. }
  assert (HR : (b < List.length times)%nat -> forall s, In s times -> t <= s -> nth b times 0 <= s).
  { intros Hb0 s Hin Hst. destruct (Hmem s Hin) as (i & Hi & <-).
    assert (~ (i < b)%nat) by (rewrite Sb by lia; lia).
    destruct (Nat.eq_dec i b) as [->|Hne2]; [lia|]. specialize (Hn b i ltac:(lia)). lia. }
  assert (HR2 : (b < List.length times)%nat -> t <= nth b times 0).
  { intros Hb0. destruct (Z.lt_ge_cases (nth b times 0) t) as [Hlt|]; [|assumption].
    assert (b < b)%nat by (apply Sb; lia). lia. }
  assert (HR0 : b = List.length times -> forall s, In s times -> s < t).
  { intros Hb0 s Hin. destruct (Hmem s Hin) as (i & Hi & <-).
    pose proof (proj1 (Sb i Hi) ltac:(lia)). lia. }
  assert (Hlast_in : In (last times 0) times) by (apply last_in; exact Hne).
  destruct (Nat.eqb b (List.length times)) eqn:Eb.
  - (* no right neighbour *)
    apply Nat.eqb_eq in Eb. rewrite orb_true_r.
    assert (a = List.length times) by lia.
    unfold at_pos. destruct (Z.of_nat a - 1 =? -1) eqn:E1; [lia|].
    replace (Z.to_nat (Z.of_nat a - 1)) with (a - 1)%nat by lia.
    destruct (Z.abs (nth (a - 1) times 0 - t) <=? tol) eqn:E2.
    + right. split; [lia|]. replace (Z.to_nat (Z.of_nat a - 1)) with (a - 1)%nat by lia.
      split; [lia|]. intros s' Hin. pose proof (HR0 Eb s' Hin). pose proof (HL ltac:(lia) s' Hin).
      pose proof (HL2 ltac:(lia)). lia.
    + left. split; [reflexivity|]. intros s' Hin. pose proof (HR0 Eb s' Hin). pose proof (HL ltac:(lia) s' Hin).
      pose proof (HL2 ltac:(lia)). lia.
  - apply Nat.eqb_neq in Eb.
    destruct (Z.of_nat b =? -1) eqn:E0; [lia|]. rewrite orb_false_r.
    assert (Hatb : at_pos times (Z.of_nat b) = nth b times 0).
    { unfold at_pos. rewrite E0. f_equal. lia. }
    rewrite Hatb.
    specialize (HR ltac:(lia)). specialize (HR2 ltac:(lia)).
    destruct (Nat.eq_dec a 0) as [Ha0|Ha0].
    + (* no left neighbour *)
      specialize (HL0 Ha0).
      assert (Hat : at_pos times (Z.of_nat a - 1) = last times 0).
      { unfold at_pos. rewrite Ha0. reflexivity. }
      rewrite Hat. pose proof (HR _ Hlast_in ltac:(specialize (HL0 _ Hlast_in); lia)) as Hl2.
      destruct (Z.abs (last times 0 - t) <? Z.abs (nth b times 0 - t)) eqn:Ec; [lia|].
      rewrite Hatb.
      destruct (Z.abs (nth b times 0 - t) <=? tol) eqn:E2.
      * right. split; [lia|]. rewrite Nat2Z.id. split; [lia|].
        intros s' Hin. specialize (HL0 _ Hin). specialize (HR _ Hin). lia.
      * left. split; [reflexivity|]. intros s' Hin. specialize (HL0 _ Hin). specialize (HR _ Hin). lia.
    + specialize (HL ltac:(lia)). specialize (HL2 ltac:(lia)).
      assert (Hat : at_pos times (Z.of_nat a - 1) = nth (a - 1) times 0).
      { unfold at_pos. destruct (Z.of_nat a - 1 =? -1) eqn:E1; [lia|]. f_equal. lia. }
      rewrite Hat.
      destruct (Z.abs (nth (a - 1) times 0 - t) <? Z.abs (nth b times 0 - t)) eqn:Ec.
      * rewrite Hat. destruct (Z.abs (nth (a - 1) times 0 - t) <=? tol) eqn:E2.
        -- right. split; [lia|]. replace (Z.to_nat (Z.of_nat a - 1)) with (a - 1)%nat by lia.
           split; [lia|]. intros s' Hin. specialize (HL _ Hin). specialize (HR _ Hin). lia.
        -- left. split; [reflexivity|]. intros s' Hin. specialize (HL _ Hin). specialize (HR _ Hin). lia.
      * rewrite Hatb. destruct (Z.abs (nth b times 0 - t) <=? tol) eqn:E2.
        -- right. split; [lia|]. rewrite Nat2Z.id. split; [lia|].
           intros s' Hin. specialize (HL _ Hin). specialize (HR _ Hin). lia.
        -- left. split; [reflexivity|]. intros s' Hin. specialize (HL _ Hin). specialize (HR _ Hin). lia.
Qed.

Lemma nearest_pos_dec times tol t :
  StronglySorted Z.gt times -> (2 <= List.length times)%nat ->
  best_pos times tol t (nearest_pos false times tol t).
Proof.
  intros Hs Hlen2. unfold nearest_pos. destruct times as [|x0 tl] eqn:Et; [cbn in Hlen2; lia|].
  rewrite <- Et in *. assert (Hne : times <> []) by (rewrite Et; discriminate).
  clear x0 tl Et.
  unfold pad_pos, backfill_pos.
  set (a := countb (fun s => t <=? s) times).
  set (b := countb (fun s => t <? s) times).
  assert (Ha : (a <= List.length times)%nat) by apply countb_le.
  assert (Hb : (b <= List.length times)%nat) by apply countb_le.
  pose proof (sorted_split Z.gt (fun s => t <=? s) times Hs) as Sa. fold a in Sa.
  pose proof (sorted_split Z.gt (fun s => t <? s) times Hs) as Sb. fold b in Sb.
  specialize (Sa ltac:(intros; lia)). specialize (Sb ltac:(intros; lia)).
  assert (Hmem : forall s, In s times -> exists i, (i < List.length times)%nat /\ nth i times 0 = s)
    by (intros s Hin; apply In_nth; exact Hin).
  pose proof (nth_sorted_lt _ _ Hs) as Hn.
  assert (Hlast : last times 0 = nth (List.length times - 1) times 0) by (apply last_nth; exact Hne).
  assert (Hba : (b <= a)%nat).
  { destruct (Nat.le_gt_cases b a) as [|Hgt]; [assumption|].
    pose proof (proj1 (Sb (b - 1)%nat ltac:(lia)) ltac:(lia)).
    pose proof (proj2 (Sa (b - 1)%nat ltac:(lia)) ltac:(lia)). lia. }
  assert (HL : (0 < a)%nat -> forall s, In s times -> t <= s -> nth (a - 1) times 0 <= s).
  { intros Ha0 s Hin Hst. destruct (Hmem s Hin) as (i & Hi & <-).
    assert (i < a)%nat by (apply Sa; lia).
    destruct (Nat.eq_dec i (a - 1)) as [->|Hne2]; [lia|]. specialize (Hn i (a-1)%nat ltac:(lia)). lia. }
  assert (HL2 : (0 < a)%nat -> t <= nth (a - 1) times 0).
  { intros Ha0. pose proof (proj1 (Sa (a - 1)%nat ltac:(lia)) ltac:(lia)). lia. }
  assert (HL0 : a = 0%nat -> forall s, In s times -> s < t).
  { intros Ha0 s Hin. destruct (Hmem s Hin) as (i & Hi & <-).
    destruct (Z.lt_ge_cases (nth i times 0) t) as [|Hge]; [assumption|].
    assert (i < a)%nat by (apply Sa; lia). lia. }
  assert (HR : (b < List.length times)%nat -> forall s, In s times -> s <= t -> s <= nth b times 0).
  { intros Hb0 s Hin Hst. destruct (Hmem s Hin) as (i & Hi & <-).
    assert (~ (i < b)%nat) by (rewrite Sb by lia; lia).
    destruct (Nat.eq_dec i b) as [->|Hne2]; [lia|]. specialize (Hn b i ltac:(lia)). lia. }
  assert (HR2 : (b < List.length times)%nat -> nth b times 0 <= t).
  { intros Hb0. destruct (Z.lt_ge_cases t (nth b times 0)) as [Hlt|]; [|assumption].
    assert (b < b)%nat by (apply Sb; lia). lia. }
  assert (HR0 : b = List.length times -> forall s, In s times -> t < s).
  { intros Hb0 s Hin. destruct (Hmem s Hin) as (i & Hi & <-).
    pose proof (proj1 (Sb i Hi) ltac:(lia)). lia. }
  assert (Hlast_in : In (last times 0) times) by (apply last_in; exact Hne).
  destruct (Nat.eqb b (List.length times)) eqn:Eb.
  - apply Nat.eqb_eq in Eb. rewrite orb_true_r.
    assert (a = List.length times) by lia.
    unfold at_pos. destruct (Z.of_nat a - 1 =? -1) eqn:E1; [lia|].
    replace (Z.to_nat (Z.of_nat a - 1)) with (a - 1)%nat by lia.
    destruct (Z.abs (nth (a - 1) times 0 - t) <=? tol) eqn:E2.
    + right. split; [lia|]. replace (Z.to_nat (Z.of_nat a - 1)) with (a - 1)%nat by lia.
      split; [lia|]. intros s' Hin. pose proof (HR0 Eb s' Hin). pose proof (HL ltac:(lia) s' Hin).
      pose proof (HL2 ltac:(lia)). lia.
    + left. split; [reflexivity|]. intros s' Hin. pose proof (HR0 Eb s' Hin). pose proof (HL ltac:(lia) s' Hin).
      pose proof (HL2 ltac:(lia)). lia.
  - apply Nat.eqb_neq in Eb.
    destruct (Z.of_nat b =? -1) eqn:E0; [lia|]. rewrite orb_false_r.
    assert (Hatb : at_pos times (Z.of_nat b) = nth b times 0).
    { unfold at_pos. rewrite E0. f_equal. lia. }
    rewrite Hatb.
    specialize (HR ltac:(lia)). specialize (HR2 ltac:(lia)).
    destruct (Nat.eq_dec a 0) as [Ha0|Ha0].
    + specialize (HL0 Ha0).
      assert (Hat : at_pos times (Z.of_nat a - 1) = last times 0).
      { unfold at_pos. rewrite Ha0. reflexivity. }
      assert (Hb00 : b = 0%nat) by lia.
      rewrite Hat.
      assert (Hl2 : last times 0 < nth b times 0).
      { rewrite Hlast, Hb00. specialize (Hn 0%nat (List.length times - 1)%nat ltac:(lia)). lia. }
      destruct (Z.abs (last times 0 - t) <=? Z.abs (nth b times 0 - t)) eqn:Ec; [lia|].
      rewrite Hatb.
      destruct (Z.abs (nth b times 0 - t) <=? tol) eqn:E2.
      * right. split; [lia|]. rewrite Nat2Z.id. split; [lia|].
        intros s' Hin. specialize (HL0 _ Hin). specialize (HR _ Hin). lia.
      * left. split; [reflexivity|]. intros s' Hin. specialize (HL0 _ Hin). specialize (HR _ Hin). lia.
    + specialize (HL ltac:(lia)). specialize (HL2 ltac:(lia)).
      assert (Hat : at_pos times (Z.of_nat a - 1) = nth (a - 1) times 0).
      { unfold at_pos. destruct (Z.of_nat a - 1 =? -1) eqn:E1; [lia|]. f_equal. lia. }
      rewrite Hat.
      destruct (Z.abs (nth (a - 1) times 0 - t) <=? Z.abs (nth b times 0 - t)) eqn:Ec.
      * rewrite Hat. destruct (Z.abs (nth (a - 1) times 0 - t) <=? tol) eqn:E2.
        -- right. split; [lia|]. replace (Z.to_nat (Z.of_nat a - 1)) with (a - 1)%nat by lia.
           split; [lia|]. intros s' Hin. specialize (HL _ Hin). specialize (HR _ Hin). lia.
        -- left. split; [reflexivity|]. intros s' Hin. specialize (HL _ Hin). specialize (HR _ Hin). lia.
      * rewrite Hatb. destruct (Z.abs (nth b times 0 - t) <=? tol) eqn:E2.
        -- right. split; [lia|]. rewrite Nat2Z.id. split; [lia|].
           intros s' Hin. specialize (HL _ Hin). specialize (HR _ Hin). lia.
        -- left. split; [reflexivity|]. intros s' Hin. specialize (HL _ Hin). specialize (HR _ Hin). lia.
Qed.

Lemma increasing_spec l : increasing l = true <-> StronglySorted Z.le l.
Proof. apply sortedb_spec. Qed.

Lemma SSorted_le_lt l : NoDup l -> StronglySorted Z.le l -> StronglySorted Z.lt l.
Proof.
  intros Hn Hs. induction Hs as [|x l Hs IH Hf]; [constructor|].
  inversion Hn as [|x' l' Hx Hn']; subst. constructor; [auto|].
  rewrite Forall_forall in *. intros y Hy. specialize (Hf y Hy).
  assert (x <> y) by (intros ->; contradiction). lia.
Qed.

Lemma SSorted_lt_le l : StronglySorted Z.lt l -> StronglySorted Z.le l.
Proof.
  induction 1 as [|x l Hs IH Hf]; constructor; [exact IH|].
  eapply Forall_impl; [|exact Hf]. cbn; intros; lia.
Qed.

Lemma decreasing_spec l : decreasing l = true <-> StronglySorted Z.ge l.
Proof.
  split.
  - induction l as [|x l IH]; intros H; [constructor|].
    cbn in H. destruct l as [|y l]; [repeat constructor|].
    apply andb_true_iff in H as [H1 H2]. specialize (IH H2).
    constructor; [exact IH|]. inversion IH; subst.
    constructor; [lia|]. eapply Forall_impl; [|eassumption]. cbn; intros; lia.
  - induction 1 as [|x l Hs IH Hf]; [reflexivity|]. cbn. destruct l as [|y l]; [reflexivity|].
    inversion Hf; subst. rewrite IH. apply andb_true_iff; split; [lia|reflexivity].
Qed.

Lemma SSorted_ge_gt l : NoDup l -> StronglySorted Z.ge l -> StronglySorted Z.gt l.
Proof.
  intros Hn Hs. induction Hs as [|x l Hs IH Hf]; [constructor|].
  inversion Hn as [|x' l' Hx Hn']; subst. constructor; [auto|].
  rewrite Forall_forall in *. intros y Hy. specialize (Hf y Hy).
  assert (x <> y) by (intros ->; contradiction). lia.
Qed.

Lemma SSorted_gt_ge l : StronglySorted Z.gt l -> StronglySorted Z.ge l.
Proof.
  induction 1 as [|x l Hs IH Hf]; constructor; [exact IH|].
  eapply Forall_impl; [|exact Hf]. cbn; intros; lia.
Qed.

Lemma SSorted_lt_nodup l : StronglySorted Z.lt l -> NoDup l.
Proof.
  induction 1 as [|x l Hs IH Hf]; constructor; [|exact IH].
  intros Hin. rewrite Forall_forall in Hf. specialize (Hf _ Hin). lia.
Qed.
Lemma SSorted_gt_nodup l : StronglySorted Z.gt l -> NoDup l.
Proof.
  induction 1 as [|x l Hs IH Hf]; constructor; [|exact IH].
  intros Hin. rewrite Forall_forall in Hf. specialize (Hf _ Hin). lia.
Qed.

Lemma monotone_bool l : NoDup l ->
  (increasing l || decreasing l = true <-> monotone_times l).
Proof.
  intros Hn. rewrite orb_true_iff, increasing_spec, decreasing_spec. unfold monotone_times.
  split; intros [H|H].
  - left; apply SSorted_le_lt; auto.
  - right; apply SSorted_ge_gt; auto.
  - left; apply SSorted_lt_le; auto.
  - right; apply SSorted_gt_ge; auto.
Qed.

Lemma nearest_pos_best times tol t : monotone_times times ->
  best_pos times tol t (nearest_pos (increasing times) times tol t).
Proof.
  intros Hm.
  assert (Hn : NoDup times) by (destruct Hm; [apply SSorted_lt_nodup|apply SSorted_gt_nodup]; assumption).
  destruct (increasing times) eqn:E.
  - apply nearest_pos_inc. apply SSorted_le_lt; [exact Hn|]. apply increasing_spec; exact E.
  - destruct Hm as [Hm|Hm].
    + apply SSorted_lt_le, increasing_spec in Hm. congruence.
    + apply nearest_pos_dec; [exact Hm|].
      destruct times as [|x [|y l]]; cbn in *; try discriminate; lia.
Qed.

Lemma take_row_nearest f tol t : monotone_times (findex f) ->
  nearest_row (frows f) (ncols f) t tol
    (take_row (ncols f) (frows f) (nearest_pos (increasing (findex f)) (findex f) tol t)).
Proof.
  intros Hm.
  assert (Hn : NoDup (findex f)) by (destruct Hm; [apply SSorted_lt_nodup|apply SSorted_gt_nodup]; assumption).
  pose proof (nearest_pos_best (findex f) tol t Hm) as [[Hi Hall]|[Hi Hbest]].
  - right. rewrite Hi. unfold take_row. cbn. split; [reflexivity|].
    intros s' r' Hin. apply Hall. apply (in_map fst) in Hin. exact Hin.
  - left. set (i := nearest_pos _ _ _ _) in *. cbv zeta in Hbest.
    unfold take_row. destruct (i =? -1) eqn:E; [lia|].
    assert (Hlen : (Z.to_nat i < List.length (frows f))%nat).
    { unfold findex in Hi. rewrite map_length in Hi. lia. }
    destruct (nth_error (frows f) (Z.to_nat i)) as [[s r]|] eqn:En.
    2:{ apply nth_error_None in En. lia. }
    assert (Hs : nth (Z.to_nat i) (findex f) 0 = s).
    { unfold findex. apply nth_error_nth with (d := (0, @nil cell)) in En.
      change 0 with (fst (0, @nil cell)). rewrite map_nth, En. reflexivity. }
    rewrite Hs in Hbest. exists s. repeat split; try tauto.
    + apply nth_error_In in En. apply (find_nodup fst (frows f) (s, r) Hn En).
    + intros s' r' Hin. apply Hbest. apply (in_map fst) in Hin. exact Hin.
Qed.

Lemma reindex_nearest_rows f targets tol : monotone_times (findex f) ->
  exists g, reindex_nearest f targets tol =
    Ok (mkFrame (fcols f) (map (fun t => (t, g t)) targets)) /\
    (forall t, nearest_row (frows f) (List.length (fcols f)) t tol (g t)).
Proof.
  intros Hm.
  exists (fun t => take_row (ncols f) (frows f) (nearest_pos (increasing (findex f)) (findex f) tol t)).
  split; [|intros t; apply take_row_nearest; exact Hm].
  unfold reindex_nearest. destruct targets as [|t0 r]; [reflexivity|].
  assert (Hn : NoDup (findex f)) by (destruct Hm; [apply SSorted_lt_nodup|apply SSorted_gt_nodup]; assumption).
  rewrite (proj2 (monotone_bool _ Hn) Hm). reflexivity.
Qed.

Lemma reindex_nearest_err f targets tol : NoDup (findex f) ->
  ~ monotone_times (findex f) -> targets <> [] -> reindex_nearest f targets tol = Err EValue.
Proof.
  intros Hn Hm Ht. unfold reindex_nearest. destruct targets as [|t0 r]; [congruence|].
  destruct (increasing (findex f) || decreasing (findex f)) eqn:E; [|reflexivity].
  exfalso; apply Hm, monotone_bool; assumption.
Qed.

Definition dedup_frame (f : frame) : frame := mkFrame (fcols f) (dedup_first fst (frows f)).

Lemma findex_dedup f : NoDup (findex (dedup_frame f)).
Proof. apply dedup_nodup. Qed.

Lemma nearest_row_dedup obs n t w r :
  nearest_row (dedup_first fst obs) n t w r -> nearest_row obs n t w r.
Proof.
  intros [(s & Hf & Hw & Hb)|[Hr Hb]].
  - left. exists s. rewrite dedup_find in Hf. repeat split; try assumption.
    intros s' r' Hin. apply (in_map fst) in Hin. apply (dedup_keys fst) in Hin.
    apply in_map_iff in Hin as ([s2 r2] & Hs2 & Hin). cbn in Hs2; subst s2. eapply Hb; eauto.
  - right. split; [exact Hr|]. intros s' r' Hin. apply (in_map fst) in Hin. apply (dedup_keys fst) in Hin.
    apply in_map_iff in Hin as ([s2 r2] & Hs2 & Hin). cbn in Hs2; subst s2. eapply Hb; eauto.
Qed.

Lemma tc_nearest_correct store oob ref other w :
  monotone_times (findex (dedup_frame other)) ->
  exists g, temporal_collocation store oob ref other w nearest_opts =
      Ok (mkFrame (fcols other) (map (fun t => (t, g t)) (dedup_first (fun t => t) ref))) /\
    (forall t, nearest_row (frows other) (List.length (fcols other)) t w (g t)).
Proof.
  intros Hm. unfold temporal_collocation, nearest_opts. cbn [o_flag eval_flag bindR o_method o_dropna
    o_return_index o_return_distance o_use_invalid o_dropduplicates].
  unfold collocate_nearest. cbn [add_index_cols orb].
  fold (dedup_frame other).
  destruct (reindex_nearest_rows (dedup_frame other) (dedup_first (fun t => t) ref) w Hm) as (g & Hg & Hn).
  rewrite Hg. cbn. exists g. split; [reflexivity|].
  intros t. apply nearest_row_dedup. apply Hn.
Qed.

Lemma tc_nearest_error store oob ref other w :
  ~ monotone_times (findex (dedup_frame other)) -> ref <> [] ->
  temporal_collocation store oob ref other w nearest_opts = Err EValue.
Proof.
  intros Hm Hr. unfold temporal_collocation, nearest_opts. cbn [o_flag eval_flag bindR o_method o_dropna
    o_return_index o_return_distance o_use_invalid o_dropduplicates].
  unfold collocate_nearest. cbn [add_index_cols orb].
  fold (dedup_frame other). rewrite reindex_nearest_err; [reflexivity| |exact Hm|].
  - apply findex_dedup.
  - destruct ref as [|t r]; [congruence|]. discriminate.
Qed.

Lemma dedup_sorted (obs : list (Z * row)) :
  StronglySorted Z.le (map fst obs) -> StronglySorted Z.lt (map fst (dedup_first fst obs)).
Proof.
  intros Hs. apply SSorted_le_lt; [apply dedup_nodup|].
  unfold dedup_first. generalize (@nil Z). induction obs as [|o obs IH]; intros seen; cbn; [constructor|].
  inversion Hs as [|x l Hs' Hf]; subst.
  destruct (existsb (Z.eqb (fst o)) seen); [auto|]. cbn. constructor; [auto|].
  rewrite Forall_forall in *. intros y Hy. apply Hf. apply in_map_iff in Hy as (a & <- & Ha).
  apply in_map. apply dedup_aux_in in Ha. tauto.
Qed.

Lemma chronological_monotone other : chronological (findex other) ->
  monotone_times (findex (dedup_frame other)).
Proof. intros H. left. apply dedup_sorted. exact H. Qed.

(* ---------- flags ---------- *)

Lemma mask_select_nodup {A} (key : A -> Z) m l : NoDup (map key l) -> NoDup (map key (mask_select m l)).
Proof.
  revert l; induction m as [|b m IH]; intros [|a l] H; cbn; try constructor.
  inversion H; subst. destruct b; cbn; [|auto]. constructor; [|auto].
  intros Hin. apply in_map_iff in Hin as (x & Hx & Hin). apply mask_select_in in Hin.
  apply H2. rewrite <- Hx. apply in_map; exact Hin.
Qed.

Lemma frame_eta f : mkFrame (fcols f) (frows f) = f.
Proof. destruct f; reflexivity. Qed.

Lemma dedup_frame_id f : NoDup (findex f) -> dedup_frame f = f.
Proof. intros H. unfold dedup_frame. rewrite dedup_id by exact H. apply frame_eta. Qed.

Lemma existsb_negb_all (l : list bool) :
  existsb (fun b => b) l = false -> map negb l = map (fun _ => true) l.
Proof.
  intros H. apply map_ext_in. intros b Hb. destruct b; [|reflexivity].
  assert (existsb (fun b => b) l = true); [|congruence]. apply existsb_exists. exists true; auto.
Qed.

Lemma tc_nearest_unfold store oob ref other w : NoDup (findex other) ->
  temporal_collocation store oob ref other w nearest_opts =
  reindex_nearest other (dedup_first (fun t => t) ref) w.
Proof.
  intros Hn. unfold temporal_collocation, nearest_opts. cbn [o_flag eval_flag bindR o_method o_dropna
    o_return_index o_return_distance o_use_invalid o_dropduplicates].
  unfold collocate_nearest. cbn [add_index_cols orb].
  fold (dedup_frame other). rewrite dedup_frame_id by exact Hn.
  destruct (reindex_nearest other _ w); reflexivity.
Qed.

Lemma keep_rows_nodup m f : NoDup (findex f) -> NoDup (findex (keep_rows m f)).
Proof. intros H. apply mask_select_nodup. exact H. Qed.

Lemma keep_all f (m : list bool) : List.length m = List.length (frows f) ->
  keep_rows (map (fun _ => true) m) f = f.
Proof. intros H. unfold keep_rows. rewrite mask_select_true by exact H. apply frame_eta. Qed.

Lemma tc_flag_exclude store oob ref other w fl :
  NoDup (findex other) -> List.length fl = List.length ref -> List.length fl = List.length (frows other) ->
  temporal_collocation store oob ref other w (with_flag nearest_opts fl false) =
  temporal_collocation store oob ref (keep_rows (map negb fl) other) w nearest_opts.
Proof.
  intros Hn Hl Hl2. rewrite tc_nearest_unfold by (apply keep_rows_nodup; exact Hn).
  unfold temporal_collocation, with_flag, nearest_opts. cbn [o_flag eval_flag o_method o_dropna
    o_return_index o_return_distance o_use_invalid o_dropduplicates].
  rewrite Hl, Nat.eqb_refl. cbn [bindR]. unfold collocate_nearest. cbn [add_index_cols orb].
  fold (dedup_frame other). rewrite dedup_frame_id by exact Hn.
  cbn [has_invalid]. destruct (existsb (fun b => b) fl) eqn:E.
  - unfold bool_index. rewrite map_length, Hl2, Nat.eqb_refl. cbn [bindR].
    fold (keep_rows (map negb fl) other).
    destruct (reindex_nearest (keep_rows (map negb fl) other) _ w); reflexivity.
  - rewrite existsb_negb_all by exact E. rewrite keep_all by exact Hl2.
    destruct (reindex_nearest other _ w); reflexivity.
Qed.

Lemma reindex_nearest_widths f targets w g : wf_frame f -> reindex_nearest f targets w = Ok g -> wf_frame g.
Proof.
  intros Hwf. unfold reindex_nearest. destruct targets as [|t0 tr]; [intros [= <-] t r []|].
  destruct (increasing _ || decreasing _); [|discriminate].
  remember (t0 :: tr) as tg eqn:Htg. clear Htg. intros [= <-] t r Hin.
  cbn [frows fcols] in *. apply in_map_iff in Hin as (t' & [= -> <-] & _).
  unfold take_row. destruct (_ =? -1); [apply repeat_length|].
  destruct (nth_error (frows f) _) as [[s r2]|] eqn:En; [|apply repeat_length].
  apply nth_error_In in En. eapply Hwf; eauto.
Qed.

Lemma combine_none (r : row) n : List.length r = n -> map2 combine_first_cell r (repeat None n) = r.
Proof.
  intros <-. induction r as [|c r IH]; cbn; [reflexivity|]. rewrite IH. destruct c; reflexivity.
Qed.

Lemma wf_keep m f : wf_frame f -> wf_frame (keep_rows m f).
Proof. intros H t r Hin. apply mask_select_in in Hin. eapply H; eauto. Qed.

Lemma tc_flag_fallback store oob ref other w fl a b :
  wf_frame other ->
  NoDup (findex other) -> List.length fl = List.length ref -> List.length fl = List.length (frows other) ->
  temporal_collocation store oob ref (keep_rows (map negb fl) other) w nearest_opts = Ok a ->
  temporal_collocation store oob ref (keep_rows fl other) w nearest_opts = Ok b ->
  temporal_collocation store oob ref other w (with_flag nearest_opts fl true) = Ok (combine_first a b).
Proof.
  intros Hwf Hn Hl Hl2 Ha Hb.
  rewrite tc_nearest_unfold in Ha, Hb by (apply keep_rows_nodup; exact Hn).
  unfold temporal_collocation, with_flag, nearest_opts. cbn [o_flag eval_flag o_method o_dropna
    o_return_index o_return_distance o_use_invalid o_dropduplicates].
  rewrite Hl, Nat.eqb_refl. cbn [bindR]. unfold collocate_nearest. cbn [add_index_cols orb].
  fold (dedup_frame other). rewrite dedup_frame_id by exact Hn.
  cbn [has_invalid]. destruct (existsb (fun b => b) fl) eqn:E.
  - unfold bool_index. rewrite map_length, Hl2, Nat.eqb_refl. cbn [bindR].
    fold (keep_rows (map negb fl) other). fold (keep_rows fl other). rewrite Ha. cbn [bindR].
    rewrite Hb. reflexivity.
  - rewrite existsb_negb_all in Ha by exact E. rewrite keep_all in Ha by exact Hl2.
    rewrite Ha. cbn [mapR set_distance]. f_equal.
    (* no flagged row: the fallback frame is all missing *)
    pose proof (reindex_nearest_widths _ _ _ _ Hwf Ha) as Hwa.
    assert (Hk : frows (keep_rows fl other) = []).
    { unfold keep_rows; cbn. clear - E. revert E. generalize (frows other) as l.
      induction fl as [|c fl IH]; intros [|x l] E; cbn in *; try reflexivity.
      apply orb_false_iff in E as [-> E]. apply IH; exact E. }
    assert (Hcols : fcols a = fcols other /\ findex a = dedup_first (fun t => t) ref).
    { unfold reindex_nearest in Ha. destruct (dedup_first (fun t => t) ref) as [|t0 tr]; [injection Ha as <-; auto|].
      destruct (_ || _); [|discriminate]. injection Ha as <-. split; [reflexivity|].
      unfold findex; cbn. rewrite map_map. cbn. rewrite map_id. reflexivity. }
    assert (Hb2 : frows b = map (fun t => (t, repeat None (List.length (fcols other)))) (dedup_first (fun t => t) ref)).
    { unfold reindex_nearest in Hb. destruct (dedup_first (fun t => t) ref) as [|t0 tr]; [injection Hb as <-; reflexivity|].
      unfold findex in Hb. rewrite Hk in Hb. cbn in Hb. injection Hb as <-. reflexivity. }
    unfold combine_first. rewrite <- (frame_eta a) at 1. f_equal. rewrite Hb2.
    destruct Hcols as [Hc Hi]. rewrite <- Hi. unfold findex. unfold wf_frame in Hwa. rewrite Hc in Hwa.
    clear - Hwa. revert Hwa. generalize (frows a) as l, (List.length (fcols other)) as n.
    induction l as [|[t r] l IH]; intros n Hw; cbn; [reflexivity|].
    rewrite combine_none by (apply (Hw t); left; reflexivity). f_equal.
    apply IH. intros t' r' Hin. apply (Hw t'). right; exact Hin.
Qed.

(* a flag array whose length differs from the de-duplicated series cannot be used *)
Lemma tc_flag_length_error store oob ref other w fl ui :
  existsb (fun b => b) fl = true ->
  List.length fl <> List.length ref \/ List.length fl <> List.length (frows (dedup_frame other)) ->
  temporal_collocation store oob ref other w (with_flag nearest_opts fl ui) = Err EValue.
Proof.
  intros He Hl. unfold temporal_collocation, with_flag, nearest_opts. cbn [o_flag eval_flag o_method o_dropna
    o_return_index o_return_distance o_use_invalid o_dropduplicates].
  destruct (Nat.eqb (List.length fl) (List.length ref)) eqn:E1; cbn [bindR]; [|reflexivity].
  apply Nat.eqb_eq in E1. destruct Hl as [Hl|Hl]; [contradiction|].
  unfold collocate_nearest. cbn [add_index_cols orb]. fold (dedup_frame other).
  cbn [has_invalid]. rewrite He. unfold bool_index at 1. rewrite map_length.
  destruct (Nat.eqb (List.length fl) (List.length (frows (dedup_frame other)))) eqn:E2; [apply Nat.eqb_eq in E2; contradiction|].
  reflexivity.
Qed.

(* ---------- combined collocation ---------- *)

Lemma list_eqb_z_spec a b : list_eqb_z a b = true <-> a = b.
Proof.
  revert b; induction a as [|x a IH]; intros [|y b]; cbn; try (split; congruence).
  rewrite andb_true_iff, IH, Z.eqb_eq. split; [intros [-> ->]; reflexivity|intros [= -> ->]; auto].
Qed.

Lemma nodupb_z_spec l : nodupb_z l = true <-> NoDup l.
Proof.
  induction l as [|x l IH]; cbn; [split; [constructor|reflexivity]|].
  rewrite andb_true_iff, IH, negb_true_iff. split.
  - intros [H1 H2]. constructor; [|exact H2]. intros Hin.
    assert (existsb (Z.eqb x) l = true); [|congruence]. apply existsb_exists. exists x; split; [exact Hin|lia].
  - intros H; inversion H; subst. split; [|assumption].
    destruct (existsb (Z.eqb x) l) eqn:E; [|reflexivity].
    apply existsb_exists in E as (y & Hy & Hy2). replace y with x in Hy by lia. contradiction.
Qed.

Lemma insert_z_in x l y : In y (insert_z x l) <-> y = x \/ In y l.
Proof.
  induction l as [|z l IH]; cbn; [intuition|].
  destruct (x =? z) eqn:E1; [cbn; intuition lia|].
  destruct (x <? z) eqn:E2; cbn; [intuition|]. rewrite IH. intuition.
Qed.
Lemma insert_z_sorted x l : StronglySorted Z.lt l -> StronglySorted Z.lt (insert_z x l).
Proof.
  induction 1 as [|z l Hs IH Hf]; cbn; [repeat constructor|].
  destruct (x =? z) eqn:E1; [constructor; assumption|].
  destruct (x <? z) eqn:E2.
  - constructor; [constructor; assumption|]. constructor; [lia|].
    eapply Forall_impl; [|exact Hf]. cbn; intros; lia.
  - constructor; [exact IH|]. apply Forall_forall. intros y Hy. apply insert_z_in in Hy as [->|Hy]; [lia|].
    rewrite Forall_forall in Hf; auto.
Qed.
Lemma sort_union_in l y : In y (sort_union l) <-> In y l.
Proof. induction l as [|x l IH]; cbn; [tauto|]. rewrite insert_z_in, IH. intuition. Qed.
Lemma sort_union_sorted l : StronglySorted Z.lt (sort_union l).
Proof. induction l as [|x l IH]; cbn; [constructor|]. apply insert_z_sorted; exact IH. Qed.

Lemma lookup_row_cells f t : NoDup (findex f) -> cells_at f t (lookup_row f t).
Proof.
  intros Hn. unfold lookup_row.
  destruct (find (fun tr => fst tr =? t) (frows f)) as [[s r]|] eqn:E.
  - left. apply find_some in E as [Hin Hs]. cbn in Hs. replace t with s by lia. exact Hin.
  - right. split; [|reflexivity]. intros [r Hin]. eapply find_none in E; [|exact Hin]. cbn in E. lia.
Qed.

Lemma cells_at_unique f t r : NoDup (findex f) -> cells_at f t r -> r = lookup_row f t.
Proof.
  intros Hn [Hin|[Hno ->]]; unfold lookup_row.
  - pose proof (find_nodup fst (frows f) (t, r) Hn Hin) as Hf. cbn [fst] in Hf. rewrite Hf. reflexivity.
  - destruct (find (fun tr => fst tr =? t) (frows f)) as [[s r]|] eqn:E; [|reflexivity].
    apply find_some in E as [Hin Hs]. cbn in Hs. exfalso; apply Hno. exists r.
    replace t with s by lia. exact Hin.
Qed.

Lemma row_of_lookup dfs t r : (forall f, In f dfs -> NoDup (findex f)) ->
  (row_of dfs t r <-> r = flat_map (fun f => lookup_row f t) dfs).
Proof.
  revert r; induction dfs as [|f dfs IH]; intros r Hn; cbn.
  - split; [intros H; inversion H; reflexivity|intros ->; constructor].
  - split.
    + intros H; inversion H; subst. f_equal.
      * apply cells_at_unique; [apply Hn; left; reflexivity|assumption].
      * apply IH; [intros g Hg; apply Hn; right; exact Hg|assumption].
    + intros ->. constructor.
      * apply lookup_row_cells. apply Hn; left; reflexivity.
      * apply IH; [intros g Hg; apply Hn; right; exact Hg|reflexivity].
Qed.

Lemma has_time_index f t : has_time f t <-> In t (findex f).
Proof.
  unfold has_time, findex. rewrite in_map_iff. split.
  - intros [r Hr]. exists (t, r); auto.
  - intros ([s r] & Hs & Hin). cbn in Hs; subst. exists r; exact Hin.
Qed.

Lemma nth_lookup f k : NoDup (findex f) -> (k < List.length (frows f))%nat ->
  nth k (map snd (frows f)) [] = lookup_row f (nth k (findex f) 0).
Proof.
  intros Hn Hk.
  destruct (nth_error (frows f) k) as [[s r]|] eqn:E; [|apply nth_error_None in E; lia].
  assert (H1 : nth k (map snd (frows f)) [] = r).
  { apply nth_error_nth. apply map_nth_error with (f := snd) in E. exact E. }
  assert (H2 : nth k (findex f) 0 = s).
  { apply nth_error_nth. apply map_nth_error with (f := fst) in E. exact E. }
  rewrite H1, H2. apply cells_at_unique; [exact Hn|]. left. eapply nth_error_In; eauto.
Qed.

Lemma concat_correct dfs :
  dfs <> [] -> (forall f, In f dfs -> NoDup (findex f)) ->
  exists m, concat_axis1 dfs = Ok m /\ fcols m = flat_map fcols dfs /\ NoDup (findex m) /\
    forall t r, In (t, r) (frows m) <-> (exists f, In f dfs /\ has_time f t) /\ row_of dfs t r.
Proof.
  intros Hne Hn. destruct dfs as [|f0 rest]; [congruence|]. unfold concat_axis1.
  destruct (forallb (fun f => list_eqb_z (findex f) (findex f0)) rest) eqn:E.
  - eexists; split; [reflexivity|]. cbn [fcols frows]. split; [reflexivity|].
    assert (Heq : forall f, In f (f0 :: rest) -> findex f = findex f0).
    { intros f [->|Hf]; [reflexivity|]. rewrite forallb_forall in E. apply list_eqb_z_spec, E, Hf. }
    assert (Hrows : map (fun k => (nth k (findex f0) 0,
                        flat_map (fun f => nth k (map snd (frows f)) []) (f0 :: rest)))
                     (seq 0 (List.length (frows f0)))
            = map (fun t => (t, flat_map (fun f => lookup_row f t) (f0 :: rest))) (findex f0)).
    { rewrite (map_seq_nth (fun t => (t, flat_map (fun f => lookup_row f t) (f0 :: rest))) (findex f0) 0).
      replace (List.length (findex f0)) with (List.length (frows f0)) by (unfold findex; rewrite map_length; reflexivity).
      apply map_ext_in. intros k Hk. apply in_seq in Hk. f_equal.
      rewrite !flat_map_concat_map. f_equal. apply map_ext_in. intros f Hf.
      rewrite <- (Heq f Hf). apply nth_lookup; [apply Hn; exact Hf|].
      pose proof (Heq f Hf) as Hlen. apply (f_equal (@List.length Z)) in Hlen.
      unfold findex in Hlen. rewrite !map_length in Hlen. lia. }
    unfold findex at 1. cbn [frows]. rewrite Hrows. split.
    + rewrite map_map. cbn. rewrite map_id. apply Hn; left; reflexivity.
    + intros t r. rewrite in_map_iff. split.
      * intros (t' & [= -> <-] & Hin). split.
        -- exists f0. split; [left; reflexivity|]. apply has_time_index; exact Hin.
        -- apply row_of_lookup; [exact Hn|reflexivity].
      * intros [(f & Hf & Ht) Hr]. apply row_of_lookup in Hr; [|exact Hn]. subst r.
        exists t. split; [reflexivity|]. rewrite <- (Heq f Hf). apply has_time_index; exact Ht.
  - assert (Hd : forallb (fun f => nodupb_z (findex f)) (f0 :: rest) = true).
    { apply forallb_forall. intros f Hf. apply nodupb_z_spec, Hn, Hf. }
    rewrite Hd. eexists; split; [reflexivity|]. cbn [fcols frows]. split; [reflexivity|]. split.
    + unfold findex at 1; cbn [frows]. rewrite map_map. cbn. rewrite map_id.
      apply SSorted_lt_nodup. apply (sort_union_sorted (flat_map findex (f0 :: rest))).
    + intros t r. rewrite in_map_iff. split.
      * intros (t' & [= -> <-] & Hin). apply (sort_union_in (flat_map findex (f0 :: rest))) in Hin. apply in_flat_map in Hin as (f & Hf & Ht).
        split; [exists f; split; [exact Hf|apply has_time_index; exact Ht]|].
        apply row_of_lookup; [exact Hn|reflexivity].
      * intros [(f & Hf & Ht) Hr]. apply row_of_lookup in Hr; [|exact Hn]. subst r.
        exists t. split; [reflexivity|]. apply (sort_union_in (flat_map findex (f0 :: rest))). apply in_flat_map. exists f.
        split; [exact Hf|]. apply has_time_index; exact Ht.
Qed.

(* the index of a collocated frame consists of reference times, each once *)
Lemma filter_nodup_map {A} (key : A -> Z) (p : A -> bool) l : NoDup (map key l) -> NoDup (map key (filter p l)).
Proof. intros H. rewrite <- mask_select_map_filter. apply mask_select_nodup. exact H. Qed.

Lemma reindex_index f targets w g : reindex_nearest f targets w = Ok g -> findex g = targets /\ fcols g = fcols f.
Proof.
  unfold reindex_nearest. destruct targets as [|t0 tr]; [intros [= <-]; auto|].
  destruct (_ || _); [|discriminate]. remember (t0 :: tr) as tg eqn:Htg; clear Htg. intros [= <-].
  split; [|reflexivity]. unfold findex; cbn. rewrite map_map. cbn. apply map_id.
Qed.

Lemma combine_first_index a b : findex a = findex b -> findex (combine_first a b) = findex a.
Proof.
  unfold findex, combine_first; cbn. generalize (frows b) as m. generalize (frows a) as l.
  induction l as [|x l IH]; intros [|y m] H; cbn in *; try congruence. injection H as H1 H2. rewrite IH; auto.
Qed.

Lemma set_distance_index rd f : findex (set_distance rd f) = findex f.
Proof. destruct rd; [|reflexivity]. unfold findex, set_distance; cbn. rewrite map_map. reflexivity. Qed.

Lemma collocate_nearest_index ref other w fl ui ri rd f :
  collocate_nearest ref other w fl ui ri rd = Ok f -> findex f = ref.
Proof.
  unfold collocate_nearest. set (oth := add_index_cols ri rd other).
  intros H.
  assert (Hc : exists c, findex c = ref /\ f = set_distance rd c).
  2:{ destruct Hc as (c & Hc & ->). rewrite set_distance_index. exact Hc. }
  destruct fl as [l|].
  - destruct (has_invalid (Some l)).
    + destruct (bool_index (map negb l) oth) as [fv|]; cbn [bindR mapR] in H; [|discriminate].
      destruct (reindex_nearest fv ref w) as [cv|] eqn:Ev; cbn [bindR mapR] in H; [|discriminate].
      destruct ui.
      * destruct (bool_index l oth) as [fi|]; cbn [bindR mapR] in H; [|discriminate].
        destruct (reindex_nearest fi ref w) as [ci|] eqn:Ei; cbn [bindR mapR] in H; [|discriminate].
        injection H as <-. eexists; split; [|reflexivity].
        apply reindex_index in Ev as [Ev _]. apply reindex_index in Ei as [Ei _].
        rewrite combine_first_index; congruence.
      * cbn [mapR] in H. injection H as <-. eexists; split; [|reflexivity]. apply reindex_index in Ev; tauto.
    + destruct (reindex_nearest oth ref w) as [c|] eqn:Ec; cbn [mapR] in H; [|discriminate].
      injection H as <-. eexists; split; [|reflexivity]. apply reindex_index in Ec; tauto.
  - destruct (reindex_nearest oth ref w) as [c|] eqn:Ec; cbn [mapR] in H; [|discriminate].
    injection H as <-. eexists; split; [|reflexivity]. apply reindex_index in Ec; tauto.
Qed.

Lemma collocate_mean_index store oob ref other w fl ui f :
  collocate_mean store oob ref other w fl ui = Ok f -> findex f = ref.
Proof.
  unfold collocate_mean. destruct (Nat.eqb (ncols other) 0); [discriminate|].
  destruct (Nat.eqb _ _); [|discriminate].
  match goal with |- mapR _ ?s = _ -> _ => destruct s as [c|] end; cbn [mapR]; [|discriminate].
  intros [= <-]. unfold findex, rows_of_columns; cbn. rewrite map_map. cbn. apply map_nth_seq.
Qed.

Lemma tc_index_nodup store oob ref other w o f :
  NoDup ref -> temporal_collocation store oob ref other w o = Ok f ->
  NoDup (findex f) /\ (forall t, In t (findex f) -> In t ref).
Proof.
  intros Hr. unfold temporal_collocation.
  destruct (eval_flag (o_flag o) other (List.length ref)) as [fl|]; cbn [bindR]; [|discriminate].
  assert (Hdd : dedup_first (fun t => t) ref = ref) by (apply dedup_id; rewrite map_id; exact Hr).
  intros H.
  assert (Hc : exists c, findex c = ref /\ f = (if o_dropna o then dropna_all c else c)).
  { destruct (o_method o).
    - match type of H with mapR _ ?c = _ => destruct c as [g|] eqn:Eg end; cbn [mapR] in H; [|discriminate].
      injection H as <-. eexists; split; [|reflexivity]. apply collocate_nearest_index in Eg. congruence.
    - match type of H with mapR _ ?c = _ => destruct c as [g|] eqn:Eg end; cbn [mapR] in H; [|discriminate].
      injection H as <-. eexists; split; [|reflexivity]. apply collocate_mean_index in Eg.
      destruct (o_dropduplicates o); congruence.
    - discriminate. }
  destruct Hc as (c & Hc & ->). destruct (o_dropna o).
  - unfold dropna_all, findex; cbn. split.
    + apply filter_nodup_map. unfold findex in Hc. rewrite Hc. exact Hr.
    + intros t Ht. rewrite <- Hc. unfold findex. apply in_map_iff in Ht as (x & <- & Hx).
      apply filter_In in Hx. apply in_map; tauto.
  - rewrite Hc. split; auto.
Qed.

Lemma notna_spec {A} (c : option A) : notna c = true <-> c <> None.
Proof. destruct c; cbn; split; congruence. Qed.

Lemma combined_correct store oob reference others w o cd (add_ref : bool) dfs :
  NoDup (findex reference) ->
  Forall2 (fun f d => temporal_collocation store oob (findex reference) f w
             (mkOpts (o_method o) false false (o_dropduplicates o) (o_dropna o) (o_flag o) (o_use_invalid o)) = Ok d)
          others dfs ->
  let parts := if add_ref then reference :: dfs else dfs in
  parts <> [] ->
  exists m, combined_temporal_collocation store oob reference others w o cd add_ref = Ok m /\
    fcols m = flat_map fcols parts /\ NoDup (findex m) /\
    (forall t r, In (t, r) (frows m) <->
       (exists f, In f parts /\ has_time f t) /\ row_of parts t r /\ combined_keep cd r).
Proof.
  intros Hn Hf parts Hne. unfold combined_temporal_collocation.
  assert (Hseq : seqR (map (fun f => temporal_collocation store oob (findex reference) f w
             (mkOpts (o_method o) false false (o_dropduplicates o) (o_dropna o) (o_flag o) (o_use_invalid o))) others) = Ok dfs).
  { apply seqR_ok. clear - Hf. induction Hf as [|f d fs ds H _ IH]; cbn; [reflexivity|]. rewrite H, IH. reflexivity. }
  rewrite Hseq. cbn [bindR].
  assert (Hparts : (if add_ref
     then (if o_dropduplicates o then mkFrame (fcols reference) (dedup_first fst (frows reference)) else reference) :: dfs
     else dfs) = parts).
  { subst parts. destruct add_ref; [|reflexivity]. destruct (o_dropduplicates o); [|reflexivity].
    f_equal. apply dedup_frame_id. exact Hn. }
  rewrite Hparts.
  assert (Hnd : forall f, In f parts -> NoDup (findex f)).
  { assert (Hd : forall f, In f dfs -> NoDup (findex f)).
    { clear - Hf Hn. induction Hf as [|f d fs ds H _ IH]; intros g Hg; [destruct Hg|].
      destruct Hg as [<-|Hg]; [|auto]. eapply tc_index_nodup; eauto. }
    subst parts. intros f Hin. destruct add_ref; [|auto]. destruct Hin as [<-|Hin]; auto. }
  destruct (concat_correct parts Hne Hnd) as (m & Hm & Hcols & Hnm & Hrows).
  rewrite Hm. cbn [mapR]. destruct cd.
  - exists m. split; [reflexivity|]. split; [exact Hcols|]. split; [exact Hnm|]. intros t r. rewrite Hrows. unfold combined_keep. tauto.
  - exists (dropna_any m). split; [reflexivity|]. split; [exact Hcols|]. split; [apply filter_nodup_map; exact Hnm|].
    intros t r. unfold dropna_any; cbn [frows]. rewrite filter_In, Hrows. cbn [snd combined_keep].
    rewrite forallb_forall. setoid_rewrite notna_spec. tauto.
  - exists (dropna_any m). split; [reflexivity|]. split; [exact Hcols|]. split; [apply filter_nodup_map; exact Hnm|].
    intros t r. unfold dropna_any; cbn [frows]. rewrite filter_In, Hrows. cbn [snd combined_keep].
    rewrite forallb_forall. setoid_rewrite notna_spec. tauto.
  - exists (dropna_all m). split; [reflexivity|]. split; [exact Hcols|]. split; [apply filter_nodup_map; exact Hnm|].
    intros t r. unfold dropna_all; cbn [frows]. rewrite filter_In, Hrows. cbn [snd combined_keep].
    rewrite existsb_exists. setoid_rewrite notna_spec. tauto.
Qed.

(* ---------- return_index / return_distance ---------- *)

Definition ext_row (tr : Z * row) : Z * row :=
  (fst tr, snd tr ++ [Some (inject_Z (fst tr)); Some 0%Q]).

Lemma ext_findex (l : list (Z * row)) : map fst (map ext_row l) = map fst l.
Proof. rewrite map_map. reflexivity. Qed.

Lemma find_ext (l : list (Z * row)) s :
  find (fun o => fst o =? s) (map ext_row l) = option_map ext_row (find (fun o => fst o =? s) l).
Proof.
  induction l as [|[t r] l IH]; [reflexivity|]. cbn. destruct (t =? s); [reflexivity|exact IH].
Qed.

Lemma nth_app_len {A} (l m : list A) n d : List.length l = n -> nth n (l ++ m) d = nth 0 m d.
Proof. intros <-. rewrite app_nth2 by lia. f_equal. lia. Qed.

Lemma tc_nearest_distance store oob ref other w ri :
  wf_frame other ->
  monotone_times (findex (dedup_frame other)) ->
  exists g, temporal_collocation store oob ref other w
              (mkOpts MNearest ri true false false NoFlag false) =
      Ok (mkFrame (fcols other ++ ["index_other"; "distance_other"]%string)
            (map (fun t => (t, g t)) (dedup_first (fun t => t) ref))) /\
    forall t,
      (exists s r, g t = r ++ [Some (inject_Z s); Some (inject_Z s - inject_Z t)%Q] /\
          find (fun o => fst o =? s) (frows other) = Some (s, r) /\ Z.abs (s - t) <= w /\
          forall s' r', In (s', r') (frows other) ->
            Z.abs (s - t) < Z.abs (s' - t) \/ (Z.abs (s - t) = Z.abs (s' - t) /\ s' <= s))
      \/ (g t = repeat None (List.length (fcols other) + 2) /\
          forall s' r', In (s', r') (frows other) -> w < Z.abs (s' - t)).
Proof.
  intros Hwf Hm. unfold temporal_collocation. cbn [o_flag eval_flag bindR o_method o_dropna
    o_return_index o_return_distance o_use_invalid o_dropduplicates].
  fold (dedup_frame other). unfold collocate_nearest.
  set (ext := add_index_cols ri true (dedup_frame other)).
  assert (Hext : ext = mkFrame (fcols other ++ ["index_other"; "distance_other"]%string)
                               (map ext_row (dedup_first fst (frows other)))).
  { subst ext. unfold add_index_cols. rewrite orb_true_r. reflexivity. }
  assert (Hmx : monotone_times (findex ext)).
  { rewrite Hext. unfold findex; cbn [frows]. rewrite ext_findex. exact Hm. }
  destruct (reindex_nearest_rows ext (dedup_first (fun t => t) ref) w Hmx) as (g & Hg & Hn).
  rewrite Hg. cbn [mapR].
  set (n := List.length (fcols other)).
  exists (fun t => firstn (n + 1) (g t) ++
         [match nth n (g t) None with Some i => Some (i - inject_Z t)%Q | None => None end]).
  split.
  - rewrite Hext. unfold set_distance. cbn [fcols frows]. f_equal. f_equal.
    rewrite map_map. apply map_ext. intros t. cbn [fst snd]. rewrite app_length. cbn [List.length]. fold n.
    replace (n + 2 - 1)%nat with (n + 1)%nat by lia. replace (n + 2 - 2)%nat with n by lia. reflexivity.
  - intros t. specialize (Hn t). rewrite Hext in Hn. cbn [frows fcols] in Hn.
    rewrite app_length in Hn. cbn [List.length] in Hn. fold n in Hn.
    assert (Htimes : forall s' r', In (s', r') (frows other) ->
              exists r2, In (s', r2) (map ext_row (dedup_first fst (frows other)))).
    { intros s' r' Hin. apply (in_map fst) in Hin. apply (dedup_keys fst) in Hin.
      apply in_map_iff in Hin as ([s2 r2] & Hs2 & Hin). cbn in Hs2; subst s2.
      exists (snd (ext_row (s', r2))). apply in_map with (f := ext_row) in Hin. exact Hin. }
    destruct Hn as [(s & Hf & Hw & Hb)|[Hr Hb]].
    + left. rewrite find_ext, dedup_find in Hf.
      destruct (find (fun o => fst o =? s) (frows other)) as [[s0 r]|] eqn:Ef; [|discriminate].
      cbn in Hf. injection Hf as -> Hgr. exists s, r.
      assert (Hlen : List.length r = n).
      { apply find_some in Ef as [Hin _]. eapply Hwf; eauto. }
      repeat split; [|exact Ef|exact Hw|].
      * rewrite <- Hgr. rewrite (nth_app_len r _ n) by exact Hlen. cbn [nth].
        rewrite firstn_app, Hlen. rewrite firstn_all2 by lia.
        replace (n + 1 - n)%nat with 1%nat by lia. cbn [firstn]. rewrite <- app_assoc. reflexivity.
      * intros s' r' Hin. destruct (Htimes s' r' Hin) as [r2 H2]. eapply Hb; eauto.
    + right. split.
      * rewrite Hr.
        replace (n + 2)%nat with ((n + 1) + 1)%nat by lia. rewrite repeat_app.
        rewrite firstn_app, repeat_length. rewrite firstn_all2 by (rewrite repeat_length; lia).
        replace (n + 1 - (n + 1))%nat with 0%nat by lia. cbn [firstn]. rewrite app_nil_r.
        f_equal. rewrite <- repeat_app. cbn [repeat].
        assert (Hnth : forall k m, nth k (repeat (@None Q) m) None = None).
        { intros k m; revert k; induction m as [|m IH]; intros [|k]; cbn; auto. }
        rewrite Hnth. reflexivity.
      * intros s' r' Hin. destruct (Htimes s' r' Hin) as [r2 H2]. eapply Hb; eauto.
Qed.

(* ---------- reference order ---------- *)
Lemma dedup_ref_spec (ref : list Z) :
  NoDup (dedup_first (fun t => t) ref) /\ forall t, In t (dedup_first (fun t => t) ref) <-> In t ref.
Proof.
  split.
  - pose proof (dedup_nodup (fun t : Z => t) ref) as H. rewrite map_id in H. exact H.
  - intros t. pose proof (dedup_keys (fun t : Z => t) ref t) as H. rewrite !map_id in H. exact H.
Qed.

Lemma tc_nearest_missing store oob ref other w out t r :
  chronological (findex other) ->
  (forall s r', In (s, r') (frows other) -> forall c, In c r' -> c <> None) ->
  temporal_collocation store oob ref other w nearest_opts = Ok out ->
  In (t, r) (frows out) -> In None r ->
  forall s r', In (s, r') (frows other) -> w < Z.abs (s - t).
Proof.
  intros Hc Hfull Hok Hin Hnone.
  destruct (tc_nearest_correct store oob ref other w (chronological_monotone _ Hc)) as (g & Hg & Hn).
  rewrite Hg in Hok. injection Hok as <-. cbn [frows] in Hin. apply in_map_iff in Hin as (t' & [= -> <-] & _).
  specialize (Hn t). destruct Hn as [(s & Hf & Hw & Hb)|[_ Hb]]; [|exact Hb].
  exfalso. apply find_some in Hf as [Hf _]. exact (Hfull _ _ Hf None Hnone eq_refl).
Qed.

Lemma nth_map2_combine l m k j :
  List.length l = List.length m ->
  (forall k, List.length (nth k (map snd l) []) = List.length (nth k (map snd m) [])) ->
  nth j (nth k (map snd (map2 (fun ra rb : Z * row => (fst ra, map2 combine_first_cell (snd ra) (snd rb))) l m)) []) None
  = match nth j (nth k (map snd l) []) None with
    | Some v => Some v | None => nth j (nth k (map snd m) []) None end.
Proof.
  revert m k; induction l as [|[t r] l IH]; intros [|[t2 r2] m] k Hl Hw; cbn in Hl; try discriminate.
  - cbn. destruct k, j; reflexivity.
  - destruct k as [|k]; cbn.
    + specialize (Hw 0%nat). cbn in Hw. clear - Hw. revert r2 j Hw.
      induction r as [|c r IH]; intros [|c2 r2] j Hw; cbn in *; try discriminate; [destruct j; reflexivity|].
      destruct j as [|j]; [destruct c; reflexivity|]. apply IH. lia.
    + apply IH; [lia|]. intros k'. exact (Hw (S k')).
Qed.

Lemma tc_flag_fallback_cells store oob ref other w fl valid invalid :
  wf_frame other -> NoDup (findex other) ->
  List.length fl = List.length ref -> List.length fl = List.length (frows other) ->
  temporal_collocation store oob ref (keep_rows (map negb fl) other) w nearest_opts = Ok valid ->
  temporal_collocation store oob ref (keep_rows fl other) w nearest_opts = Ok invalid ->
  exists out, temporal_collocation store oob ref other w (with_flag nearest_opts fl true) = Ok out /\
    findex out = findex valid /\
    forall k j, nth j (nth k (map snd (frows out)) []) None =
                match nth j (nth k (map snd (frows valid)) []) None with
                | Some v => Some v
                | None => nth j (nth k (map snd (frows invalid)) []) None
                end.
Proof.
  intros Hwf Hn Hl Hl2 Ha Hb. exists (combine_first valid invalid).
  split; [apply tc_flag_fallback; assumption|].
  rewrite tc_nearest_unfold in Ha, Hb by (apply keep_rows_nodup; exact Hn).
  pose proof (reindex_nearest_widths _ _ _ _ (wf_keep _ _ Hwf) Ha) as Hwa.
  pose proof (reindex_nearest_widths _ _ _ _ (wf_keep _ _ Hwf) Hb) as Hwb.
  apply reindex_index in Ha as [Hia Hca]. apply reindex_index in Hb as [Hib Hcb].
  split; [apply combine_first_index; congruence|].
  intros k j. unfold combine_first; cbn [frows].
  assert (Hlen : List.length (frows valid) = List.length (frows invalid)).
  { unfold findex in *. rewrite <- (map_length fst (frows valid)), <- (map_length fst (frows invalid)). congruence. }
  apply nth_map2_combine; [exact Hlen|].
  intros k'. destruct (Nat.lt_ge_cases k' (List.length (frows valid))) as [Hk|Hk].
  - destruct (nth_error (frows valid) k') as [[t1 r1]|] eqn:E1; [|apply nth_error_None in E1; lia].
    destruct (nth_error (frows invalid) k') as [[t2 r2]|] eqn:E2; [|apply nth_error_None in E2; lia].
    pose proof (nth_error_In _ _ E1) as I1. pose proof (nth_error_In _ _ E2) as I2.
    apply map_nth_error with (f := snd) in E1, E2.
    rewrite (nth_error_nth _ _ _ E1), (nth_error_nth _ _ _ E2). cbn [snd].
    rewrite (Hwa _ _ I1), (Hwb _ _ I2), Hca, Hcb. reflexivity.
  - rewrite (nth_overflow (map snd (frows valid))) by (rewrite map_length; lia).
    rewrite (nth_overflow (map snd (frows invalid))) by (rewrite map_length; lia). reflexivity.
Qed.
