(* C126: what is matched at a time depends on the observations near that time; larger windows keep what was matched. *)
From Verif Require Import Base BaseProofs ValidationModel ValidationSpec MatchersModel MatchersSpec ReadModel RunSpec RunProps.
From Verif Require Import TemporalModel TemporalSpec TemporalProofs LocalProofs.

(* the rows of a frame at the chosen times *)
Definition at_times (p : Z -> bool) (f : frame) : frame := mkFrame (fcols f) (filter (fun tr => p (fst tr)) (frows f)).
(* no flags; means need data and reference in the order of time *)
Definition plain (ref : list Z) (other : frame) (o : tc_opts) : Prop :=
  o_flag o = NoFlag /\ (o_method o = MNearest \/ (o_method o = MMean /\ chronological ref /\ chronological (findex other) /\ fcols other <> [])).

Lemma filter_map_times {A B} (p : Z -> bool) (h : Z * A -> B) l : map (fun tr => (fst tr, h tr)) (filter (fun tr => p (fst tr)) l) = filter (fun tr => p (fst tr)) (map (fun tr => (fst tr, h tr)) l).
Proof. induction l as [|a l IH]; [reflexivity|]. cbn. destruct (p (fst a)); cbn; rewrite IH; reflexivity. Qed.
Lemma set_distance_times p rd f : set_distance rd (at_times p f) = at_times p (set_distance rd f).
Proof.
  unfold set_distance, at_times. destruct rd; [|reflexivity]. cbn [fcols frows]. f_equal. apply (@filter_map_times row row).
Qed.
Lemma dropna_times p f : dropna_all (at_times p f) = at_times p (dropna_all f).
Proof. unfold dropna_all, at_times. cbn [fcols frows]. f_equal. apply filter_swap. Qed.
Lemma reindex_times f ref w p g : reindex_nearest f ref w = Ok g -> reindex_nearest f (filter p ref) w = Ok (at_times p g).
Proof.
  unfold reindex_nearest. destruct ref as [|t r]; [intros [= <-]; reflexivity|]. set (l := t :: r). destruct (increasing (findex f) || decreasing (findex f)); [|discriminate].
  intros E. assert (H : g = mkFrame (fcols f) (map (fun t => (t, take_row (ncols f) (frows f) (nearest_pos (increasing (findex f)) (findex f) w t))) l)) by congruence.
  clear E. subst g. unfold at_times. cbn [frows fcols].
  rewrite (filter_map_pair p (fun t => take_row (ncols f) (frows f) (nearest_pos (increasing (findex f)) (findex f) w t))). destruct (filter p l); reflexivity.
Qed.
Lemma chronological_dedup l : chronological l -> chronological (dedup_first (fun t => t) l).
Proof.
  intros S. unfold chronological in *. unfold dedup_first. generalize (@nil Z) as seen. induction S as [|a l S IH F]; intros seen; [constructor|]. cbn [dedup_aux].
  destruct (existsb (Z.eqb a) seen); [apply IH|]. constructor; [apply IH|]. apply Forall_forall. intros x I. apply dedup_aux_in in I as [I _]. rewrite Forall_forall in F. exact (F x I).
Qed.
Lemma chronological_rows f : chronological (findex f) -> chronological (findex (dedup_frame f)).
Proof. intros S. unfold findex, dedup_frame. cbn [frows]. rewrite <- MatchersProofs.dedup_map_fst. apply chronological_dedup, S. Qed.
Lemma mean_data (dd : bool) ref other : chronological ref -> chronological (findex other) ->
  chronological (if dd then dedup_first (fun t => t) ref else ref) /\ chronological (findex (if dd then dedup_frame other else other)).
Proof. intros A B. destruct dd; [split; [apply chronological_dedup, A|apply chronological_rows, B]|tauto]. Qed.
Lemma filter_dedup (dd : bool) p ref : (if dd then dedup_first (fun t => t) (filter p ref) else filter p ref) = filter p (if dd then dedup_first (fun t => t) ref else ref).
Proof. destruct dd; [exact (dedup_filter (fun t => t) p ref)|reflexivity]. Qed.
Lemma collocation_unfold store oob ref other w o : o_flag o = NoFlag ->
  temporal_collocation store oob ref other w o =
  (let dd := match o_method o with MNearest => true | _ => o_dropduplicates o end in
   mapR (fun f => if o_dropna o then dropna_all f else f)
    match o_method o with
    | MNearest => mapR (set_distance (o_return_distance o)) (reindex_nearest (add_index_cols (o_return_index o) (o_return_distance o) (dedup_frame other)) (dedup_first (fun t => t) ref) w)
    | MMean => collocate_mean store oob (if dd then dedup_first (fun t => t) ref else ref) (if dd then dedup_frame other else other) w None (o_use_invalid o)
    | MOther => Err ENotImpl
    end).
Proof. intros F. unfold temporal_collocation. rewrite F. cbn [eval_flag bindR]. destruct (o_method o); reflexivity. Qed.

Section Local.
Variables (store : cell -> cell) (oob : Z).
Notation collocation := (temporal_collocation store oob).

(* Every reference time is treated on its own: collocating to a part of the reference gives this part of the result. *)
Theorem C126_reference_times ref other w o f p : plain ref other o -> collocation ref other w o = Ok f ->
  collocation (filter p ref) other w o = Ok (at_times p f).
Proof.
  intros (F & M) E. rewrite collocation_unfold in E by exact F. rewrite collocation_unfold by exact F. cbv zeta in *. destruct M as [M|(M & A & B & C)]; rewrite M in *.
  - destruct (reindex_nearest _ (dedup_first (fun t => t) ref) w) as [g|] eqn:R; [|discriminate]. apply (reindex_times _ _ _ p) in R.
    rewrite (filter_dedup true p ref). rewrite R. cbn [mapR] in *. injection E as <-. rewrite set_distance_times. destruct (o_dropna o); [rewrite dropna_times|]; reflexivity.
  - destruct (mean_data (o_dropduplicates o) ref other A B) as [A' B']. rewrite filter_dedup.
    assert (C' : fcols (if o_dropduplicates o then dedup_frame other else other) <> []) by (destruct (o_dropduplicates o); exact C).
    rewrite collocate_mean_correct in E by (auto; left; reflexivity). rewrite collocate_mean_correct by (auto using chronological_filter; left; reflexivity).
    cbn [mapR] in *. injection E as <-. unfold at_times. destruct (o_dropna o); [unfold dropna_all|]; cbn [fcols frows]; f_equal; f_equal.
    + rewrite filter_swap. f_equal. symmetry. apply (filter_map_pair p (fun t => map (fun i => store (window_mean t w (series (if o_dropduplicates o then dedup_frame other else other) i))) (seq 0 _))).
    + symmetry. apply (filter_map_pair p (fun t => map (fun i => store (window_mean t w (series (if o_dropduplicates o then dedup_frame other else other) i))) (seq 0 _))).
Qed.

(* Observations further away from every reference time than the window do not matter. *)
Theorem C126_near_observations ref other other' w o : plain ref other o -> plain ref other' o -> fcols other = fcols other' ->
  (o_method o = MNearest -> monotone_times (findex (dedup_frame other)) /\ monotone_times (findex (dedup_frame other'))) ->
  (forall t, In t ref -> window_obs t w (frows other) = window_obs t w (frows other')) ->
  collocation ref other w o = collocation ref other' w o.
Proof.
  intros (F & M) (_ & M') C MT N. rewrite !collocation_unfold by exact F. cbv zeta. f_equal. destruct M as [M|(M & A & B & NE)]; rewrite M in *.
  - destruct (MT eq_refl) as [M1 M2]. f_equal. apply reindex_near; rewrite ?index_monotone; try assumption; [apply index_columns; exact C|].
    intros t I. apply near_index, near_dedup. apply N. apply dedup_ref_spec, I.
  - destruct M' as [M'|(_ & _ & B' & _)]; [discriminate|]. destruct (mean_data (o_dropduplicates o) ref other A B) as [A1 B1]. destruct (mean_data (o_dropduplicates o) ref other' A B') as [_ B2].
    rewrite !collocate_mean_correct; try assumption; try (left; reflexivity).
    2, 3: destruct (o_dropduplicates o); cbn [dedup_frame fcols]; congruence.
    assert (CC : fcols (if o_dropduplicates o then dedup_frame other else other) = fcols (if o_dropduplicates o then dedup_frame other' else other')) by (destruct (o_dropduplicates o); exact C).
    rewrite CC. f_equal. f_equal. apply map_ext_in. intros t I. f_equal. apply map_ext. intros i. f_equal. unfold window_mean. f_equal. f_equal.
    assert (IR : In t ref) by (destruct (o_dropduplicates o); [apply dedup_ref_spec|]; exact I). specialize (N t IR).
    destruct (o_dropduplicates o); apply near_series; [apply near_dedup|]; exact N.
Qed.

(* With a larger window what was matched to a time stays; something new is matched only where nothing was in the window. *)
Theorem C126_larger_window ref other w w' o f f' : o_flag o = NoFlag -> o_method o = MNearest -> o_return_distance o = false -> w <= w' ->
  monotone_times (findex (dedup_frame other)) -> collocation ref other w o = Ok f -> collocation ref other w' o = Ok f' ->
  (forall t r, In (t, r) (frows f) -> (exists c, In c r /\ c <> None) -> In (t, r) (frows f')) /\
  (forall t r, In (t, r) (frows f') -> In (t, r) (frows f) \/ forall s x, In (s, x) (frows other) -> w < Z.abs (s - t)).
Proof.
  intros F M RD W MT E E'. rewrite collocation_unfold in E, E' by exact F. cbv zeta in *. rewrite M, RD in *. cbn [set_distance] in *.
  set (X := add_index_cols (o_return_index o) false (dedup_frame other)) in *. assert (MX : monotone_times (findex X)) by (unfold X; rewrite index_monotone; exact MT).
  destruct (reindex_nearest_rows X (dedup_first (fun t => t) ref) w MX) as (g & R & G). destruct (reindex_nearest_rows X (dedup_first (fun t => t) ref) w' MX) as (g' & R' & G').
  rewrite R in E. rewrite R' in E'. cbn [mapR set_distance] in E, E'.
  assert (IN : forall (h : Z -> row) (fr : frame), Ok (if o_dropna o then dropna_all (mkFrame (fcols X) (map (fun t => (t, h t)) (dedup_first (fun t => t) ref))) else mkFrame (fcols X) (map (fun t => (t, h t)) (dedup_first (fun t => t) ref))) = Ok fr ->
     forall t r, In (t, r) (frows fr) <-> (In t ref /\ r = h t) /\ (o_dropna o = true -> exists c, In c r /\ c <> None)).
  { intros h fr Q t r. injection Q as <-.
    assert (B : In (t, r) (map (fun t => (t, h t)) (dedup_first (fun t => t) ref)) <-> In t ref /\ r = h t).
    { rewrite in_map_iff. split; [intros (t' & [= -> <-] & I); split; [apply dedup_ref_spec, I|reflexivity]|intros (I & ->); exists t; split; [reflexivity|apply dedup_ref_spec, I]]. }
    destruct (o_dropna o); unfold dropna_all; cbn [frows]; [|rewrite B; intuition discriminate]. rewrite filter_In, B. cbn [snd]. rewrite existsb_exists.
    split; [intros ((I & J) & c & K & L); split; [tauto|]; intros _; exists c; split; [exact K|apply notna_spec, L]|intros ((I & J) & K); split; [tauto|]; destruct (K eq_refl) as (c & L & N); exists c; split; [exact L|apply notna_spec, N]]. }
  assert (SAME : forall t, (exists c, In c (g t) /\ c <> None) -> g' t = g t) by (intros t H; exact (nearest_row_unique _ _ _ _ _ _ (G' t) (nearest_row_larger _ _ _ _ _ _ W (G t) H))).
  split.
  - intros t r I H. apply (IN g f E) in I as [[I ->] D]. apply (IN g' f' E'). split; [split; [exact I|symmetry; apply SAME, H]|intros _; exact H].
  - intros t r I. apply (IN g' f' E') in I as [[I ->] D]. destruct (G t) as [(s & FS & DS & B)|[Q B]].
    + left. apply (IN g f E).
      assert (EQ : g' t = g t). { apply (nearest_row_unique (frows X) (List.length (fcols X)) t w'); [apply G'|]. left. exists s. split; [exact FS|]. split; [lia|exact B]. }
      rewrite <- EQ. split; [split; [exact I|reflexivity]|exact D].
    + right. intros s x IX. assert (IT : In s (findex X)).
      { unfold X. rewrite index_monotone. unfold findex, dedup_frame. cbn [frows]. rewrite dedup_keys. apply in_map_iff. exists (s, x). split; [reflexivity|exact IX]. }
      unfold findex in IT. apply in_map_iff in IT as ([s' y] & ES & IY). cbn in ES. subst s'. exact (B s y IY).
Qed.
End Local.

Lemma nanmean_some l : nanmean l <> None <-> exists x, In (Some x) l.
Proof.
  unfold nanmean. assert (V : forall x, In x (vals l) <-> In (Some x) l).
  { induction l as [|c l IH]; intros x; cbn; [tauto|]. destruct c as [y|]; cbn; rewrite IH; intuition (congruence || discriminate). }
  destruct (vals l) as [|v vs]; split; intros H; [congruence| |exists v; apply V; left; reflexivity|discriminate]. destruct H as (x & I). apply V in I. destruct I.
Qed.
(* A mean stays a mean (of at least as many values) in a larger window. *)
Theorem C126_larger_window_mean oob ref other w w' f f' : chronological (findex other) -> chronological ref -> fcols other <> [] -> w <= w' ->
  temporal_collocation (fun c => c) oob ref other w mean_opts = Ok f -> temporal_collocation (fun c => c) oob ref other w' mean_opts = Ok f' ->
  findex f' = findex f /\ forall t r r' i, In (t, r) (frows f) -> In (t, r') (frows f') -> nth i r None <> None -> nth i r' None <> None.
Proof.
  intros S1 S2 C W E E'. rewrite tc_mean_correct in E by assumption. rewrite tc_mean_correct in E' by assumption. injection E as <-. injection E' as <-. unfold findex. cbn [frows].
  split; [rewrite !map_map; reflexivity|]. intros t r r' i I I' N. apply in_map_iff in I as (t1 & [= -> <-] & _). apply in_map_iff in I' as (t2 & [= -> <-] & _).
  set (h := fun v i => window_mean t v (series other i)) in *.
  destruct (Nat.ltb_spec i (List.length (fcols other))) as [L|L]; [|exfalso; apply N; apply nth_overflow; rewrite map_length, seq_length; exact L].
  assert (Q : forall v, nth i (map (h v) (seq 0 (List.length (fcols other)))) None = h v i).
  { intros v. rewrite (nth_indep _ None (h v 0%nat)) by (rewrite map_length, seq_length; exact L). rewrite map_nth, seq_nth by exact L. reflexivity. }
  change (nth i (map (h w') (seq 0 (List.length (fcols other)))) None <> None). change (nth i (map (h w) (seq 0 (List.length (fcols other)))) None <> None) in N. rewrite Q in *.
  unfold h, window_mean in *. rewrite nanmean_some in *. destruct N as (x & I). exists x.
  apply in_map_iff in I as ([s y] & [= ->] & I). apply in_map_iff. exists (s, Some x). split; [reflexivity|]. apply in_window. apply in_window in I as [I D]. split; [exact I|lia].
Qed.

(* ------------------------------------------------------------ validations *)
(* the same validation with another window of the default matcher, and with other data *)
Definition with_window {G V} (c : @config G V) store oob w : @config G V :=
  mkCfg (c_ds c) (c_ref c) (c_tref c) (c_sref c) (c_get c) (combinatory_matcher store oob w) (c_scale c) (c_calcs c) (c_mask c).
Definition with_data {G V} (c : @config G V) (get : G -> res df_dict) : @config G V :=
  mkCfg (c_ds c) (c_ref c) (c_tref c) (c_sref c) get (c_match c) (c_scale c) (c_calcs c) (c_mask c).
(* the data of a period, both ends included *)
Definition in_period (p : Z * Z) (dfs : df_dict) : df_dict := map (fun e => (fst e, period_slice p (snd e))) dfs.

Lemma observed_larger dfs tref w w' t x v : w <= w' -> observed dfs tref w t x v -> v <> None -> observed dfs tref w' t x v.
Proof.
  intros W (f & r & i & I & C & N & O) NV. exists f, r, i. split; [exact I|]. split; [exact C|]. split; [exact N|]. destruct (String.eqb (fst x) tref); [exact O|].
  apply (nearest_row_larger _ _ _ w); [exact W|exact O|]. exists v. split; [exact (nth_error_In _ _ N)|exact NV].
Qed.
Lemma compared_larger dfs tref w w' key t r : w <= w' -> compared dfs tref w key t r -> compared dfs tref w' key t r.
Proof.
  intros W (H & F & N). split; [exact H|]. split; [|exact N]. clear H. induction F as [|x v key r O F IH]; constructor.
  - apply (observed_larger _ _ w); [exact W|exact O|]. apply N. left. reflexivity.
  - apply IH. intros u I. apply N. right. exact I.
Qed.
Lemma slice_window p f t w : fst p + w <= t <= snd p - w -> window_obs t w (frows (period_slice p f)) = window_obs t w (frows f).
Proof.
  intros H. unfold window_obs, period_slice. cbn [frows]. induction (frows f) as [|o l IH]; [reflexivity|]. cbn [filter].
  destruct ((t - w <=? fst o) && (fst o <=? t + w)) eqn:E.
  - apply andb_true_iff in E as E'. rewrite !Z.leb_le in E'. replace ((fst p <=? fst o) && (fst o <=? snd p)) with true by (symmetry; apply andb_true_iff; rewrite !Z.leb_le; lia).
    cbn [filter]. rewrite E, IH. reflexivity.
  - destruct ((fst p <=? fst o) && (fst o <=? snd p)); cbn [filter]; rewrite ?E, IH; reflexivity.
Qed.
Lemma slice_find p f t : fst p <= t <= snd p -> find (fun o => fst o =? t) (frows (period_slice p f)) = find (fun o => fst o =? t) (frows f).
Proof.
  intros H. unfold period_slice. cbn [frows]. induction (frows f) as [|o l IH]; [reflexivity|]. cbn [filter find]. destruct (Z.eqb_spec (fst o) t) as [E|E].
  - replace ((fst p <=? fst o) && (fst o <=? snd p)) with true by (symmetry; apply andb_true_iff; rewrite !Z.leb_le; lia). cbn [find]. rewrite E, Z.eqb_refl. reflexivity.
  - destruct ((fst p <=? fst o) && (fst o <=? snd p)); cbn [find]; [|exact IH]. destruct (Z.eqb_spec (fst o) t); [contradiction|exact IH].
Qed.
Lemma in_period_in p dfs d f : In (d, f) (in_period p dfs) <-> exists f0, In (d, f0) dfs /\ f = period_slice p f0.
Proof.
  unfold in_period. rewrite in_map_iff. split.
  - intros ([d' f0] & [= -> <-] & I). exists f0. split; [exact I|reflexivity].
  - intros (f0 & I & ->). exists (d, f0). split; [reflexivity|exact I].
Qed.
Lemma observed_period p dfs tref w t x v : 0 <= w -> fst p + w <= t <= snd p - w -> observed (in_period p dfs) tref w t x v <-> observed dfs tref w t x v.
Proof.
  intros W H.
  assert (Q : forall f0 r, (if String.eqb (fst x) tref then first_row (period_slice p f0) t r else nearest_row (frows (period_slice p f0)) (List.length (fcols (period_slice p f0))) t w r)
    <-> (if String.eqb (fst x) tref then first_row f0 t r else nearest_row (frows f0) (List.length (fcols f0)) t w r)).
  { intros f0 r. destruct (String.eqb (fst x) tref).
    - unfold first_row. rewrite slice_find by lia. reflexivity.
    - rewrite <- (nearest_row_window (frows (period_slice p f0))), slice_window by exact H. apply nearest_row_window. }
  split.
  - intros (f & r & i & I & C & N & O). apply in_period_in in I as (f0 & I & ->). exists f0, r, i. split; [exact I|]. split; [exact C|]. split; [exact N|]. apply Q, O.
  - intros (f & r & i & I & C & N & O). exists (period_slice p f), r, i. split; [apply in_period_in; eauto|]. split; [exact C|]. split; [exact N|]. apply Q, O.
Qed.
Lemma has_time_period p dfs tref t : (exists ref, In (tref, ref) (in_period p dfs) /\ has_time ref t) <-> (exists ref, In (tref, ref) dfs /\ has_time ref t) /\ fst p <= t <= snd p.
Proof.
  split.
  - intros (ref & I & r & R). apply in_period_in in I as (f0 & I & ->). unfold period_slice in R. cbn [frows] in R. apply filter_In in R as [R P]. cbn [fst] in P.
    apply andb_true_iff in P. rewrite !Z.leb_le in P. split; [|lia]. exists f0. split; [exact I|]. exists r. exact R.
  - intros ((ref & I & r & R) & P). exists (period_slice p ref). split; [apply in_period_in; eauto|]. exists r. unfold period_slice. cbn [frows]. apply filter_In. split; [exact R|].
    cbn [fst]. apply andb_true_iff. rewrite !Z.leb_le. lia.
Qed.
Lemma compared_period p dfs tref w key t r : 0 <= w -> fst p + w <= t <= snd p - w -> compared (in_period p dfs) tref w key t r <-> compared dfs tref w key t r.
Proof.
  intros W H. unfold compared. rewrite has_time_period.
  assert (F : Forall2 (observed (in_period p dfs) tref w t) key r <-> Forall2 (observed dfs tref w t) key r).
  { split; intros X; induction X as [|x v key' r' O X IH]; constructor; try exact IH; apply (observed_period p dfs tref w t x v W H); exact O. }
  rewrite F. assert (fst p <= t <= snd p) by lia. tauto.
Qed.
Lemma delivered_period ds p dfs : delivered ds dfs -> delivered ds (in_period p dfs).
Proof.
  intros (N & D & U). assert (K : map fst (in_period p dfs) = map fst dfs) by (unfold in_period; rewrite map_map; reflexivity). split; [rewrite K; exact N|]. split; [intros d; rewrite K; apply D|].
  intros d f I. apply in_period_in in I as (f0 & I & ->). destruct (U d f0 I) as ((WF & M) & R). split; [|exact R]. split.
  - intros t r J. unfold period_slice in J. cbn [frows] in J. apply filter_In in J as [J _]. exact (WF t r J).
  - unfold period_slice, findex in *. cbn [frows fcols] in *. rewrite (dedup_filter fst (fun s => (fst p <=? s) && (s <=? snd p))).
    assert (MF : forall (R0 : Z -> Z -> Prop) (q : Z -> bool) (l : list (Z * row)), StronglySorted R0 (map fst l) -> StronglySorted R0 (map fst (filter (fun a => q (fst a)) l))).
    { intros R0 q l S. induction l as [|a l IH]; [constructor|]. cbn in *. inversion S as [|? ? S1 S2]; subst. destruct (q (fst a)); [|apply IH, S1]. cbn. constructor; [apply IH, S1|].
      apply Forall_forall. intros y J. apply in_map_iff in J as (b & <- & J). apply filter_In in J as [J _]. rewrite Forall_forall in S2. apply S2. apply in_map, J. }
    destruct M as [M|M]; [left|right]; apply (MF _ (fun s => (fst p <=? s) && (s <=? snd p))); exact M.
Qed.

Section Runs.
Context {G V : Type}.
Variable code : Z -> V.

(* With a larger window a validation compares all observations it compared before, with the same values. *)
Theorem C126_run_window (c : @config G V) F store oob w w' g dfs ignore rename only_ref n k f key :
  plain_run c F -> c_get c g = Ok dfs -> delivered (c_ds c) dfs -> reported c only_ref n k f key -> w <= w' ->
  exists rows rows', (forall t r, In (t, r) rows <-> compared dfs (c_tref c) w key t r) /\ incl rows rows' /\ (List.length rows <= List.length rows')%nat /\
    (forall m, gpi_metrics code (with_window c store oob w) ignore rename only_ref g key m -> outcome code f (if rename then numbered k else map fst key) key g rows m) /\
    (forall m, gpi_metrics code (with_window c store oob w') ignore rename only_ref g key m -> outcome code f (if rename then numbered k else map fst key) key g rows' m).
Proof.
  intros P GD D R W.
  destruct (C89_nearest_observations code (with_window c store oob w) F store oob w g dfs ignore rename only_ref n k f key P (fun _ _ _ => eq_refl) GD D R) as (rows & N & _ & C & O).
  destruct (C89_nearest_observations code (with_window c store oob w') F store oob w' g dfs ignore rename only_ref n k f key P (fun _ _ _ => eq_refl) GD D R) as (rows' & _ & _ & C' & O').
  assert (I : incl rows rows') by (intros [t r] J; apply C'; apply (compared_larger _ _ w); [exact W|apply C, J]).
  exists rows, rows'. split; [exact C|]. split; [exact I|]. split; [|split; assumption].
  apply (NoDup_incl_length (NoDup_map_inv _ _ N) I).
Qed.

(* If the data are restricted to a period, the same observations are compared, but for those within a window of its ends. *)
Theorem C126_run_period (c : @config G V) F store oob w p get g dfs ignore rename only_ref n k f key :
  plain_run c F -> (forall d r m, c_match c d r m = combinatory_matcher store oob w d r m) -> 0 <= w ->
  c_get c g = Ok dfs -> get g = Ok (in_period p dfs) -> delivered (c_ds c) dfs -> reported c only_ref n k f key ->
  exists rows rows', (forall t r, In (t, r) rows <-> compared dfs (c_tref c) w key t r) /\
    (forall t r, In (t, r) rows' -> fst p <= t <= snd p) /\
    (forall t r, fst p + w <= t <= snd p - w -> In (t, r) rows' <-> In (t, r) rows) /\
    (forall m, gpi_metrics code c ignore rename only_ref g key m -> outcome code f (if rename then numbered k else map fst key) key g rows m) /\
    (forall m, gpi_metrics code (with_data c get) ignore rename only_ref g key m -> outcome code f (if rename then numbered k else map fst key) key g rows' m).
Proof.
  intros P MT W GD GP D R.
  destruct (C89_nearest_observations code c F store oob w g dfs ignore rename only_ref n k f key P MT GD D R) as (rows & _ & _ & C & O).
  destruct (C89_nearest_observations code (with_data c get) F store oob w g (in_period p dfs) ignore rename only_ref n k f key P MT GP (delivered_period _ _ _ D) R) as (rows' & _ & _ & C' & O').
  exists rows, rows'. split; [exact C|]. split; [|split; [|split; assumption]].
  - intros t r I. apply C' in I as (H & _). apply has_time_period in H. apply H.
  - intros t r H. rewrite C, C'. apply compared_period; assumption.
Qed.
End Runs.

Print Assumptions C126_reference_times.
Print Assumptions C126_near_observations.
Print Assumptions C126_larger_window.
Print Assumptions C126_larger_window_mean.
Print Assumptions C126_run_window.
Print Assumptions C126_run_period.

(* ------------------------------------------------------------ an example and what fails *)
Section Example.
Open Scope string_scope.
Definition edge_dfs : df_dict :=
  [("a", mkFrame ["x"] [(10, [Some 1%Q]); (20, [Some 2%Q])]); ("b", mkFrame ["y"] [(9, [Some 5%Q]); (12, [Some 7%Q]); (20, [Some 3%Q])])].
Definition edge_cfg (w : Z) : @config nat Q :=
  mkCfg [("a", ["x"]); ("b", ["y"])] "a" "a" "a" (fun _ => Ok edge_dfs) (combinatory_matcher (fun c => c) 0 w) None [((2%nat, 2%nat), run_calc)] None.
(* the same number of observations, but another one is compared at time 10: the nearest one (at 9) lies before the period *)
Example edge_all : calc inject_Z (edge_cfg 3) true true false [0]%nat =
  VOk [([("a", "x"); ("b", "y")], [(FName "n", [2]%Q); (FName "sum", [11]%Q); (FName "status", [0]%Q)])].
Proof. vm_compute. reflexivity. Qed.
(* Restricting a validation to a period does not only leave out the observations outside it. *)
Theorem C126_period_refuted : exists (p : Z * Z) t r r',
  (forall ref s row, In ("a", ref) edge_dfs -> In (s, row) (frows ref) -> fst p <= s <= snd p) /\ fst p <= t <= snd p /\
  compared edge_dfs "a" 3 [("a", "x"); ("b", "y")] t r /\ compared (in_period p edge_dfs) "a" 3 [("a", "x"); ("b", "y")] t r' /\ r <> r' /\
  calc inject_Z (with_data (edge_cfg 3) (fun _ => Ok (in_period p edge_dfs))) true true false [0]%nat =
    VOk [([("a", "x"); ("b", "y")], [(FName "n", [2]%Q); (FName "sum", [13]%Q); (FName "status", [0]%Q)])].
Proof.
  exists (10, 20), 10, [Some 1%Q; Some 5%Q], [Some 1%Q; Some 7%Q]. split; [|split; [cbn; lia|split; [|split; [|split; [discriminate|vm_compute; reflexivity]]]]].
  - intros ref s row [E|[E|[]]] I; [|discriminate E]. injection E as <-. destruct I as [E|[E|[]]]; injection E as <- <-; cbn; lia.
  - split; [eexists; split; [left; reflexivity|exists [Some 1%Q]; left; reflexivity]|]. split; [|intros v [<-|[<-|[]]]; discriminate]. constructor; [|constructor; [|constructor]].
    + eexists _, _, 0%nat. split; [left; reflexivity|]. split; [reflexivity|]. split; [|reflexivity]. reflexivity.
    + eexists _, [Some 5%Q], 0%nat. split; [right; left; reflexivity|]. split; [reflexivity|]. split; [reflexivity|]. cbn [fst String.eqb].
      left. exists 9. split; [reflexivity|]. split; [cbn; lia|]. intros s' r' [E|[E|[E|[]]]]; injection E as <- <-; cbn; lia.
  - split; [eexists; split; [left; reflexivity|exists [Some 1%Q]; left; reflexivity]|]. split; [|intros v [<-|[<-|[]]]; discriminate]. constructor; [|constructor; [|constructor]].
    + eexists _, _, 0%nat. split; [left; reflexivity|]. split; [reflexivity|]. split; [|reflexivity]. reflexivity.
    + eexists _, [Some 7%Q], 0%nat. split; [right; left; reflexivity|]. split; [reflexivity|]. split; [reflexivity|]. cbn [fst String.eqb].
      left. exists 12. split; [reflexivity|]. split; [cbn; lia|]. intros s' r' [E|[E|[]]]; injection E as <- <-; cbn; lia.
Qed.
Print Assumptions C126_period_refuted.
(* the number of observations for windows of 0, 1 and 3 *)
Example C126_example : map (fun w => match calc inject_Z (edge_cfg w) true true false [0]%nat with VOk [(_, (_, n) :: _)] => n | _ => [] end) [0; 1; 3] = [[1]%Q; [2]%Q; [2]%Q].
Proof. vm_compute. reflexivity. Qed.
Example C126_collocation_example :
  plain [0; 10; 20] (mkFrame ["y"] [(1, [Some 5%Q]); (12, [Some 7%Q])]) nearest_opts /\ plain [0; 10; 20] (mkFrame ["y"] [(1, [Some 5%Q]); (12, [Some 7%Q])]) mean_opts /\
  monotone_times (findex (dedup_frame (mkFrame ["y"] [(1, [Some 5%Q]); (12, [Some 7%Q])]))).
Proof.
  split; [|split].
  - split; [reflexivity|]. left. reflexivity.
  - split; [reflexivity|]. right. split; [reflexivity|]. split; [|split; [|discriminate]]; repeat constructor; cbn; lia.
  - left. repeat constructor; cbn; lia.
Qed.
End Example.
