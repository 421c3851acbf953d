(* Proofs for C126: what is matched at a time depends on the observations near that time. *)
From Verif Require Import Base BaseProofs TemporalModel TemporalSpec TemporalProofs.

(* ------------------------------------------------------------ selections by time *)
Lemma dedup_aux_filter {A} (key : A -> Z) (p : Z -> bool) l : forall seen,
  dedup_aux key seen (filter (fun a => p (key a)) l) = filter (fun a => p (key a)) (dedup_aux key seen l).
Proof.
  assert (G : forall l s1 s2, (forall k, p k = true -> existsb (Z.eqb k) s1 = existsb (Z.eqb k) s2) ->
    dedup_aux key s1 (filter (fun a => p (key a)) l) = filter (fun a => p (key a)) (dedup_aux key s2 l)).
  { clear l. induction l as [|a l IH]; intros s1 s2 H; [reflexivity|]. cbn [filter dedup_aux]. destruct (p (key a)) eqn:P.
    - cbn [dedup_aux]. rewrite (H _ P). destruct (existsb (Z.eqb (key a)) s2); [apply IH, H|]. cbn [filter]. rewrite P. f_equal. apply IH.
      intros k K. cbn [existsb]. rewrite (H _ K). reflexivity.
    - destruct (existsb (Z.eqb (key a)) s2); [apply IH, H|]. cbn [filter]. rewrite P. apply IH.
      intros k K. cbn [existsb]. rewrite (H _ K). destruct (Z.eqb_spec k (key a)) as [E|E]; [congruence|reflexivity]. }
  intros seen. apply G. reflexivity.
Qed.
Lemma dedup_filter {A} (key : A -> Z) (p : Z -> bool) l : dedup_first key (filter (fun a => p (key a)) l) = filter (fun a => p (key a)) (dedup_first key l).
Proof. apply dedup_aux_filter. Qed.
Lemma filter_map_pair {B} (p : Z -> bool) (g : Z -> B) l : filter (fun tr => p (fst tr)) (map (fun t => (t, g t)) l) = map (fun t => (t, g t)) (filter p l).
Proof. induction l as [|a l IH]; [reflexivity|]. cbn. destruct (p a); cbn; rewrite IH; reflexivity. Qed.
Lemma filter_swap {A} (p q : A -> bool) l : filter p (filter q l) = filter q (filter p l).
Proof. induction l as [|a l IH]; [reflexivity|]. cbn. destruct (p a) eqn:P, (q a) eqn:Q; cbn; rewrite ?P, ?Q, IH; reflexivity. Qed.
Lemma chronological_filter p l : chronological l -> chronological (filter p l).
Proof.
  intros S. induction S as [|a l S IH F]; [constructor|]. cbn. destruct (p a); [|exact IH]. constructor; [exact IH|].
  apply Forall_forall. intros x I. apply filter_In in I as [I _]. rewrite Forall_forall in F. exact (F x I).
Qed.

(* ------------------------------------------------------------ the nearest observation *)
Lemma nearest_pos_tol inc times w w' t : w <= w' ->
  nearest_pos inc times w t = -1 \/ nearest_pos inc times w t = nearest_pos inc times w' t.
Proof.
  intros H. unfold nearest_pos. destruct times as [|x r]; [left; reflexivity|]. cbv zeta.
  match goal with |- context [Z.abs (at_pos _ ?i - t) <=? w] => set (j := i) end.
  destruct (Z.leb_spec (Z.abs (at_pos (x :: r) j - t)) w) as [L|L]; [|left; reflexivity].
  destruct (Z.leb_spec (Z.abs (at_pos (x :: r) j - t)) w'); [right; reflexivity|lia].
Qed.

(* the row is determined by the observations *)
Lemma nearest_row_unique obs n t w r r' : nearest_row obs n t w r -> nearest_row obs n t w r' -> r = r'.
Proof.
  intros [(s & F & D & B)|[E B]] [(s' & F' & D' & B')|[E' B']].
  - assert (s = s'). { pose proof (find_some _ _ F) as [I _]. pose proof (find_some _ _ F') as [I' _]. specialize (B _ _ I'). specialize (B' _ _ I). lia. }
    subst s'. congruence.
  - exfalso. pose proof (find_some _ _ F) as [I _]. specialize (B' _ _ I). lia.
  - exfalso. pose proof (find_some _ _ F') as [I _]. specialize (B _ _ I). lia.
  - congruence.
Qed.
Lemma find_window {A} (obs : list (Z * A)) t w s : Z.abs (s - t) <= w -> find (fun o => fst o =? s) (window_obs t w obs) = find (fun o => fst o =? s) obs.
Proof.
  intros H. unfold window_obs. induction obs as [|o obs IH]; [reflexivity|]. cbn [filter find]. destruct (Z.eqb_spec (fst o) s) as [E|E].
  - replace ((t - w <=? fst o) && (fst o <=? t + w)) with true by (symmetry; apply andb_true_iff; split; apply Z.leb_le; lia). cbn [find]. rewrite E, Z.eqb_refl. reflexivity.
  - destruct ((t - w <=? fst o) && (fst o <=? t + w)); cbn [find]; [|exact IH]. destruct (Z.eqb_spec (fst o) s); [contradiction|exact IH].
Qed.
Lemma in_window {A} (obs : list (Z * A)) t w s a : In (s, a) (window_obs t w obs) <-> In (s, a) obs /\ Z.abs (s - t) <= w.
Proof. unfold window_obs. rewrite filter_In. cbn [fst]. rewrite andb_true_iff, !Z.leb_le. intuition lia. Qed.
Lemma nearest_row_window obs n t w r : nearest_row (window_obs t w obs) n t w r <-> nearest_row obs n t w r.
Proof.
  split; (intros [(s & F & D & B)|[E B]]; [left; exists s|right; split; [exact E|]]).
  - rewrite find_window in F by exact D. split; [exact F|]. split; [exact D|]. intros s' r' I.
    destruct (Z_le_gt_dec (Z.abs (s' - t)) w) as [L|L]; [|left; lia]. apply (B s' r'). apply in_window. tauto.
  - intros s' r' I. destruct (Z_le_gt_dec (Z.abs (s' - t)) w) as [L|L]; [|lia]. apply (B s' r'). apply in_window. tauto.
  - rewrite find_window by exact D. split; [exact F|]. split; [exact D|]. intros s' r' I. apply in_window in I as [I _]. exact (B s' r' I).
  - intros s' r' I. apply in_window in I as [I _]. exact (B s' r' I).
Qed.
(* a larger window keeps it *)
Lemma nearest_row_larger obs n t w w' r : w <= w' -> nearest_row obs n t w r -> (exists c, In c r /\ c <> None) -> nearest_row obs n t w' r.
Proof.
  intros H [(s & F & D & B)|[E B]] (c & I & N).
  - left. exists s. split; [exact F|]. split; [lia|exact B].
  - subst r. apply repeat_spec in I. contradiction.
Qed.

(* ------------------------------------------------------------ windows of frames *)
Definition near (t w : Z) (f f' : frame) : Prop := window_obs t w (frows f) = window_obs t w (frows f').
Lemma window_map {A B} (h : Z -> A -> B) t w (l : list (Z * A)) :
  window_obs t w (map (fun o => (fst o, h (fst o) (snd o))) l) = map (fun o => (fst o, h (fst o) (snd o))) (window_obs t w l).
Proof. unfold window_obs. induction l as [|o l IH]; [reflexivity|]. cbn. destruct ((t - w <=? fst o) && (fst o <=? t + w)); cbn; rewrite IH; reflexivity. Qed.
Lemma near_dedup t w f f' : near t w f f' -> near t w (dedup_frame f) (dedup_frame f').
Proof.
  unfold near, dedup_frame. cbn [frows]. unfold window_obs. intros H.
  rewrite <- !(dedup_filter fst (fun s => (t - w <=? s) && (s <=? t + w))). rewrite H. reflexivity.
Qed.
Lemma near_index ri rd t w f f' : near t w f f' -> near t w (add_index_cols ri rd f) (add_index_cols ri rd f').
Proof.
  unfold near, add_index_cols. intros H. destruct (ri || rd); [|exact H]. cbn [frows].
  rewrite !(window_map (fun s (r : row) => r ++ [Some (inject_Z s)] ++ (if rd then [Some 0%Q] else []))). rewrite H. reflexivity.
Qed.
Lemma near_series t w f f' i : near t w f f' -> window_obs t w (series f i) = window_obs t w (series f' i).
Proof. unfold near, series. intros H. rewrite !(window_map (fun _ (r : row) => nth i r None)). rewrite H. reflexivity. Qed.
Lemma index_monotone ri rd f : findex (add_index_cols ri rd f) = findex f.
Proof. unfold add_index_cols, findex. destruct (ri || rd); [|reflexivity]. cbn [frows]. rewrite map_map. apply map_ext. reflexivity. Qed.
Lemma index_columns ri rd f f' : fcols f = fcols f' -> fcols (add_index_cols ri rd f) = fcols (add_index_cols ri rd f').
Proof. unfold add_index_cols. intros H. destruct (ri || rd); [cbn [fcols]; rewrite H; reflexivity|exact H]. Qed.
Lemma reindex_near f f' targets w : monotone_times (findex f) -> monotone_times (findex f') -> fcols f = fcols f' -> (forall t, In t targets -> near t w f f') ->
  reindex_nearest f targets w = reindex_nearest f' targets w.
Proof.
  intros M M' C N. destruct (reindex_nearest_rows f targets w M) as (g & E & G). destruct (reindex_nearest_rows f' targets w M') as (g' & E' & G').
  rewrite E, E', C. f_equal. f_equal. apply map_ext_in. intros t I. f_equal. apply (nearest_row_unique (frows f) (List.length (fcols f)) t w); [apply G|].
  apply nearest_row_window. unfold near in N. rewrite (N t I), C. apply nearest_row_window. apply G'.
Qed.
