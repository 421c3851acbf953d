(* Collocation on another time axis: times k * t + s with k > 0, windows k * w. *)
From Verif Require Import BaseProofs TemporalModel.
Open Scope Z_scope.

Section Shift.
Variables k s : Z.
Hypothesis K : 0 < k.
Definition f (t : Z) : Z := k * t + s.
Lemma f_le x y : (f x <=? f y) = (x <=? y).
Proof. unfold f. apply eq_true_iff_eq. rewrite !Z.leb_le. nia. Qed.
Lemma f_lt x y : (f x <? f y) = (x <? y).
Proof. unfold f. apply eq_true_iff_eq. rewrite !Z.ltb_lt. nia. Qed.
Lemma f_eqb x y : (f x =? f y) = (x =? y).
Proof. unfold f. apply eq_true_iff_eq. rewrite !Z.eqb_eq. nia. Qed.
Lemma f_sub t w : f t - k * w = f (t - w).
Proof. unfold f. ring. Qed.
Lemma f_add t w : f t + k * w = f (t + w).
Proof. unfold f. ring. Qed.
Lemma f_dist x y : Z.abs (f x - f y) = k * Z.abs (x - y).
Proof. unfold f. replace (k * x + s - (k * y + s)) with (k * (x - y)) by ring. rewrite Z.abs_mul, (Z.abs_eq k); lia. Qed.
Definition fr (g : frame) : frame := mkFrame (fcols g) (map (fun p => (f (fst p), snd p)) (frows g)).
Lemma findex_fr g : findex (fr g) = map f (findex g).
Proof. unfold findex, fr. cbn [frows]. rewrite !map_map. reflexivity. Qed.
Lemma skipn_map {A B} (h : A -> B) n : forall l, skipn n (map h l) = map h (skipn n l).
Proof. induction n; intros [|x l]; cbn; auto. Qed.

(* mean *)
Lemma adv_lower_f lo l : forall j, adv_lower (f lo) (map f l) j = adv_lower lo l j.
Proof. induction l as [|x l IH]; intros j; cbn [map adv_lower]; [reflexivity|]. rewrite f_le, IH. reflexivity. Qed.
Lemma adv_upper_f hi l : forall j u, adv_upper (f hi) (map f l) j u = adv_upper hi l j u.
Proof. induction l as [|x l IH]; intros j u; cbn [map adv_upper]; [reflexivity|]. rewrite f_lt, IH. reflexivity. Qed.
Lemma last_f l d d' : l <> [] -> last (map f l) d' = f (last l d).
Proof. induction l as [|x l IH]; intros N; [contradiction|]. destruct l as [|y l]; [reflexivity|]. cbn [map last] in *. apply IH. discriminate. Qed.
Lemma rm_loop_nil oob half targets : forall st, rm_loop oob [] [] half st targets = map (fun _ => None) targets.
Proof.
  induction targets as [|t r IH]; intros st; cbn [rm_loop map]; [reflexivity|]. destruct (rm_step oob [] [] half st t) as [st' o] eqn:E. rewrite IH. f_equal.
  unfold rm_step in E. destruct st as [lo up]. injection E as _ <-. rewrite !skipn_nil, !firstn_nil. destruct (_ =? 0); reflexivity.
Qed.
Lemma rm_loop_f oob oob' times values half targets : times <> [] -> forall st,
  rm_loop oob' (map f times) values (k * half) st (map f targets) = rm_loop oob times values half st targets.
Proof.
  intros N. induction targets as [|t r IH]; intros st; cbn [map rm_loop]; [reflexivity|].
  assert (E : rm_step oob' (map f times) values (k * half) st (f t) = rm_step oob times values half st t).
  { unfold rm_step. destruct st as [lo up]. unfold rm_last. rewrite f_sub, f_add, !skipn_map, adv_lower_f, adv_upper_f, (last_f times oob oob' N), f_lt, map_length. reflexivity. }
  rewrite E. destruct (rm_step oob times values half st t) as [st' o]. rewrite IH. reflexivity.
Qed.
Lemma resample_f oob oob' times values targets half :
  resample_mean oob' (map f times) values (map f targets) (k * half) = resample_mean oob times values targets half.
Proof.
  unfold resample_mean. rewrite map_length. destruct (Nat.eqb _ _) eqn:E; [|reflexivity]. f_equal. destruct times as [|t times]; [|apply rm_loop_f; discriminate].
  apply Nat.eqb_eq in E. destruct values; [|discriminate E]. cbn [map]. rewrite !rm_loop_nil, map_map. reflexivity.
Qed.

(* nearest *)
Lemma increasing_f l : increasing (map f l) = increasing l.
Proof. induction l as [|x l IH]; [reflexivity|]. cbn [map increasing]. destruct l as [|y l]; [reflexivity|]. cbn [map] in *. rewrite f_le, IH. reflexivity. Qed.
Lemma decreasing_f l : decreasing (map f l) = decreasing l.
Proof. induction l as [|x l IH]; [reflexivity|]. cbn [map decreasing]. destruct l as [|y l]; [reflexivity|]. cbn [map] in *. rewrite f_le, IH. reflexivity. Qed.
Lemma countb_f p q l : (forall x, q (f x) = p x) -> countb q (map f l) = countb p l.
Proof. intros H. unfold countb. induction l as [|x l IH]; cbn; [reflexivity|]. rewrite H. destruct (p x); cbn; rewrite IH; reflexivity. Qed.
Lemma pad_f inc l t : pad_pos inc (map f l) (f t) = pad_pos inc l t.
Proof. unfold pad_pos. rewrite (countb_f (fun s => if inc then s <=? t else t <=? s)); [reflexivity|]. intros x. destruct inc; apply f_le. Qed.
Lemma backfill_f inc l t : backfill_pos inc (map f l) (f t) = backfill_pos inc l t.
Proof. unfold backfill_pos. rewrite (countb_f (fun s => if inc then s <? t else t <? s)), map_length; [reflexivity|]. intros x. destruct inc; apply f_lt. Qed.
Lemma countb_le p (l : list Z) : (countb p l <= List.length l)%nat.
Proof. unfold countb. induction l as [|x l IH]; cbn; [lia|]. destruct (p x); cbn; lia. Qed.
Lemma at_f l i : l <> [] -> -1 <= i < Z.of_nat (List.length l) -> at_pos (map f l) i = f (at_pos l i).
Proof.
  intros N R. unfold at_pos. destruct (i =? -1) eqn:E; [apply last_f, N|]. apply Z.eqb_neq in E. rewrite (nth_indep _ 0 (f 0)) by (rewrite map_length; lia). apply map_nth.
Qed.
Lemma nearest_f inc l tol t : nearest_pos inc (map f l) (k * tol) (f t) = nearest_pos inc l tol t.
Proof.
  destruct l as [|x l]; [reflexivity|]. set (m := x :: l). assert (N : m <> []) by discriminate. unfold nearest_pos.
  change (map f m) with (f x :: map f l). cbn [m]. change (f x :: map f l) with (map f m). change (x :: l) with m. cbv zeta. rewrite pad_f, backfill_f.
  assert (P : -1 <= pad_pos inc m t < Z.of_nat (List.length m)) by (unfold pad_pos; pose proof (countb_le (fun s => if inc then s <=? t else t <=? s) m); lia).
  assert (B : -1 <= backfill_pos inc m t < Z.of_nat (List.length m)).
  { unfold backfill_pos. pose proof (countb_le (fun s => if inc then s <? t else t <? s) m). destruct (Nat.eqb _ _) eqn:E; [cbn; lia|]. apply Nat.eqb_neq in E. lia. }
  rewrite (at_f m _ N P), (at_f m _ N B), !f_dist.
  assert (C : (if inc then k * Z.abs (at_pos m (pad_pos inc m t) - t) <? k * Z.abs (at_pos m (backfill_pos inc m t) - t) else k * Z.abs (at_pos m (pad_pos inc m t) - t) <=? k * Z.abs (at_pos m (backfill_pos inc m t) - t)) =
              (if inc then Z.abs (at_pos m (pad_pos inc m t) - t) <? Z.abs (at_pos m (backfill_pos inc m t) - t) else Z.abs (at_pos m (pad_pos inc m t) - t) <=? Z.abs (at_pos m (backfill_pos inc m t) - t))).
  { destruct inc; apply eq_true_iff_eq; rewrite ?Z.ltb_lt, ?Z.leb_le; nia. }
  rewrite C. set (i := if _ || _ then _ else _).
  assert (I1 : -1 <= i < Z.of_nat (List.length m)) by (unfold i; destruct (_ || _); assumption).
  rewrite (at_f m i N I1), f_dist. replace (k * Z.abs (at_pos m i - t) <=? k * tol) with (Z.abs (at_pos m i - t) <=? tol); [reflexivity|]. apply eq_true_iff_eq. rewrite !Z.leb_le. nia.
Qed.
Lemma take_f n rows i : take_row n (map (fun p => (f (fst p), snd p)) rows) i = take_row n rows i.
Proof. unfold take_row. destruct (i =? -1); [reflexivity|]. rewrite nth_error_map. destruct (nth_error rows (Z.to_nat i)) as [[t r]|]; reflexivity. Qed.
Lemma reindex_f g targets tol : reindex_nearest (fr g) (map f targets) (k * tol) = mapR fr (reindex_nearest g targets tol).
Proof.
  unfold reindex_nearest. cbv zeta. rewrite findex_fr, increasing_f, decreasing_f. destruct targets as [|t r]; [reflexivity|]. change (map f (t :: r)) with (f t :: map f r).
  change (fcols (fr g)) with (fcols g). change (ncols (fr g)) with (ncols g). cbn iota. change (f t :: map f r) with (map f (t :: r)).
  destruct (_ || _); [|reflexivity]. cbn [mapR]. f_equal. unfold fr at 2. cbn [fcols frows]. f_equal. rewrite !map_map. apply map_ext. intros u. cbn [fst snd]. rewrite nearest_f. change (frows (fr g)) with (map (fun p => (f (fst p), snd p)) (frows g)). rewrite take_f. reflexivity.
Qed.

(* the rest of a collocation *)
Lemma mask_select_map {A B} (h : A -> B) m : forall l, mask_select m (map h l) = map h (mask_select m l).
Proof. induction m as [|b m IH]; intros [|x l]; cbn; try reflexivity. destruct b; cbn; rewrite IH; reflexivity. Qed.
Lemma bool_index_f m g : bool_index m (fr g) = mapR fr (bool_index m g).
Proof. unfold bool_index. cbn [fr frows fcols]. rewrite map_length. destruct (Nat.eqb _ _); [|reflexivity]. cbn [mapR]. unfold fr. cbn [frows fcols]. rewrite mask_select_map. reflexivity. Qed.
Lemma combine_first_f a b : combine_first (fr a) (fr b) = fr (combine_first a b).
Proof.
  unfold combine_first, fr. cbn [frows fcols]. f_equal. generalize (frows a), (frows b). intros l. induction l as [|x l IH]; intros [|y m]; cbn; try reflexivity. rewrite IH. reflexivity.
Qed.
Lemma filter_map {A B} (h : A -> B) p q l : (forall x, q (h x) = p x) -> filter q (map h l) = map h (filter p l).
Proof. intros H. induction l as [|x l IH]; cbn; [reflexivity|]. rewrite H. destruct (p x); cbn; rewrite IH; reflexivity. Qed.
Lemma dropna_all_f g : dropna_all (fr g) = fr (dropna_all g).
Proof. unfold dropna_all, fr. cbn [frows fcols]. f_equal. apply filter_map. reflexivity. Qed.
Lemma dropna_any_f g : dropna_any (fr g) = fr (dropna_any g).
Proof. unfold dropna_any, fr. cbn [frows fcols]. f_equal. apply filter_map. reflexivity. Qed.
Lemma existsb_f x l : existsb (Z.eqb (f x)) (map f l) = existsb (Z.eqb x) l.
Proof. induction l as [|y l IH]; cbn; [reflexivity|]. rewrite f_eqb, IH. reflexivity. Qed.
Lemma dedup_aux_f {A} (h : A -> A) (key : A -> Z) : (forall x, key (h x) = f (key x)) -> forall l seen, dedup_aux key (map f seen) (map h l) = map h (dedup_aux key seen l).
Proof.
  intros H. induction l as [|x l IH]; intros seen; cbn [map dedup_aux]; [reflexivity|]. rewrite H, existsb_f. destruct (existsb _ seen); [apply IH|]. cbn [map]. f_equal. apply (IH (key x :: seen)).
Qed.
Lemma dedup_rows_f l : dedup_first fst (map (fun p : Z * row => (f (fst p), snd p)) l) = map (fun p => (f (fst p), snd p)) (dedup_first fst l).
Proof. apply (dedup_aux_f (fun p : Z * row => (f (fst p), snd p)) fst (fun x => eq_refl) l []). Qed.
Lemma dedup_times_f l : dedup_first (fun t => t) (map f l) = map f (dedup_first (fun t => t) l).
Proof. apply (dedup_aux_f f (fun t => t) (fun x => eq_refl) l []). Qed.
Lemma col_values_f g i : col_values (fr g) i = col_values g i.
Proof. unfold col_values, fr. cbn [frows]. rewrite map_map. reflexivity. Qed.
Lemma eval_flag_f fl g n : eval_flag fl (fr g) n = eval_flag fl g n.
Proof. destruct fl as [|l|c]; try reflexivity. cbn [eval_flag]. change (fcols (fr g)) with (fcols g). destruct (col_pos c (fcols g)); [|reflexivity]. rewrite col_values_f. reflexivity. Qed.
Lemma rows_of_f index columns : rows_of_columns (map f index) columns = map (fun p => (f (fst p), snd p)) (rows_of_columns index columns).
Proof.
  unfold rows_of_columns. rewrite map_length, map_map. apply map_ext_in. intros i I1. apply in_seq in I1. cbn [fst snd]. f_equal. rewrite (nth_indep _ 0 (f 0)) by (rewrite map_length; lia). apply map_nth.
Qed.
Lemma mapR_id {A} (x : res A) : mapR (fun v => v) x = x.
Proof. destruct x; reflexivity. Qed.
Variables oob oob' : Z.
Variable store : cell -> cell.
Lemma collocate_mean_f ref other w fl ui : collocate_mean store oob' (map f ref) (fr other) (k * w) fl ui = mapR fr (collocate_mean store oob ref other w fl ui).
Proof.
  unfold collocate_mean. cbv zeta. rewrite findex_fr, !map_length. change (ncols (fr other)) with (ncols other). change (fcols (fr other)) with (fcols other). rewrite !map_map.
  destruct (Nat.eqb (ncols other) 0); [reflexivity|]. set (m := if _ || _ then _ else _). destruct (Nat.eqb _ _); [|reflexivity].
  assert (E : forall i, mapR (map store) (resample_mean oob' (map f (findex other)) (mask_select m (col_values (fr other) i)) (map f ref) (k * w)) =
                        mapR (map store) (resample_mean oob (findex other) (mask_select m (col_values other i)) ref w)) by (intros i; rewrite (resample_f oob), col_values_f; reflexivity).
  rewrite (map_ext _ _ E). destruct (seqR _); [|reflexivity]. cbn [mapR]. unfold fr. cbn [fcols frows]. rewrite rows_of_f. reflexivity.
Qed.
Lemma bind_map {A B C} (h : A -> B) (x : res A) (g : B -> res C) : bindR (mapR h x) g = bindR x (fun v => g (h v)).
Proof. destruct x; reflexivity. Qed.
Lemma map_bind {A B C} (h : B -> C) (x : res A) (g : A -> res B) : mapR h (bindR x g) = bindR x (fun v => mapR h (g v)).
Proof. destruct x; reflexivity. Qed.
Lemma bind_ext {A B} (x : res A) (g h : A -> res B) : (forall v, g v = h v) -> bindR x g = bindR x h.
Proof. intros E. destruct x; cbn; auto. Qed.
Lemma collocate_nearest_f ref other w fl ui : collocate_nearest (map f ref) (fr other) (k * w) fl ui false false = mapR fr (collocate_nearest ref other w fl ui false false).
Proof.
  unfold collocate_nearest. cbv zeta. change (add_index_cols false false (fr other)) with (fr other). change (add_index_cols false false other) with other.
  change (set_distance false) with (fun v : frame => v). rewrite !mapR_id.
  destruct fl as [l|]; [|apply reindex_f]. destruct (has_invalid (Some l)); [|apply reindex_f].
  rewrite bool_index_f, bind_map, map_bind. apply bind_ext. intros v. rewrite reindex_f, bind_map, map_bind. apply bind_ext. intros c. destruct ui; [|reflexivity].
  rewrite bool_index_f, bind_map, map_bind. apply bind_ext. intros v2. rewrite reindex_f, bind_map, map_bind. apply bind_ext. intros c2. cbn [mapR]. rewrite combine_first_f. reflexivity.
Qed.
Lemma collocation_f ref other w o : o_return_index o = false -> o_return_distance o = false ->
  temporal_collocation store oob' (map f ref) (fr other) (k * w) o = mapR fr (temporal_collocation store oob ref other w o).
Proof.
  intros RI RD. unfold temporal_collocation. cbv zeta. rewrite eval_flag_f, map_length, map_bind. apply bind_ext. intros fl. rewrite RI, RD.
  set (dd := match o_method o with MNearest => true | _ => _ end).
  assert (E1 : (if dd then mkFrame (fcols (fr other)) (dedup_first fst (frows (fr other))) else fr other) = fr (if dd then mkFrame (fcols other) (dedup_first fst (frows other)) else other)).
  { destruct dd; [|reflexivity]. unfold fr. cbn [fcols frows]. rewrite dedup_rows_f. reflexivity. }
  assert (E2 : (if dd then dedup_first (fun t => t) (map f ref) else map f ref) = map f (if dd then dedup_first (fun t => t) ref else ref)).
  { destruct dd; [apply dedup_times_f|reflexivity]. }
  rewrite E1, E2. clear E1 E2. generalize (if dd then mkFrame (fcols other) (dedup_first fst (frows other)) else other), (if dd then dedup_first (fun t => t) ref else ref). intros g r.
  assert (D : forall x, mapR (fun h => if o_dropna o then dropna_all h else h) (mapR fr x) = mapR fr (mapR (fun h => if o_dropna o then dropna_all h else h) x)).
  { intros [x|]; [|reflexivity]. cbn [mapR]. f_equal. destruct (o_dropna o); [apply dropna_all_f|reflexivity]. }
  destruct (o_method o); [rewrite collocate_nearest_f|rewrite collocate_mean_f|]; try apply D. reflexivity.
Qed.

(* several series *)
Lemma seqR_f {A B} (h : A -> B) l : seqR (map (mapR h) l) = mapR (map h) (seqR l).
Proof. induction l as [|x l IH]; cbn [map seqR]; [reflexivity|]. destruct x; [|reflexivity]. cbn [mapR bindR]. rewrite IH. destruct (seqR l); reflexivity. Qed.
Lemma list_eqb_f a : forall b, list_eqb_z (map f a) (map f b) = list_eqb_z a b.
Proof. induction a as [|x a IH]; intros [|y b]; cbn; try reflexivity. rewrite f_eqb, IH. reflexivity. Qed.
Lemma nodupb_f l : nodupb_z (map f l) = nodupb_z l.
Proof. induction l as [|x l IH]; cbn; [reflexivity|]. rewrite existsb_f, IH. reflexivity. Qed.
Lemma insert_z_f x l : insert_z (f x) (map f l) = map f (insert_z x l).
Proof. induction l as [|y l IH]; cbn; [reflexivity|]. rewrite f_eqb, f_lt, IH. destruct (x =? y); [reflexivity|]. destruct (x <? y); reflexivity. Qed.
Lemma sort_union_f l : sort_union (map f l) = map f (sort_union l).
Proof. induction l as [|x l IH]; cbn; [reflexivity|]. fold (sort_union l). change (fold_right insert_z [] (map f l)) with (sort_union (map f l)). rewrite IH. apply insert_z_f. Qed.
Lemma lookup_f g t : lookup_row (fr g) (f t) = lookup_row g t.
Proof.
  unfold lookup_row. change (ncols (fr g)) with (ncols g). cbn [fr frows]. generalize (frows g). intros l. induction l as [|[u r] l IH]; cbn; [reflexivity|]. rewrite f_eqb. destruct (u =? t); [reflexivity|exact IH].
Qed.
Lemma flat_map_map {A B C} (h : A -> B) (g : B -> list C) l : flat_map g (map h l) = flat_map (fun x => g (h x)) l.
Proof. induction l; cbn; congruence. Qed.
Lemma concat_f dfs : concat_axis1 (map fr dfs) = mapR fr (concat_axis1 dfs).
Proof.
  destruct dfs as [|g0 rest]; [reflexivity|]. unfold concat_axis1. change (map fr (g0 :: rest)) with (fr g0 :: map fr rest). cbn iota. cbv zeta. change (fr g0 :: map fr rest) with (map fr (g0 :: rest)).
  assert (E1 : forallb (fun h => list_eqb_z (findex h) (findex (fr g0))) (map fr rest) = forallb (fun h => list_eqb_z (findex h) (findex g0)) rest).
  { rewrite findex_fr. induction rest as [|h rest IH]; cbn [map forallb]; [reflexivity|]. rewrite findex_fr, list_eqb_f, IH. reflexivity. }
  assert (E2 : forallb (fun h => nodupb_z (findex h)) (map fr (g0 :: rest)) = forallb (fun h => nodupb_z (findex h)) (g0 :: rest)).
  { generalize (g0 :: rest). intros l. induction l as [|h l IH]; cbn [map forallb]; [reflexivity|]. rewrite findex_fr, nodupb_f, IH. reflexivity. }
  assert (E3 : flat_map fcols (map fr (g0 :: rest)) = flat_map fcols (g0 :: rest)) by (rewrite flat_map_map; reflexivity).
  rewrite E1, E2, E3. destruct (forallb _ rest).
  - cbn [mapR]. match goal with |- Ok _ = Ok (fr (mkFrame ?c ?r)) => change (fr (mkFrame c r)) with (mkFrame c (map (fun p => (f (fst p), snd p)) r)) end. f_equal. f_equal. rewrite map_map. change (frows (fr g0)) with (map (fun p => (f (fst p), snd p)) (frows g0)). rewrite map_length. apply map_ext_in. intros i I1. apply in_seq in I1. cbn [fst snd].
    f_equal.
    + rewrite findex_fr. assert (L : List.length (findex g0) = List.length (frows g0)) by (unfold findex; apply map_length). rewrite (nth_indep _ 0 (f 0)) by (rewrite map_length; lia). apply map_nth.
    + rewrite flat_map_map. apply flat_map_ext. intros h. cbn [fr frows]. rewrite map_map. reflexivity.
  - destruct (forallb _ (g0 :: rest)); [|reflexivity]. cbn [mapR]. match goal with |- Ok _ = Ok (fr (mkFrame ?c ?r)) => change (fr (mkFrame c r)) with (mkFrame c (map (fun p => (f (fst p), snd p)) r)) end. f_equal. f_equal.
    assert (E4 : flat_map findex (map fr (g0 :: rest)) = map f (flat_map findex (g0 :: rest))).
    { generalize (g0 :: rest). intros l. induction l as [|h l IH]; cbn [map flat_map]; [reflexivity|]. rewrite findex_fr, IH, map_app. reflexivity. }
    rewrite E4, sort_union_f, !map_map. apply map_ext. intros t. cbn [fst snd]. f_equal. rewrite flat_map_map. apply flat_map_ext. intros h. apply lookup_f.
Qed.
Lemma combined_f reference others w o cd ad :
  combined_temporal_collocation store oob' (fr reference) (map fr others) (k * w) o cd ad = mapR fr (combined_temporal_collocation store oob reference others w o cd ad).
Proof.
  unfold combined_temporal_collocation. cbv zeta. rewrite findex_fr, map_map.
  set (o' := mkOpts _ _ _ _ _ _ _).
  assert (E : forall g, temporal_collocation store oob' (map f (findex reference)) (fr g) (k * w) o' = mapR fr (temporal_collocation store oob (findex reference) g w o')) by (intros g; apply collocation_f; reflexivity).
  rewrite (map_ext _ _ E). rewrite <- (map_map (fun g => temporal_collocation store oob (findex reference) g w o') (mapR fr)), seqR_f, bind_map, map_bind. apply bind_ext. intros dfs.
  assert (E2 : (if ad then (if o_dropduplicates o then mkFrame (fcols (fr reference)) (dedup_first fst (frows (fr reference))) else fr reference) :: map fr dfs else map fr dfs) =
               map fr (if ad then (if o_dropduplicates o then mkFrame (fcols reference) (dedup_first fst (frows reference)) else reference) :: dfs else dfs)).
  { destruct ad; [|reflexivity]. cbn [map]. f_equal. destruct (o_dropduplicates o); [|reflexivity]. unfold fr. cbn [fcols frows]. rewrite dedup_rows_f. reflexivity. }
  rewrite E2, concat_f. destruct (concat_axis1 _) as [m|]; [|reflexivity]. cbn [mapR]. f_equal. destruct cd; [reflexivity| | |]; first [apply dropna_any_f|apply dropna_all_f].
Qed.
End Shift.
