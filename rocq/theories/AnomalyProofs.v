From Verif Require Import Base BaseProofs Calendar FiltersModel FiltersSpec FiltersProofs AnomalyModel AnomalySpec.
From Coq Require Import ZifyBool ZifyNat Lqa.
Ltac Zify.zify_post_hook ::= Z.div_mod_to_equations.

Lemma zrange_length a n : List.length (zrange a n) = n.
Proof. unfold zrange. rewrite map_length, seq_length. reflexivity. Qed.

Lemma zrange_nth a n k : (k < n)%nat -> nth_error (zrange a n) k = Some (a + Z.of_nat k).
Proof.
  intros H. unfold zrange. rewrite nth_error_map.
  rewrite (nth_error_nth' _ 0%nat) by (rewrite seq_length; exact H). rewrite seq_nth by exact H. reflexivity.
Qed.

Lemma zrange_cons a n : zrange a (S n) = a :: zrange (a + 1) n.
Proof.
  unfold zrange. cbn [seq map]. rewrite <- seq_shift, map_map. f_equal; [lia|].
  apply map_ext. intros; lia.
Qed.

Lemma zrange_app a n m : zrange a (n + m) = zrange a n ++ zrange (a + Z.of_nat n) m.
Proof.
  revert a; induction n as [|n IH]; intros a.
  - cbn [Nat.add app]. rewrite Z.add_0_r. reflexivity.
  - cbn [Nat.add]. rewrite !zrange_cons, IH. cbn [app]. do 2 f_equal. f_equal. lia.
Qed.

Lemma zrange_in a n x : In x (zrange a n) <-> a <= x < a + Z.of_nat n.
Proof.
  unfold zrange. rewrite in_map_iff. split.
  - intros (j & <- & Hj). apply in_seq in Hj. lia.
  - intros H. exists (Z.to_nat (x - a)). split; [lia|]. apply in_seq. lia.
Qed.

(* a list is its elements by position *)
Lemma list_as_zrange {A} (l : list A) (d : A) a :
  l = map (fun k => nth (Z.to_nat (k - a)) l d) (zrange a (List.length l)).
Proof.
  revert a; induction l as [|x l IH]; intros a; [reflexivity|].
  cbn [List.length]. rewrite zrange_cons. cbn [map]. rewrite Z.sub_diag. cbn [Z.to_nat nth]. f_equal.
  rewrite (IH (a + 1)) at 1. apply map_ext_in. intros k Hk. apply zrange_in in Hk.
  replace (Z.to_nat (k - a)) with (S (Z.to_nat (k - (a + 1)))) by lia. reflexivity.
Qed.

(* values near t in a series given by a function over a contiguous integer axis *)
Lemma near_values_filter nan limit t (pts : list point) :
  near_values nan limit t pts =
  filter (fun v => negb (Qeq_bool v nan))
    (vals (map snd (filter (fun p => Qle_bool (Qabs (fst p - t)) limit) pts))).
Proof.
  induction pts as [|[s [v|]] r IH]; cbn [near_values filter map fst snd]; [reflexivity| |].
  - destruct (Qle_bool (Qabs (s - t)) limit); cbn [map vals filter snd];
      [|rewrite andb_false_r; exact IH].
    destruct (Qeq_bool v nan); cbn [negb andb]; rewrite IH; reflexivity.
  - destruct (Qle_bool (Qabs (s - t)) limit); cbn [map vals snd]; exact IH.
Qed.

Lemma filter_zrange lo hi a n : a <= lo -> lo <= hi -> hi < a + Z.of_nat n ->
  filter (fun k => (lo <=? k) && (k <=? hi)) (zrange a n) = zrange lo (Z.to_nat (hi - lo + 1)).
Proof.
  intros H1 H2 H3.
  replace n with (Z.to_nat (lo - a) + (Z.to_nat (hi - lo + 1) + (n - Z.to_nat (hi - a + 1))))%nat by lia.
  rewrite !zrange_app, !filter_app.
  rewrite (filter_none _ (zrange a _)), (filter_all _ (zrange (a + _) _)), filter_none.
  - cbn [app]. rewrite app_nil_r. f_equal. lia.
  - intros x Hx. apply zrange_in in Hx. lia.
  - intros x Hx. apply zrange_in in Hx. lia.
  - intros x Hx. apply zrange_in in Hx. lia.
Qed.

Lemma filter_map_comm {A B} (f : A -> B) (p : B -> bool) l :
  filter p (map f l) = map f (filter (fun x => p (f x)) l).
Proof. induction l as [|x l IH]; [reflexivity|]. cbn. destruct (p (f x)); cbn; rewrite IH; reflexivity. Qed.

Lemma filter_ext_in' {A} (p q : A -> bool) l : (forall x, In x l -> p x = q x) -> filter p l = filter q l.
Proof.
  induction l as [|x l IH]; intros H; [reflexivity|]. cbn. rewrite H by (left; reflexivity).
  rewrite IH by (intros; apply H; right; assumption). reflexivity.
Qed.

Lemma int_near w k j : 0 <= w ->
  Qle_bool (Qabs (inject_Z j - inject_Z k)) (inject_Z w / 2) = (k - w / 2 <=? j) && (j <=? k + w / 2).
Proof.
  intros Hw. apply eq_true_iff_eq. rewrite Qle_bool_iff, andb_true_iff, !Z.leb_le.
  assert (E : (inject_Z j - inject_Z k == inject_Z (j - k))%Q).
  { unfold Z.sub. rewrite inject_Z_plus, inject_Z_opp. reflexivity. }
  rewrite E. rewrite Qabs_Qle_condition. unfold Qle, Qdiv, inject_Z, Qopp, Qmult; cbn. lia.
Qed.

Lemma near_values_zrange (f : Z -> cell) w a n k : 0 <= w ->
  a <= k - w / 2 -> k + w / 2 < a + Z.of_nat n ->
  near_values default_nan (inject_Z w / 2) (inject_Z k)
    (combine (map inject_Z (zrange a n)) (map f (zrange a n))) =
  valid_only (map f (zrange (k - w / 2) (Z.to_nat (2 * (w / 2) + 1)))).
Proof.
  intros Hw H1 H2. rewrite near_values_filter. unfold valid_only. do 2 f_equal.
  assert (Hc : combine (map inject_Z (zrange a n)) (map f (zrange a n)) = map (fun j => (inject_Z j, f j)) (zrange a n)).
  { generalize (zrange a n). induction l as [|x l IH]; [reflexivity|]. cbn. rewrite IH. reflexivity. }
  rewrite Hc, filter_map_comm, map_map. cbn [fst snd].
  rewrite (filter_ext_in' _ (fun j => (k - w / 2 <=? j) && (j <=? k + w / 2))).
  - rewrite filter_zrange by lia. f_equal. f_equal. lia.
  - intros j _. apply int_near. exact Hw.
Qed.

Lemma combine_index_sorted a n (l : list cell) : List.length l = n ->
  time_sorted (combine (map inject_Z (zrange a n)) l).
Proof.
  intros <-. unfold time_sorted. revert a; induction l as [|c l IH]; intros a; [constructor|].
  cbn [List.length]. rewrite zrange_cons. cbn [map combine]. constructor; [apply IH|].
  apply Forall_forall. intros [x y] Hp. apply in_combine_l in Hp. apply in_map_iff in Hp as (k & <- & Hk).
  apply zrange_in in Hk. cbn [fst]. rewrite <- Zle_Qle. lia.
Qed.

Lemma map2_nth_error {A B C} (f : A -> B -> C) l m k :
  nth_error (map2 f l m) k =
  match nth_error l k, nth_error m k with Some a, Some b => Some (f a b) | _, _ => None end.
Proof.
  revert m k; induction l as [|x l IH]; intros [|y m] [|k]; cbn; try reflexivity.
  - destruct (nth_error l k); reflexivity.
  - apply IH.
Qed.

Lemma nth_error_firstn {A} (l : list A) n k : (k < n)%nat -> nth_error (firstn n l) k = nth_error l k.
Proof.
  revert n k; induction l as [|x l IH]; intros [|n] [|k] H; cbn; try lia; try reflexivity.
  apply IH; lia.
Qed.
Lemma nth_error_skipn {A} (l : list A) n k : nth_error (skipn n l) k = nth_error l (n + k).
Proof.
  revert l; induction n as [|n IH]; intros [|x l]; cbn [skipn Nat.add nth_error]; try reflexivity.
  - destruct k; reflexivity.
  - apply IH.
Qed.

Lemma nth_firstn {A} (l : list A) n k d : (k < n)%nat -> nth k (firstn n l) d = nth k l d.
Proof.
  revert n k; induction l as [|x l IH]; intros [|n] [|k] H; cbn; try lia; try reflexivity.
  apply IH; lia.
Qed.
Lemma nth_skipn {A} (l : list A) n k d : nth k (skipn n l) d = nth (n + k) l d.
Proof.
  revert l; induction n as [|n IH]; intros [|x l]; cbn [skipn Nat.add nth]; try reflexivity.
  - destruct k; reflexivity.
  - apply IH.
Qed.

(* the extended cycle is the circular cycle over a contiguous axis *)
Lemma extension_circular (cycle : list cell) (mac : nat) :
  (1 <= mac <= List.length cycle)%nat ->
  let n := Z.of_nat (List.length cycle) in
  skipn (List.length cycle - mac) cycle ++ cycle ++ firstn mac cycle =
  map (circular cycle) (zrange (n - Z.of_nat mac + 1) (List.length cycle + 2 * mac)).
Proof.
  intros Hm n. unfold n.
  replace (List.length cycle + 2 * mac)%nat with (mac + (List.length cycle + mac))%nat by lia.
  rewrite !zrange_app, !map_app. f_equal; [|f_equal].
  - rewrite (list_as_zrange (skipn _ cycle) None (Z.of_nat (List.length cycle) - Z.of_nat mac + 1)).
    rewrite skipn_length. replace (List.length cycle - (List.length cycle - mac))%nat with mac by lia.
    apply map_ext_in. intros k Hk. apply zrange_in in Hk. unfold circular.
    rewrite Z.mod_small by lia.
    rewrite nth_skipn. f_equal. lia.
  - rewrite (list_as_zrange cycle None (Z.of_nat (List.length cycle) + 1)) at 1.
    replace (Z.of_nat (List.length cycle) - Z.of_nat mac + 1 + Z.of_nat mac)
      with (Z.of_nat (List.length cycle) + 1) by lia.
    apply map_ext_in. intros k Hk. apply zrange_in in Hk. unfold circular.
    replace ((k - 1) mod Z.of_nat (List.length cycle)) with (k - (Z.of_nat (List.length cycle) + 1)); [reflexivity|].
    apply (Z.mod_unique _ _ 1); lia.
  - rewrite (list_as_zrange (firstn mac cycle) None (2 * Z.of_nat (List.length cycle) + 1)).
    rewrite firstn_length, Nat.min_l by lia.
    replace (Z.of_nat (List.length cycle) - Z.of_nat mac + 1 + Z.of_nat mac + Z.of_nat (List.length cycle))
      with (2 * Z.of_nat (List.length cycle) + 1) by lia.
    apply map_ext_in. intros k Hk. apply zrange_in in Hk. unfold circular.
    replace ((k - 1) mod Z.of_nat (List.length cycle)) with (k - (2 * Z.of_nat (List.length cycle) + 1)).
    + apply nth_firstn. lia.
    + apply (Z.mod_unique _ _ 2); lia.
Qed.

Lemma smooth_wrap_correct n mac fillna mo rows :
  Z.of_nat (List.length rows) = n -> (1 <= mac <= List.length rows)%nat -> 1 <= mo ->
  exists out, smooth_rows n mac true fillna mo rows = Ok out /\
    List.length out = List.length rows /\
    map c_std out = map c_std rows /\
    forall k, 1 <= k <= n ->
      exists r, nth_error out (Z.to_nat (k - 1)) = Some r /\
      let c := circular (map c_clim rows) k in
      (missing default_nan c /\ fillna = false -> c_clim r = None) /\
      (~ missing default_nan c \/ fillna = true ->
         ceq (c_clim r) (circular_average (map c_clim rows) (Z.of_nat mac) mo k)).
Proof.
  intros Hn Hmac Hmo. unfold smooth_rows.
  replace (Nat.eqb mac 0) with false by (symmetry; apply Nat.eqb_neq; lia).
  rewrite skipn_length.
  replace (n - Z.of_nat (List.length rows - (List.length rows - mac)) + 1) with (n - Z.of_nat mac + 1) by lia.
  set (cycle := map c_clim rows).
  set (ext := skipn (List.length rows - mac) rows ++ rows ++ firstn mac rows).
  assert (Hlen : List.length ext = (List.length rows + 2 * mac)%nat).
  { unfold ext. rewrite !app_length, skipn_length, firstn_length. lia. }
  assert (Hcl : List.length cycle = List.length rows) by apply map_length.
  assert (Hclim : map c_clim ext = map (circular cycle) (zrange (n - Z.of_nat mac + 1) (List.length ext))).
  { unfold ext at 1. rewrite !map_app, <- skipn_map, <- firstn_map. fold cycle. rewrite <- Hcl.
    rewrite extension_circular by lia. rewrite Hlen, Hcl, Hn. reflexivity. }
  cbv zeta. rewrite Hclim.
  set (ax := zrange (n - Z.of_nat mac + 1) (List.length ext)) in *.
  set (pts := combine (map inject_Z ax) (map (circular cycle) ax)).
  set (sm := boxcar_filter default_nan (inject_Z (Z.of_nat mac)) fillna mo pts).
  assert (Hpl : List.length pts = List.length ext).
  { unfold pts. rewrite combine_length, !map_length. unfold ax. rewrite zrange_length. lia. }
  assert (Hsl : List.length sm = List.length ext) by (unfold sm; rewrite boxcar_length; exact Hpl).
  assert (Hel : List.length (map2 set_clim ext sm) = List.length ext) by (apply map2_length'; congruence).
  rewrite Hel.
  set (body := firstn (List.length ext - 2 * mac) (skipn mac (map2 set_clim ext sm))).
  assert (Hbl : List.length body = List.length rows).
  { unfold body. rewrite firstn_length, skipn_length, Hel. lia. }
  rewrite Hbl, Nat.eqb_refl. exists body. split; [reflexivity|]. split; [exact Hbl|].
  assert (Hnth : forall i, (i < List.length rows)%nat ->
     nth_error body i = match nth_error rows i, nth_error sm (mac + i) with
                        | Some a, Some b => Some (set_clim a b) | _, _ => None end).
  { intros i Hi. unfold body. rewrite nth_error_firstn by lia. rewrite nth_error_skipn, map2_nth_error.
    replace (nth_error ext (mac + i)) with (nth_error rows i); [reflexivity|].
    unfold ext. rewrite nth_error_app2; rewrite skipn_length; [|lia].
    replace (mac + i - (List.length rows - (List.length rows - mac)))%nat with i by lia.
    rewrite nth_error_app1 by lia. reflexivity. }
  split.
  - apply nth_error_ext' with (n := List.length rows).
    + rewrite map_length. exact Hbl.
    + rewrite map_length. reflexivity.
    + intros i Hi. rewrite !nth_error_map, (Hnth i Hi).
      destruct (nth_error rows i) eqn:E; [|apply nth_error_None in E; lia].
      destruct (nth_error sm (mac + i)) eqn:E2; [|apply nth_error_None in E2; lia]. reflexivity.
  - intros k Hk. set (i := Z.to_nat (k - 1)). assert (Hi : (i < List.length rows)%nat) by lia.
    rewrite (Hnth i Hi). destruct (nth_error rows i) as [r|] eqn:E; [|apply nth_error_None in E; lia].
    assert (Hsort : time_sorted pts).
    { unfold pts, ax. apply combine_index_sorted. rewrite map_length. apply zrange_length. }
    destruct (boxcar_correct default_nan (inject_Z (Z.of_nat mac)) fillna mo pts Hmo Hsort) as [_ Hbox].
    assert (Hax : nth_error ax (mac + i) = Some (n + k)).
    { unfold ax. rewrite zrange_nth by lia. f_equal. lia. }
    assert (Hpt : nth_error pts (mac + i) = Some (inject_Z (n + k), circular cycle (n + k))).
    { unfold pts. rewrite nth_error_combine, !nth_error_map, Hax. reflexivity. }
    assert (Hcirc : circular cycle (n + k) = circular cycle k).
    { unfold circular. rewrite Hcl, Hn. do 2 f_equal. replace (n + k - 1) with (k - 1 + 1 * n) by lia.
      apply Z_mod_plus_full. }
    destruct (Hbox _ _ _ Hpt) as (o & Ho & Hmiss & Hval). fold sm in Ho. rewrite Ho.
    exists (set_clim r o). split; [reflexivity|]. cbv zeta. rewrite <- Hcirc. cbn [set_clim c_clim].
    split; [exact Hmiss|]. intros Hv. specialize (Hval Hv).
    replace (circular_average cycle (Z.of_nat mac) mo k)
      with (average_at default_nan (inject_Z (Z.of_nat mac)) mo pts (inject_Z (n + k))); [exact Hval|].
    unfold average_at, circular_average, circular_window. cbv zeta. unfold pts, ax.
    rewrite near_values_zrange by lia.
    assert (Hw : map (circular cycle) (zrange (n + k - Z.of_nat mac / 2) (Z.to_nat (2 * (Z.of_nat mac / 2) + 1))) =
                 map (circular cycle) (zrange (k - Z.of_nat mac / 2) (Z.to_nat (2 * (Z.of_nat mac / 2) + 1)))).
    { unfold zrange. rewrite !map_map. apply map_ext. intros j. unfold circular. rewrite Hcl, Hn. do 2 f_equal.
      replace (n + k - Z.of_nat mac / 2 + Z.of_nat j - 1) with (k - Z.of_nat mac / 2 + Z.of_nat j - 1 + 1 * n) by lia.
      apply Z_mod_plus_full. }
    rewrite Hw. reflexivity.
Qed.

(* ---- calc_climatology ---- *)
Lemma unit_values_on u r ser sm k : List.length sm = List.length ser ->
  unit_values u r (map2 (fun x c => mkObs (o_date x) (o_jd x) c) ser sm) k = on_unit (index_unit u r) k ser sm.
Proof.
  unfold unit_values, on_unit. intros H. f_equal. revert sm H; induction ser as [|x ser IH]; intros [|c sm] H; cbn in *; try discriminate; [reflexivity|].
  destruct (index_unit u r (o_date x) =? k); cbn; rewrite IH by lia; reflexivity.
Qed.

Lemma fill_none_id rows : map (fun r => mkCrow (fillna_cell None (c_clim r))
    (match c_std r with Some s => Some (fillna_cell None s) | None => None end)) rows = rows.
Proof.
  rewrite <- (map_id rows) at 2. apply map_ext. intros [c s]. cbn.
  destruct c, s as [[|]|]; reflexivity.
Qed.

Lemma boxcar_smoothed w fillna mo ser : 1 <= mo ->
  time_sorted (map (fun y => (o_jd y, o_val y)) ser) ->
  smoothed w fillna mo ser (boxcar_filter default_nan w fillna mo (map (fun y => (o_jd y, o_val y)) ser)).
Proof.
  intros Hm Hs. destruct (boxcar_correct default_nan w fillna mo _ Hm Hs) as [Hl H].
  rewrite map_length in Hl. split; [exact Hl|]. intros i x c Hx Hc.
  destruct (H i (o_jd x) (o_val x)) as (o & Ho & H1 & H2).
  - rewrite nth_error_map, Hx. reflexivity.
  - rewrite Hc in Ho. injection Ho as <-. split; assumption.
Qed.

Lemma index_unit_unit_of o d : k_freq o <> FOther ->
  index_unit (k_freq o) (match k_freq o with FDay => k_respect o | _ => false end) d = unit_of o d.
Proof. unfold index_unit, unit_of. destruct (k_freq o); try reflexivity. congruence. Qed.

Lemma unit_rows_clim agg agg_std o ser : k_freq o <> FOther ->
  let sm := boxcar_filter default_nan (k_ma_orig o) (k_fillna o) (k_min_orig o) (map (fun y => (o_jd y, o_val y)) ser) in
  map c_clim (unit_rows agg agg_std o ser) =
  map (fun k => agg (on_unit (unit_of o) k ser sm)) (zrange 1 (Z.to_nat (n_units (k_freq o)))).
Proof.
  intros Hf sm. unfold unit_rows. rewrite map_map. cbn [c_clim]. apply map_ext. intros k. f_equal.
  fold sm. rewrite unit_values_on.
  - unfold on_unit. do 2 f_equal. apply filter_ext. intros p. rewrite index_unit_unit_of by exact Hf. reflexivity.
  - unfold sm. rewrite boxcar_length, map_length. reflexivity.
Qed.

Lemma unit_rows_length agg agg_std o ser : List.length (unit_rows agg agg_std o ser) = Z.to_nat (n_units (k_freq o)).
Proof. unfold unit_rows. rewrite map_length. apply zrange_length. Qed.

Lemma calc_climatology_unfold agg agg_std o ser : k_freq o <> FOther ->
  calc_climatology agg agg_std o ser =
  mapR (fun rows =>
          let rows := if (match k_freq o with FDay => k_interp o | _ => false end) then
                        (if k_respect o then interp_row rows 366 365 1 else interp_row rows 60 59 61)
                      else rows in
          map (fun r => mkCrow (fillna_cell (k_fill o) (c_clim r))
                          (match c_std r with Some s => Some (fillna_cell (k_fill o) s) | None => None end)) rows)
    (smooth_rows (n_units (k_freq o)) (Z.to_nat (clim_window o)) (k_wrap o) (k_fillna o) (k_min_clim o)
       (unit_rows agg agg_std o ser)).
Proof.
  intros Hf. unfold calc_climatology, clim_window.
  destruct (k_freq o); try congruence; destruct (k_ma_clim o); rewrite ?Nat2Z.id; reflexivity.
Qed.

Lemma climatology_circular agg agg_std o ser :
  k_freq o <> FOther -> k_wrap o = true -> plain o ->
  1 <= clim_window o <= n_units (k_freq o) -> 1 <= k_min_clim o -> 1 <= k_min_orig o ->
  time_sorted (map (fun y => (o_jd y, o_val y)) ser) ->
  exists sm out, smoothed (k_ma_orig o) (k_fillna o) (k_min_orig o) ser sm /\
    calc_climatology agg agg_std o ser = Ok out /\
    List.length out = Z.to_nat (n_units (k_freq o)) /\
    let cycle := map (fun k => agg (on_unit (unit_of o) k ser sm)) (zrange 1 (Z.to_nat (n_units (k_freq o)))) in
    forall k, 1 <= k <= n_units (k_freq o) ->
      exists r, nth_error out (Z.to_nat (k - 1)) = Some r /\
        (missing default_nan (circular cycle k) /\ k_fillna o = false -> c_clim r = None) /\
        (~ missing default_nan (circular cycle k) \/ k_fillna o = true ->
           ceq (c_clim r) (circular_average cycle (clim_window o) (k_min_clim o) k)).
Proof.
  intros Hf Hw [Hi Hfill] Hwin Hmc Hmo Hs.
  set (sm := boxcar_filter default_nan (k_ma_orig o) (k_fillna o) (k_min_orig o) (map (fun y => (o_jd y, o_val y)) ser)).
  set (mac := Z.to_nat (clim_window o)).
  assert (Hmac : clim_window o = Z.of_nat mac) by lia.
  assert (Hn : 0 <= n_units (k_freq o)) by (destruct (k_freq o); cbn; lia).
  destruct (smooth_wrap_correct (n_units (k_freq o)) mac (k_fillna o) (k_min_clim o) (unit_rows agg agg_std o ser))
    as (out & Hout & Hlen & _ & Hval).
  { rewrite unit_rows_length. lia. } { rewrite unit_rows_length. lia. } { exact Hmc. }
  exists sm, out. split; [apply boxcar_smoothed; assumption|]. split.
  { rewrite calc_climatology_unfold by exact Hf. fold mac. rewrite Hw, Hi, Hfill, Hout. cbn [mapR].
    destruct (k_freq o); rewrite fill_none_id; reflexivity. }
  split; [rewrite Hlen; apply unit_rows_length|].
  cbv zeta. rewrite unit_rows_clim in Hval by exact Hf. fold sm in Hval. rewrite <- Hmac in Hval. exact Hval.
Qed.

Lemma climatology_bad_window agg agg_std o ser :
  k_freq o <> FOther -> k_wrap o = true ->
  clim_window o = 0 \/ n_units (k_freq o) < clim_window o ->
  calc_climatology agg agg_std o ser = Err EValue.
Proof.
  intros Hf Hw Hwin. rewrite calc_climatology_unfold by exact Hf.
  assert (Hw0 : 0 <= clim_window o) by (unfold clim_window; destruct (k_ma_clim o); [lia|destruct (k_freq o); lia]).
  set (mac := Z.to_nat (clim_window o)). assert (Hmac : clim_window o = Z.of_nat mac) by lia.
  assert (Hn : 0 < n_units (k_freq o)) by (destruct (k_freq o); cbn; lia).
  assert (E : smooth_rows (n_units (k_freq o)) mac true (k_fillna o) (k_min_clim o) (unit_rows agg agg_std o ser) = Err EValue).
  { pose proof (unit_rows_length agg agg_std o ser) as Hl. unfold smooth_rows.
    destruct (Nat.eqb mac 0) eqn:Em; [reflexivity|]. cbv zeta.
    assert (Hm : (List.length (unit_rows agg agg_std o ser) < mac)%nat) by lia.
    rewrite firstn_length, skipn_length, map2_length'.
    - rewrite !app_length, skipn_length, firstn_length.
      match goal with |- (if Nat.eqb ?a ?b then _ else _) = _ => replace (Nat.eqb a b) with false; [reflexivity|] end.
      lia.
    - rewrite boxcar_length, combine_length, !map_length, zrange_length. lia. }
  rewrite Hw, E. reflexivity.
Qed.

(* ---- leap day interpolation ---- *)
Lemma set_nth_nth {A} n (x : A) l k d : (n < List.length l)%nat ->
  nth k (set_nth n x l) d = if Nat.eqb k n then x else nth k l d.
Proof.
  revert n k; induction l as [|a l IH]; intros n k H; [cbn in H; lia|].
  destruct n as [|n], k as [|k]; cbn in *; try reflexivity. apply IH. lia.
Qed.
Lemma set_nth_length {A} n (x : A) l : List.length (set_nth n x l) = List.length l.
Proof. revert n; induction l as [|a l IH]; intros [|n]; cbn; try reflexivity. rewrite IH; reflexivity. Qed.

Lemma map2_std ext sm : (forall r, In r ext -> c_std r = None) -> forall r, In r (map2 set_clim ext sm) -> c_std r = None.
Proof.
  revert sm; induction ext as [|x ext IH]; intros [|c sm] H r Hr; cbn in Hr; try contradiction.
  destruct Hr as [<-|Hr]; [cbn; apply H; left; reflexivity|]. eapply IH; [|exact Hr]. intros; apply H; right; assumption.
Qed.

Lemma in_skipn {A} n (l : list A) x : In x (skipn n l) -> In x l.
Proof. intros H. rewrite <- (firstn_skipn n l). apply in_or_app; right; exact H. Qed.
Lemma in_firstn {A} n (l : list A) x : In x (firstn n l) -> In x l.
Proof. intros H. rewrite <- (firstn_skipn n l). apply in_or_app; left; exact H. Qed.

Lemma smooth_rows_shape n mac wrap fillna mo rows out :
  smooth_rows n mac wrap fillna mo rows = Ok out ->
  List.length out = List.length rows /\ ((forall r, In r rows -> c_std r = None) -> forall r, In r out -> c_std r = None).
Proof.
  unfold smooth_rows. destruct wrap.
  - destruct (Nat.eqb mac 0); [discriminate|]. cbv zeta.
    match goal with |- (if Nat.eqb ?a ?b then _ else _) = _ -> _ => destruct (Nat.eqb a b) eqn:E; [|discriminate] end.
    intros [= <-]. apply Nat.eqb_eq in E. split; [exact E|].
    intros Hr r Hin. apply in_firstn, in_skipn in Hin. revert Hin. apply map2_std.
    intros x Hx. apply in_app_or in Hx as [Hx|Hx]; [apply in_skipn in Hx; auto|].
    apply in_app_or in Hx as [Hx|Hx]; [auto|apply in_firstn in Hx; auto].
  - cbv zeta. intros [= <-]. split.
    + apply map2_length'. rewrite boxcar_length, combine_length, !map_length, zrange_length. lia.
    + intros Hr. apply map2_std. exact Hr.
Qed.

Lemma strict_mean2 a b : ceq (strict_mean [a; b]) (mean2 a b).
Proof.
  destruct a as [x|], b as [y|]; cbn; try exact I. unfold qmean, qlen; cbn. field.
Qed.

Lemma interp_row_no_std rows t a b :
  (forall r, In r rows -> c_std r = None) -> 1 <= t <= Z.of_nat (List.length rows) ->
  1 <= a <= Z.of_nat (List.length rows) -> 1 <= b <= Z.of_nat (List.length rows) ->
  let out := interp_row rows t a b in
  let g (l : list crow) k := c_clim (nth (Z.to_nat (k - 1)) l (mkCrow None None)) in
  List.length out = List.length rows /\ (forall r, In r out -> c_std r = None) /\
  ceq (g out t) (mean2 (g rows a) (g rows b)) /\
  forall k, 1 <= k -> k <> t -> g out k = g rows k.
Proof.
  intros Hs Ht Ha Hb out g. unfold out, interp_row. clear out.
  assert (Hstd : forall k, 1 <= k <= Z.of_nat (List.length rows) -> c_std (nth (Z.to_nat (k - 1)) rows (mkCrow None None)) = None).
  { intros k Hk. apply Hs. apply nth_In. lia. }
  cbv zeta. unfold row_cells. rewrite (Hstd a Ha), (Hstd b Hb). cbn [app].
  split; [apply set_nth_length|]. split; [|split].
  - intros r Hr. apply (In_nth _ _ (mkCrow None None)) in Hr as (i & Hi & <-). rewrite set_nth_length in Hi.
    rewrite set_nth_nth by lia. destruct (Nat.eqb i (Z.to_nat (t - 1))).
    + cbn. rewrite (Hstd t Ht). reflexivity.
    + apply Hs, nth_In. exact Hi.
  - unfold g. rewrite set_nth_nth by lia. rewrite Nat.eqb_refl. cbn [fill_row c_clim]. apply strict_mean2.
  - intros k Hk Hne. unfold g. rewrite set_nth_nth by lia.
    replace (Nat.eqb _ _) with false by lia. reflexivity.
Qed.

Definition clim_at (l : list crow) (k : Z) : cell := c_clim (nth (Z.to_nat (k - 1)) l (mkCrow None None)).

Lemma leapday_interp agg agg_std o ser plain_out :
  k_freq o = FDay -> k_interp o = true -> k_std o = false -> k_fill o = None ->
  calc_climatology agg agg_std (without_interp o) ser = Ok plain_out ->
  exists out, calc_climatology agg agg_std o ser = Ok out /\
    List.length out = 366%nat /\ List.length plain_out = 366%nat /\
    let '(t, a, b) := if k_respect o then (366, 365, 1) else (60, 59, 61) in
    ceq (clim_at out t) (mean2 (clim_at plain_out a) (clim_at plain_out b)) /\
    forall k, 1 <= k -> k <> t -> clim_at out k = clim_at plain_out k.
Proof.
  intros Hf Hi Hstd Hfill Hp. unfold calc_climatology in *. cbn [without_interp k_freq k_ma_clim k_wrap k_fillna k_min_clim k_fill k_interp k_respect] in *.
  rewrite Hf in *. rewrite Hi, Hfill in *.
  assert (Hrows : unit_rows agg agg_std (without_interp o) ser = unit_rows agg agg_std o ser) by reflexivity.
  rewrite Hrows in Hp. clear Hrows.
  set (rows := unit_rows agg agg_std o ser) in *.
  assert (Hlen : List.length rows = 366%nat).
  { unfold rows. rewrite unit_rows_length, Hf. reflexivity. }
  assert (Hnostd : forall r, In r rows -> c_std r = None).
  { intros r Hr. unfold rows, unit_rows in Hr. rewrite Hstd in Hr. apply in_map_iff in Hr as (k & <- & _). reflexivity. }
  destruct (smooth_rows (n_units FDay) match k_ma_clim o with Some m => m | None => 35%nat end
    (k_wrap o) (k_fillna o) (k_min_clim o) rows) as [sm|] eqn:E; [|discriminate].
  cbn [mapR] in *. rewrite fill_none_id in Hp. injection Hp as <-.
  destruct (smooth_rows_shape _ _ _ _ _ _ _ E) as [Hsl Hss]. specialize (Hss Hnostd).
  assert (Hsml : List.length sm = 366%nat) by congruence.
  eexists. split; [reflexivity|]. rewrite fill_none_id.
  destruct (k_respect o).
  - destruct (interp_row_no_std sm 366 365 1 Hss ltac:(lia) ltac:(lia) ltac:(lia)) as (G1 & G2 & G3 & G4).
    split; [congruence|]. split; [exact Hsml|]. split; [exact G3|exact G4].
  - destruct (interp_row_no_std sm 60 59 61 Hss ltac:(lia) ltac:(lia) ltac:(lia)) as (G1 & G2 & G3 & G4).
    split; [congruence|]. split; [exact Hsml|]. split; [exact G3|exact G4].
Qed.

(* ---- calendar days ---- *)
Lemma month_cases m : 1 <= m <= 12 ->
  m = 1 \/ m = 2 \/ m = 3 \/ m = 4 \/ m = 5 \/ m = 6 \/ m = 7 \/ m = 8 \/ m = 9 \/ m = 10 \/ m = 11 \/ m = 12.
Proof. lia. Qed.

Lemma month_len_le lp m : 1 <= m <= 12 -> month_len lp m <= month_len true m.
Proof.
  intros H. destruct (month_cases m H) as [->|[->|[->|[->|[->|[->|[->|[->|[->|[->|[->| ->]]]]]]]]]]]; destruct lp; cbn; lia.
Qed.

Lemma days_past_mono m n : 1 <= m -> m < n -> n <= 12 -> days_past m + month_len true m <= days_past n.
Proof.
  intros H1 H2 H3.
  assert (Hm : 1 <= m <= 12) by lia. assert (Hn : 1 <= n <= 12) by lia.
  destruct (month_cases m Hm) as [->|[->|[->|[->|[->|[->|[->|[->|[->|[->|[->| ->]]]]]]]]]]];
  destruct (month_cases n Hn) as [->|[->|[->|[->|[->|[->|[->|[->|[->|[->|[->| ->]]]]]]]]]]];
  try (exfalso; lia); vm_compute; discriminate.
Qed.

Lemma doy_injective m d m' d' :
  1 <= m <= 12 -> 1 <= d <= month_len true m -> 1 <= m' <= 12 -> 1 <= d' <= month_len true m' ->
  doy m d = doy m' d' -> m = m' /\ d = d'.
Proof.
  intros Hm Hd Hm' Hd' H. unfold doy in H.
  destruct (Z.lt_trichotomy m m') as [L|[E|L]].
  - pose proof (days_past_mono m m' ltac:(lia) L ltac:(lia)). lia.
  - subst. lia.
  - pose proof (days_past_mono m' m ltac:(lia) L ltac:(lia)). lia.
Qed.

Lemma doy_range m d : 1 <= m <= 12 -> 1 <= d <= month_len true m -> 1 <= doy m d <= 366.
Proof.
  intros Hm Hd. unfold doy.
  assert (H : 0 <= days_past m /\ days_past m + month_len true m <= 366).
  { destruct (month_cases m Hm) as [->|[->|[->|[->|[->|[->|[->|[->|[->|[->|[->| ->]]]]]]]]]]];
    split; vm_compute; discriminate. }
  lia.
Qed.

Lemma valid_in_leap d : valid_date d -> 1 <= dm d <= 12 /\ 1 <= dd d <= month_len true (dm d).
Proof. intros [H1 H2]. split; [exact H1|]. unfold days_in_month in H2. pose proof (month_len_le (leap (dy d)) (dm d) H1). lia. Qed.

Lemma same_day_iff a b : valid_date a -> valid_date b ->
  (doy (dm a) (dd a) = doy (dm b) (dd b) <-> same_calendar_day a b).
Proof.
  intros Ha Hb. apply valid_in_leap in Ha as [Ha1 Ha2], Hb as [Hb1 Hb2]. split.
  - intros H. apply doy_injective in H; auto.
  - intros [-> ->]. reflexivity.
Qed.

Lemma anomaly_key_defaults d : valid_date d ->
  anomaly_key true d =
  if negb (leap (dy d)) && (2 <? dm d) then doy (dm d) (dd d) - 1 else doy (dm d) (dd d).
Proof. intros _. unfold anomaly_key, doy_year, doy. reflexivity. Qed.

(* after February of a common year the key belongs to the previous day of the leap calendar *)
Lemma previous_day d : valid_date d -> leap (dy d) = false -> 2 < dm d ->
  forall b, valid_date b -> doy (dm b) (dd b) = anomaly_key true d -> ~ same_calendar_day b d.
Proof.
  intros Hd Hl Hm b Hb H Hs. destruct Hs as [E1 E2]. unfold anomaly_key, doy_year, doy in H.
  rewrite Hl, E1, E2 in H. replace (2 <? dm d) with true in H by lia. cbn in H. lia.
Qed.

Lemma anomaly_same_day o clim ser i x :
  k_freq o = FDay -> k_respect o = false ->
  List.length clim = 366%nat -> nth_error ser i = Some x -> valid_date (o_date x) ->
  exists k c, nth_error clim (Z.to_nat (k - 1)) = Some c /\ 1 <= k /\
    nth_error (calc_anomaly_clim false clim ser) i = Some (cell_sub (o_val x) c) /\
    forall y, valid_date y -> (unit_of o y = k <-> same_calendar_day y (o_date x)).
Proof.
  intros Hf Hr Hl Hi Hx. pose proof (valid_in_leap _ Hx) as [H1 H2].
  pose proof (doy_range _ _ H1 H2) as Hk. set (k := doy (dm (o_date x)) (dd (o_date x))) in *.
  exists k, (nth (Z.to_nat (k - 1)) clim None). split; [apply nth_error_nth'; lia|]. split; [lia|]. split.
  - unfold calc_anomaly_clim. rewrite nth_error_map, Hi. cbn. unfold clim_lookup.
    fold k. rewrite Hl. replace ((1 <=? k) && (k <=? Z.of_nat 366)) with true by lia. reflexivity.
  - intros y Hy. unfold unit_of. rewrite Hf, Hr. unfold k. apply same_day_iff; assumption.
Qed.

(* with the defaults the same holds for dates of leap years and before March *)
Lemma anomaly_same_day_defaults o clim ser i x :
  k_freq o = FDay -> k_respect o = default_clim_respect ->
  List.length clim = 366%nat -> nth_error ser i = Some x -> valid_date (o_date x) ->
  exists k c, nth_error clim (Z.to_nat (k - 1)) = Some c /\ 1 <= k /\
    nth_error (calc_anomaly_clim default_anomaly_respect clim ser) i = Some (cell_sub (o_val x) c) /\
    (leap (dy (o_date x)) = true \/ dm (o_date x) <= 2 ->
     forall y, valid_date y -> (unit_of o y = k <-> same_calendar_day y (o_date x))) /\
    (leap (dy (o_date x)) = false -> 2 < dm (o_date x) ->
     forall y, valid_date y -> unit_of o y = k -> ~ same_calendar_day y (o_date x)).
Proof.
  intros Hf Hr Hl Hi Hx. pose proof (valid_in_leap _ Hx) as [H1 H2].
  pose proof (doy_range _ _ H1 H2) as Hd. set (k := anomaly_key true (o_date x)).
  assert (Hk : 1 <= k <= 366).
  { unfold k. rewrite anomaly_key_defaults by exact Hx. destruct (negb _ && _) eqn:E; [|lia].
    assert (2 < dm (o_date x)) by lia.
    pose proof (days_past_mono 2 (dm (o_date x)) ltac:(lia) ltac:(lia) ltac:(lia)) as Hp.
    change (days_past 2 + month_len true 2) with 60 in Hp. unfold doy in *. lia. }
  exists k, (nth (Z.to_nat (k - 1)) clim None). split; [apply nth_error_nth'; lia|]. split; [lia|]. split; [|split].
  - unfold calc_anomaly_clim, default_anomaly_respect. rewrite nth_error_map, Hi. cbn [option_map]. unfold clim_lookup.
    fold k. rewrite Hl. replace ((1 <=? k) && (k <=? Z.of_nat 366)) with true by lia. reflexivity.
  - intros Hc y Hy. unfold unit_of. rewrite Hf, Hr. unfold default_clim_respect.
    unfold k. rewrite anomaly_key_defaults by exact Hx.
    replace (negb (leap (dy (o_date x))) && (2 <? dm (o_date x))) with false; [apply same_day_iff; assumption|].
    destruct Hc as [-> |Hc]; [reflexivity|]. destruct (leap (dy (o_date x))); cbn; lia.
  - intros Hc Hm y Hy Hu. unfold unit_of in Hu. rewrite Hf, Hr in Hu. unfold default_clim_respect in Hu.
    apply previous_day; assumption.
Qed.
