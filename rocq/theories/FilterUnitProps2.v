(* C93: climatologies with standard deviations, leap-day interpolation and fill values in another unit. *)
From Verif Require Import Base Calendar FiltersModel AnomalyModel UnitSpec UnitProofs FilterUnitProofs FilterUnitProps.
From Coq Require Import Lqa Qabs.
Open Scope Q_scope.

Section All.
Variables a b : Q.
Hypothesis A : 0 < a.
Variables agg agg_std : list Q -> cell.
Hypothesis AU : agg_in_units agg.
Hypothesis AR : agg_in_range agg.
Hypothesis SU : spread_in_units agg_std.

(* the rows after smoothing *)
Definition before_leap (o : clim_opts) (mac : nat) (ser : list obs) : res (list crow) :=
  smooth_rows (n_units (k_freq o)) mac (k_wrap o) (k_fillna o) (k_min_clim o) (unit_rows agg agg_std o ser).
Definition finish (fill : cell) (r : crow) : crow :=
  mkCrow (fillna_cell fill (c_clim r)) (match c_std r with Some s => Some (fillna_cell fill s) | None => None end).
Definition leap_day (o : clim_opts) : nat := if k_respect o then 365 else 59.
Definition leap_row (o : clim_opts) (rows : list crow) : list crow := if k_respect o then interp_row rows 366 365 1 else interp_row rows 60 59 61.
Lemma clim_shape o : k_freq o <> FOther ->
  exists mac, forall fill ser', calc_climatology agg agg_std (refill o fill) ser' =
    mapR (fun rows => map (finish fill) (match k_freq o with FDay => if k_interp o then leap_row o rows else rows | _ => rows end)) (before_leap (refill o fill) mac ser').
Proof.
  intros N. exists (match k_ma_clim o with Some m => m | None => match k_freq o with FMonth => 3%nat | _ => 35%nat end end). intros fill ser'. unfold calc_climatology, before_leap, leap_row. cbn [refill k_freq k_ma_clim k_respect k_interp k_fill k_wrap k_fillna k_min_clim].
  destruct (k_freq o); [|reflexivity|congruence]. destruct (k_interp o), (k_respect o); reflexivity.
Qed.
Lemma refill_id o : refill o (k_fill o) = o. Proof. destruct o; reflexivity. Qed.
Lemma before_rel o fill mac ser ser' : Forall2 (orel a b) ser ser' -> oabove default_nan ser -> oabove default_nan ser' ->
  same_outcome (Forall2 (crel a b)) (before_leap o mac ser) (before_leap (refill o fill) mac ser').
Proof.
  intros F G G'. unfold before_leap. cbn [refill k_freq k_wrap k_fillna k_min_clim].
  apply smooth_rel; [apply rows_rel; assumption|apply rows_above; assumption|apply (rows_above agg agg_std AR (refill o fill)); assumption].
Qed.
Lemma nth_set_nth_other {X} (l : list X) i k x : k <> i -> nth_error (set_nth i x l) k = nth_error l k.
Proof. revert i k. induction l as [|y l IH]; intros [|i] [|k] N; cbn; try reflexivity; try congruence. apply IH. congruence. Qed.
Lemma set_nth_len {X} (l : list X) i x : List.length (set_nth i x l) = List.length l.
Proof. revert i. induction l as [|y l IH]; intros [|i]; cbn; try reflexivity. rewrite IH. reflexivity. Qed.
Lemma leap_other o rows k : k <> leap_day o -> nth_error (leap_row o rows) k = nth_error rows k.
Proof. unfold leap_day, leap_row, interp_row. cbv zeta. destruct (k_respect o); intros N; rewrite nth_set_nth_other; try reflexivity; exact N. Qed.
Lemma leap_len o rows : List.length (leap_row o rows) = List.length rows.
Proof. unfold leap_row, interp_row. cbv zeta. destruct (k_respect o); apply set_nth_len. Qed.
Lemma F2_nth {X Y} (P : X -> Y -> Prop) l m : Forall2 P l m -> forall k x y, nth_error l k = Some x -> nth_error m k = Some y -> P x y.
Proof. induction 1 as [|u v l m H F IH]; intros [|k] x y E1 E2; cbn in *; try discriminate; [congruence|eapply IH; eassumption]. Qed.
End All.

(* one row: the average in the unit of the data; the standard deviation, where it is not filled, in its factor *)
Definition same_row (a b : Q) (fill fill' : cell) (r r' : crow) : Prop :=
  cell_in_unit a b (c_clim r) (c_clim r') /\
  match c_std r, c_std r' with
  | Some s, Some s' => exists u u', cell_in_unit a 0 u u' /\ s = match u with Some v => Some v | None => fill end /\ s' = match u' with Some v => Some v | None => fill' end
  | None, None => True
  | _, _ => False
  end.
(* All options: every row follows the unit, except the interpolated leap day (60 or 366) if standard deviations are asked for. *)
Theorem C93_climatology_rows agg agg_std a b o fill ser ser' : average agg -> spread agg_std -> 0 < a ->
  same_observations a b ser ser' -> above_marker ser -> above_marker ser' -> cell_in_unit a b (k_fill o) fill ->
  same_outcome (fun r r' => List.length r' = List.length r /\
      forall k row row', nth_error r k = Some row -> nth_error r' k = Some row' ->
        ~ (k_std o = true /\ k_interp o = true /\ k_freq o = FDay /\ k = (if k_respect o then 365 else 59)%nat) -> same_row a b (k_fill o) fill row row')
    (calc_climatology agg agg_std o ser) (calc_climatology agg agg_std (with_fill o fill) ser').
Proof.
  intros [AU AR] SU A F G G' FI. change (with_fill o fill) with (refill o fill).
  destruct (match k_freq o with FOther => true | _ => false end) eqn:EF.
  { assert (EO : k_freq o = FOther) by (destruct (k_freq o); congruence). unfold calc_climatology. cbn [refill k_freq k_ma_clim]. rewrite EO. destruct (k_ma_clim o); reflexivity. }
  destruct (clim_shape agg agg_std o) as [mac SH]; [intros E; rewrite E in EF; discriminate|].
  pose proof (SH (k_fill o) ser) as S1. rewrite refill_id in S1. rewrite S1, (SH fill ser').
  pose proof (before_rel a b A agg agg_std AU AR SU o fill mac ser ser' F G G') as B.
  assert (NS : forall r, before_leap agg agg_std o mac ser = Ok r -> k_std o = false -> nostd r).
  { intros r E Z. unfold before_leap in E. apply (smooth_nostd _ _ _ _ _ _ _ E), unit_rows_nostd, Z. }
  destruct (before_leap agg agg_std o mac ser) as [r|], (before_leap agg agg_std (refill o fill) mac ser') as [r'|]; cbn [same_outcome mapR] in *; try contradiction; [|exact B].
  specialize (NS r eq_refl).
  assert (FIN : forall x x', crel a b x x' -> same_row a b (k_fill o) fill (finish (k_fill o) x) (finish fill x')).
  { intros x x' [X1 X2]. split; cbn [finish c_clim c_std]; [apply fillna_rel; assumption|]. destruct (c_std x) as [u|], (c_std x') as [u'|]; cbn in X2; try contradiction; [|exact Logic.I].
    exists u, u'. split; [exact X2|]. split; [destruct u|destruct u']; reflexivity. }
  rewrite !map_length. split.
  { destruct (k_freq o); [destruct (k_interp o)| |]; rewrite ?leap_len; apply (len2 _ _ _ B). }
  intros k row row' E1 E2 NL. rewrite nth_error_map in E1, E2.
  assert (K : forall x x', nth_error (match k_freq o with FDay => if k_interp o then leap_row o r else r | _ => r end) k = Some x ->
                           nth_error (match k_freq o with FDay => if k_interp o then leap_row o r' else r' | _ => r' end) k = Some x' -> crel a b x x').
  { intros x x'. destruct (k_freq o) eqn:EQ; [|apply (F2_nth _ _ _ B)|discriminate EF]. destruct (k_interp o) eqn:EI; [|apply (F2_nth _ _ _ B)].
    destruct (k_std o) eqn:ES.
    - rewrite !leap_other by (intros E; apply NL; repeat split; exact E). apply (F2_nth _ _ _ B).
    - specialize (NS eq_refl). pose proof (crel_nostd a b _ _ B NS) as NS'. unfold leap_row. destruct (k_respect o); apply (F2_nth _ _ _ (interp_rel a b r r' _ _ _ B NS NS')). }
  destruct (nth_error _ k) as [x|] eqn:N1 in E1; [|discriminate]. destruct (nth_error _ k) as [x'|] eqn:N2 in E2; [|discriminate]. cbn [option_map] in E1, E2. injection E1 as <-. injection E2 as <-. apply FIN, K; assumption.
Qed.
Print Assumptions C93_climatology_rows.

(* The interpolated leap day mixes averages and standard deviations: 10 degrees Celsius on all days before and after
   29 February, and a climatology of 5 on it, not those of 50 degrees Fahrenheit and 25. *)
Definition leap_opts : clim_opts := mkClim 1 (Some 1%nat) true None true false true true 1 1 FDay.
Definition at_ten (v : Q) : list obs :=
  [mkObs (mkDate 2021 2 28) 0 (Some v); mkObs (mkDate 2021 3 1) 1 (Some v); mkObs (mkDate 2022 2 28) 365 (Some v); mkObs (mkDate 2022 3 1) 366 (Some v)].
(* the sample standard deviation of equal values; one value has none *)
Definition equal_values_std (l : list Q) : cell := match l with x :: y :: r => if forallb (Qeq_bool x) (y :: r) then Some 0 else None | _ => None end.
Theorem C93_leapday_std_refuted : exists r r',
  same_observations (9 # 5) 32 (at_ten 10) (at_ten 50) /\
  calc_climatology mean_agg equal_values_std leap_opts (at_ten 10) = Ok r /\ calc_climatology mean_agg equal_values_std leap_opts (at_ten 50) = Ok r' /\
  option_map (fun x => option_map Qred (c_clim x)) (nth_error r 58) = Some (Some 10) /\ option_map (fun x => option_map Qred (c_clim x)) (nth_error r' 58) = Some (Some 50) /\
  option_map (fun x => option_map Qred (c_clim x)) (nth_error r 59) = Some (Some 5) /\ option_map (fun x => option_map Qred (c_clim x)) (nth_error r' 59) = Some (Some 25).
Proof.
  destruct (calc_climatology mean_agg equal_values_std leap_opts (at_ten 10)) as [r|] eqn:E; [|vm_compute in E; discriminate].
  destruct (calc_climatology mean_agg equal_values_std leap_opts (at_ten 50)) as [r'|] eqn:E'; [|vm_compute in E'; discriminate].
  exists r, r'. split; [repeat (constructor; [repeat split; reflexivity|]); constructor|]. split; [reflexivity|]. split; [reflexivity|].
  assert (X : match calc_climatology mean_agg equal_values_std leap_opts (at_ten 10) with Ok c => c | Err _ => [] end = r) by (rewrite E; reflexivity).
  assert (X' : match calc_climatology mean_agg equal_values_std leap_opts (at_ten 50) with Ok c => c | Err _ => [] end = r') by (rewrite E'; reflexivity).
  rewrite <- X, <- X'. clear. repeat split; vm_compute; reflexivity.
Qed.
Print Assumptions C93_leapday_std_refuted.

(* With a common zero point everything follows the factor: averages, standard deviations, the interpolated leap day and
   filled values. *)
Lemma strict_rel0 a l l' : Forall2 (cell_in_unit a 0) l l' -> cell_in_unit a 0 (strict_mean l) (strict_mean l').
Proof.
  intros F. unfold strict_mean. assert (N : forallb notna l' = forallb notna l).
  { induction F as [|c c' l l' C F IH]; [reflexivity|]. cbn. rewrite IH, (notna_aff a 0 c c' C). reflexivity. }
  rewrite N. destruct (forallb notna l); [|exact Logic.I]. unfold nanmean.
  assert (V : Forall2 (in_unit a 0) (vals l) (vals l')) by (clear N; induction F as [|c c' l l' C F IH]; [constructor|]; destruct c, c'; cbn in C |- *; try contradiction; [constructor; assumption|exact IH]).
  destruct V as [|x x' v v' X V]; [exact Logic.I|]. apply (qmean_aff a 0 (x :: v) (x' :: v')); [discriminate|constructor; assumption].
Qed.
Theorem C93_climatology_factor agg agg_std a o fill ser ser' : average agg -> spread agg_std -> 0 < a ->
  same_observations a 0 ser ser' -> above_marker ser -> above_marker ser' -> cell_in_unit a 0 (k_fill o) fill ->
  same_outcome (same_climatology a 0) (calc_climatology agg agg_std o ser) (calc_climatology agg agg_std (with_fill o fill) ser').
Proof.
  intros [AU AR] SU A F G G' FI. change (with_fill o fill) with (refill o fill).
  destruct (match k_freq o with FOther => true | _ => false end) eqn:EF.
  { assert (EO : k_freq o = FOther) by (destruct (k_freq o); congruence). unfold calc_climatology. cbn [refill k_freq k_ma_clim]. rewrite EO. destruct (k_ma_clim o); reflexivity. }
  destruct (clim_shape agg agg_std o) as [mac SH]; [intros E; rewrite E in EF; discriminate|].
  pose proof (SH (k_fill o) ser) as S1. rewrite refill_id in S1. rewrite S1, (SH fill ser').
  pose proof (before_rel a 0 A agg agg_std AU AR SU o fill mac ser ser' F G G') as B.
  destruct (before_leap agg agg_std o mac ser) as [r|], (before_leap agg agg_std (refill o fill) mac ser') as [r'|]; cbn [same_outcome mapR] in *; try contradiction; [|exact B].
  assert (L : Forall2 (crel a 0) (leap_row o r) (leap_row o r')).
  { assert (IR : forall t i j, Forall2 (crel a 0) (interp_row r t i j) (interp_row r' t i j)); [|unfold leap_row; destruct (k_respect o); apply IR].
    intros t i j. unfold interp_row. cbv zeta. apply set_nth_rel; [|exact B].
    assert (RC : forall n, Forall2 (cell_in_unit a 0) (row_cells (nth n r (mkCrow None None))) (row_cells (nth n r' (mkCrow None None)))).
    { intros n. pose proof (nth_crel a 0 r r' n B) as [X1 X2]. unfold row_cells. constructor; [exact X1|]. destruct (c_std (nth n r _)), (c_std (nth n r' _)); cbn in X2; try contradiction; repeat constructor. exact X2. }
    assert (SM := strict_rel0 a _ _ (Forall2_app (RC (Z.to_nat (i - 1))) (RC (Z.to_nat (j - 1))))). split; cbn [fill_row c_clim c_std]; [exact SM|].
    pose proof (nth_crel a 0 r r' (Z.to_nat (t - 1)) B) as [_ X2]. destruct (c_std (nth _ r _)), (c_std (nth _ r' _)); cbn in X2 |- *; try contradiction; [exact SM|exact Logic.I]. }
  assert (FIN : forall q q', Forall2 (crel a 0) q q' -> same_climatology a 0 (map (finish (k_fill o)) q) (map (finish fill) q')).
  { induction 1 as [|x x' q q' (X1 & X2) K IH]; cbn [map]; constructor; [|exact IH]. split; cbn [finish c_clim c_std]; [apply fillna_rel; assumption|].
    destruct (c_std x), (c_std x'); cbn in X2; try contradiction; [apply fillna_rel; assumption|exact Logic.I]. }
  apply FIN. destruct (k_freq o); [destruct (k_interp o)| |]; assumption.
Qed.
Print Assumptions C93_climatology_factor.
Example C93_ex_factor : let o := mkClim 1 (Some 1%nat) true (Some 3) true false true true 1 1 FDay in
  same_observations 100 0 (at_ten 10) (at_ten 1000) /\ above_marker (at_ten 10) /\ above_marker (at_ten 1000) /\ cell_in_unit 100 0 (k_fill o) (Some 300) /\
  exists r r', calc_climatology mean_agg equal_values_std o (at_ten 10) = Ok r /\ calc_climatology mean_agg equal_values_std (with_fill o (Some 300)) (at_ten 1000) = Ok r' /\
    option_map (fun x => option_map Qred (c_clim x)) (nth_error r 59) = Some (Some 5) /\ option_map (fun x => option_map Qred (c_clim x)) (nth_error r' 59) = Some (Some 500).
Proof.
  cbv zeta. split; [repeat (constructor; [repeat split; reflexivity|]); constructor|]. split; [repeat constructor|]. split; [repeat constructor|]. split; [reflexivity|].
  destruct (calc_climatology mean_agg equal_values_std _ (at_ten 10)) as [r|] eqn:E; [|vm_compute in E; discriminate].
  destruct (calc_climatology mean_agg equal_values_std (with_fill _ _) (at_ten 1000)) as [r'|] eqn:E'; [|vm_compute in E'; discriminate].
  exists r, r'. split; [reflexivity|]. split; [reflexivity|].
  match type of E with ?cc = _ => assert (X : match cc with Ok c => c | Err _ => [] end = r) by (rewrite E; reflexivity) end.
  match type of E' with ?cc = _ => assert (X' : match cc with Ok c => c | Err _ => [] end = r') by (rewrite E'; reflexivity) end.
  rewrite <- X, <- X'. clear. split; vm_compute; reflexivity.
Qed.
Example C93_ex_spread : spread equal_values_std.
Proof.
  intros a b l l' A F. unfold equal_values_std. destruct F as [|x x' l l' X F]; [exact Logic.I|]. destruct F as [|y y' l l' Y F]; [exact Logic.I|].
  assert (E : forallb (Qeq_bool x') (y' :: l') = forallb (Qeq_bool x) (y :: l)).
  { assert (F2 : Forall2 (in_unit a b) (y :: l) (y' :: l')) by (constructor; assumption). induction F2 as [|u u' m m' U F2 IH]; [reflexivity|]. cbn [forallb]. rewrite IH. f_equal.
    unfold in_unit in X, U. apply eq_true_iff_eq. rewrite !Qeq_bool_iff. rewrite X, U. split; intros H; [|rewrite H; reflexivity].
    assert (K : a * (x - u) == 0) by lra. apply Qmult_integral in K as [K|K]; lra. }
  rewrite E. destruct (forallb (Qeq_bool x) (y :: l)); [|exact Logic.I]. cbn. unfold in_unit. lra.
Qed.
