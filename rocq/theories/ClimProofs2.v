(* Anomalies from the climatology of the same series add up to zero on every day. *)
From Verif Require Import BaseProofs Calendar FiltersModel FiltersSpec FiltersProofs AnomalySpec AnomalyProofs ClimModel ClimProofs.
From Coq Require Import Lqa Sorting.Sorted.
Open Scope Z_scope.

Definition value_of (x : obs) : Q := match o_val x with Some v => v | None => 0%Q end.
Section Zero.
Variable w : Q.
Hypothesis W : (0 <= w)%Q.
Variable ser : list obs.
Hypothesis VALS : Forall (fun x => exists v, o_val x = Some v /\ (default_nan < v)%Q) ser.
Hypothesis APART : StronglySorted (fun x y => (o_jd x + w / 2 < o_jd y)%Q) ser.

Lemma near_none t l : Forall (fun y => (t + w / 2 < o_jd y)%Q \/ (o_jd y + w / 2 < t)%Q) l -> near_values default_nan (w / 2) t (map (fun y => (o_jd y, o_val y)) l) = [].
Proof.
  induction 1 as [|y l H F IH]; cbn [map near_values]; [reflexivity|]. destruct (o_val y) as [v|]; [|exact IH].
  assert (E : Qle_bool (Qabs (o_jd y - t)) (w / 2) = false).
  { destruct (Qle_bool _ _) eqn:E; [|reflexivity]. apply Qle_bool_iff in E. apply Qabs_Qle_condition in E. destruct H as [H|H]; lra. }
  rewrite E, andb_false_r. exact IH.
Qed.
Lemma half_pos : (0 <= w / 2)%Q.
Proof. apply Qle_shift_div_l; lra. Qed.
Lemma near_own l1 x l2 v : ser = l1 ++ x :: l2 -> o_val x = Some v -> (default_nan < v)%Q ->
  near_values default_nan (w / 2) (o_jd x) (map (fun y => (o_jd y, o_val y)) ser) = [v].
Proof.
  intros E V G. pose proof half_pos as HP. rewrite E, map_app, near_values_app. rewrite E in APART.
  assert (L : Forall (fun y => (o_jd x + w / 2 < o_jd y)%Q \/ (o_jd y + w / 2 < o_jd x)%Q) l1).
  { clear E VALS. induction l1 as [|y l1 IH]; [constructor|]. cbn in APART. inversion APART as [|? ? S F]; subst. constructor; [|exact (IH S)]. right. rewrite Forall_forall in F. apply F. apply in_or_app. right. left. reflexivity. }
  assert (R : Forall (fun y => (o_jd x + w / 2 < o_jd y)%Q \/ (o_jd y + w / 2 < o_jd x)%Q) l2).
  { clear E VALS L. induction l1 as [|y l1 IH]; [|cbn in APART; inversion APART as [|? ? S F]; subst; exact (IH S)]. cbn in APART. inversion APART as [|? ? S F]; subst. rewrite Forall_forall in *. intros y I. left. exact (F y I). }
  rewrite (near_none _ l1 L). cbn [app map near_values]. rewrite V.
  assert (E1 : Qeq_bool v default_nan = false). { destruct (Qeq_bool v default_nan) eqn:E1; [|reflexivity]. apply Qeq_bool_iff in E1. lra. }
  assert (E2 : Qle_bool (Qabs (o_jd x - o_jd x)) (w / 2) = true). { apply Qle_bool_iff. assert (Z : (o_jd x - o_jd x == 0)%Q) by ring. rewrite Z. exact HP. }
  rewrite E1, E2. cbn [negb andb]. rewrite (near_none _ l2 R). reflexivity.
Qed.
Lemma apart_sorted : time_sorted (map (fun y => (o_jd y, o_val y)) ser).
Proof.
  pose proof half_pos as HP. unfold time_sorted. apply sorted_map. cbn [fst]. clear VALS. revert APART. generalize ser. intros l0 A. induction A as [|x l S IH F]; constructor; [exact IH|]. rewrite Forall_forall in *. intros y I. specialize (F y I). cbn in F |- *. lra.
Qed.
(* the first moving average changes nothing *)
Lemma smoothed_same fillna sm : smoothed w fillna 1 ser sm -> Forall2 (fun x c => exists u, c = Some u /\ (u == value_of x)%Q) ser sm.
Proof.
  intros [L H].
  assert (G : forall i x c, nth_error ser i = Some x -> nth_error sm i = Some c -> exists u, c = Some u /\ (u == value_of x)%Q).
  { intros i x c X C. destruct (H i x c X C) as [_ H2]. pose proof (nth_error_split ser i X) as [l1 [l2 [E _]]]. rewrite Forall_forall in VALS. destruct (VALS x (nth_error_In _ _ X)) as [v [V GT]].
    assert (NM : ~ missing default_nan (o_val x)). { rewrite V. cbn. lra. }
    specialize (H2 (or_introl NM)). unfold average_at in H2. rewrite (near_own l1 x l2 v E V GT) in H2. change (1 <=? Z.of_nat (List.length [v])) with true in H2. cbv iota zeta in H2. destruct c as [u|]; [|contradiction]. change (u == qmean [v])%Q in H2. exists u. split; [reflexivity|]. rewrite H2. unfold value_of. rewrite V. unfold qmean, qlen. cbn [qsum List.length]. change (inject_Z (Z.of_nat 1)) with 1%Q. field. }
  clear H. revert sm L G. generalize ser. clear. intros l. induction l as [|x l IH]; intros [|c sm] L G; cbn in L; try discriminate; constructor.
  - exact (G 0%nat x c eq_refl eq_refl).
  - apply IH; [lia|]. intros i y d Y D. exact (G (S i) y d Y D).
Qed.
End Zero.

Lemma qsum_pair (l m : list Q) : Forall2 Qeq l m -> (qsum l == qsum m)%Q.
Proof. induction 1 as [|x y l m H F IH]; cbn; [reflexivity|]. rewrite H, IH. reflexivity. Qed.
Lemma on_unit_same u k ser sm : Forall2 (fun x c => exists v, c = Some v /\ (v == value_of x)%Q) ser sm ->
  Forall2 Qeq (on_unit u k ser sm) (map value_of (filter (fun x => u (o_date x) =? k) ser)).
Proof.
  unfold on_unit. induction 1 as [|x c l m [v [-> E]] F IH]; cbn [combine filter map]; [constructor|]. cbn [fst]. destruct (u (o_date x) =? k); cbn [map snd vals]; [constructor; [exact E|exact IH]|exact IH].
Qed.
Lemma sum_minus (f : obs -> Q) m l : (qsum (map (fun x => f x - m) l) == qsum (map f l) - m * qlen l)%Q.
Proof.
  unfold qlen. induction l as [|x l IH]; cbn [map qsum List.length].
  - change (inject_Z (Z.of_nat 0)) with 0%Q. ring.
  - rewrite IH, Nat2Z.inj_succ. unfold Z.succ. rewrite inject_Z_plus. change (inject_Z 1) with 1%Q. ring.
Qed.
Lemma vals_some (f : obs -> Q) l : vals (map (fun x => Some (f x)) l) = map f l.
Proof. induction l; cbn; congruence. Qed.
Lemma mean_above c l : l <> [] -> Forall (fun v => (c < v)%Q) l -> (c < qmean l)%Q.
Proof.
  intros N F. unfold qmean. assert (P : (0 < qlen l)%Q). { unfold qlen. change 0%Q with (inject_Z 0). rewrite <- Zlt_Qlt. destruct l; [congruence|cbn [List.length]; lia]. }
  apply Qlt_shift_div_l; [exact P|]. unfold qlen. clear P. destruct F as [|v l H F]; [congruence|]. clear N. revert v H. induction F as [|u l U F IH]; intros v H; cbn [qsum List.length].
  - change (inject_Z (Z.of_nat 1)) with 1%Q. lra.
  - specialize (IH u U). cbn [qsum List.length] in IH. rewrite (Nat2Z.inj_succ (S (List.length l))). unfold Z.succ at 1. rewrite inject_Z_plus. change (inject_Z 1) with 1%Q. lra.
Qed.
Lemma unit_key o d : k_freq o = FDay -> unit_of o d = anomaly_key (k_respect o) d.
Proof. intros F. unfold unit_of, anomaly_key. rewrite F. reflexivity. Qed.
Lemma key_range r d : valid_date d -> 1 <= anomaly_key r d <= 366.
Proof.
  intros V. pose proof (valid_in_leap _ V) as [H1 H2]. pose proof (doy_range _ _ H1 H2) as HD. destruct r; [|exact HD]. rewrite anomaly_key_defaults by exact V. destruct (negb _ && _) eqn:E; [|lia].
  assert (2 < dm d) by lia. pose proof (days_past_mono 2 (dm d) ltac:(lia) ltac:(lia) ltac:(lia)) as Hp. change (days_past 2 + month_len true 2) with 60 in Hp. unfold doy in *. lia.
Qed.
Lemma zero_sum o ser agg_std : k_freq o = FDay -> k_wrap o = true -> plain o -> k_ma_clim o = Some 1%nat -> k_min_clim o = 1 -> k_min_orig o = 1 ->
  (0 <= k_ma_orig o)%Q -> Forall (fun x => exists v, o_val x = Some v /\ (default_nan < v)%Q) ser -> Forall (fun x => valid_date (o_date x)) ser ->
  StronglySorted (fun x y => (o_jd x + k_ma_orig o / 2 < o_jd y)%Q) ser ->
  exists out, calc_climatology mean_agg agg_std o ser = Ok out /\
    let anomalies := calc_anomaly_clim (k_respect o) (map c_clim out) ser in
    Forall (fun a => a <> None) anomalies /\ forall k, (qsum (on_unit (unit_of o) k ser anomalies) == 0)%Q.
Proof.
  intros FD WR PL MC MIN MIO W VA DA AP.
  assert (CW : clim_window o = 1) by (unfold clim_window; rewrite MC; reflexivity).
  destruct (climatology_circular mean_agg agg_std o ser) as [sm [out [SM [C [L V]]]]]; try assumption; try lia; try congruence.
  { rewrite CW, FD. cbn. lia. }
  { apply (apart_sorted (k_ma_orig o)); assumption. }
  exists out. split; [exact C|]. cbv zeta in V |- *. rewrite FD in L, V. change (n_units FDay) with 366 in L, V. rewrite CW, MIN in V. rewrite MIO in SM.
  pose proof (smoothed_same (k_ma_orig o) W ser VA AP (k_fillna o) sm SM) as SAME.
  set (days := fun k => filter (fun x => unit_of o (o_date x) =? k) ser).
  (* the climatology of a day that occurs *)
  assert (CL : forall k, 1 <= k <= 366 -> days k <> [] -> exists m, nth (Z.to_nat (k - 1)) (map c_clim out) None = Some m /\ (m * qlen (days k) == qsum (map value_of (days k)))%Q).
  { intros k K NE. destruct (V k K) as [r [NR [_ V2]]].
    set (cycle := map (fun k => mean_agg (on_unit (unit_of o) k ser sm)) (zrange 1 (Z.to_nat 366))) in *.
    assert (LC : List.length cycle = 366%nat) by (unfold cycle; rewrite map_length; apply zrange_length).
    pose proof (on_unit_same (unit_of o) k ser sm SAME) as OS. fold (days k) in OS.
    assert (LN : List.length (on_unit (unit_of o) k ser sm) = List.length (days k)). { pose proof OS as OS2. rewrite <- (map_length value_of (days k)). clear - OS2. induction OS2; cbn; congruence. }
    assert (CC : forall j, circular cycle j = nth (Z.to_nat ((j - 1) mod 366)) cycle None) by (intros j; unfold circular; rewrite LC; reflexivity).
    assert (CK : circular cycle k = Some (qmean (on_unit (unit_of o) k ser sm))).
    { rewrite CC. rewrite Z.mod_small by lia. unfold cycle. rewrite (nth_indep _ None (mean_agg (on_unit (unit_of o) 0 ser sm))) by (rewrite map_length, zrange_length; lia).
      rewrite (map_nth (fun k => mean_agg (on_unit (unit_of o) k ser sm)) (zrange 1 (Z.to_nat 366)) 0).
      pose proof (zrange_nth 1 (Z.to_nat 366) (Z.to_nat (k - 1)) ltac:(lia)) as ZN. apply (nth_error_nth _ _ 0) in ZN. rewrite ZN. replace (1 + Z.of_nat (Z.to_nat (k - 1))) with k by lia.
      unfold mean_agg. destruct (on_unit (unit_of o) k ser sm) eqn:E; [|reflexivity]. exfalso. apply NE. destruct (days k); [reflexivity|discriminate LN]. }
    assert (GT : (default_nan < qmean (on_unit (unit_of o) k ser sm))%Q).
    { apply mean_above; [intros E; rewrite E in LN; destruct (days k); [congruence|discriminate LN]|].
      assert (G : Forall (fun v => (default_nan < v)%Q) (map value_of (days k))).
      { apply Forall_forall. intros v I. apply in_map_iff in I. destruct I as [x [<- I]]. apply filter_In in I. rewrite Forall_forall in VA. destruct (VA x (proj1 I)) as [v [E G]]. unfold value_of. rewrite E. exact G. }
      clear - OS G. revert G. induction OS as [|a b l m E F IH]; intros G; constructor; inversion G; subst; [rewrite E; assumption|auto]. }
    assert (NM : ~ missing default_nan (circular cycle k)). { rewrite CK. cbn. lra. }
    specialize (V2 (or_introl NM)). unfold circular_average, circular_window in V2. change (1 / 2) with 0 in V2. rewrite Z.sub_0_r in V2. change (Z.to_nat (2 * 0 + 1)) with 1%nat in V2.
    assert (ZR : zrange k 1 = [k]) by (unfold zrange; cbn; f_equal; lia). rewrite ZR in V2. cbn [map] in V2. rewrite CK in V2.
    unfold valid_only in V2. cbn [vals filter] in V2. assert (E1 : Qeq_bool (qmean (on_unit (unit_of o) k ser sm)) default_nan = false). { destruct (Qeq_bool _ _) eqn:E1; [|reflexivity]. apply Qeq_bool_iff in E1. lra. }
    rewrite E1 in V2. cbn [negb List.length] in V2. change (1 <=? Z.of_nat 1) with true in V2. cbv iota zeta in V2. destruct (c_clim r) as [m|] eqn:CR; [|contradiction]. change (m == qmean [qmean (on_unit (unit_of o) k ser sm)])%Q in V2. exists m. split.
    - apply nth_error_nth. rewrite nth_error_map, NR. cbn. rewrite CR. reflexivity.
    - assert (M1 : (m == qmean (on_unit (unit_of o) k ser sm))%Q). { rewrite V2. unfold qmean at 1. unfold qlen. cbn [qsum List.length]. change (inject_Z (Z.of_nat 1)) with 1%Q. field. }
      rewrite M1. unfold qmean. rewrite (qsum_pair _ _ OS). unfold qlen. rewrite LN. field. intros Z0. apply NE. destruct (days k); [reflexivity|]. exfalso. revert Z0. change 0%Q with (inject_Z 0). rewrite inject_Z_injective. cbn [List.length]. lia. }
  (* the anomaly of one observation *)
  assert (AN : forall x, In x ser -> exists m v, nth (Z.to_nat (unit_of o (o_date x) - 1)) (map c_clim out) None = Some m /\ o_val x = Some v /\
     cell_sub (o_val x) (clim_lookup (map c_clim out) (anomaly_key (k_respect o) (o_date x))) = Some (v - m)%Q).
  { intros x I. rewrite Forall_forall in DA, VA. destruct (VA x I) as [v [EV _]]. pose proof (key_range (k_respect o) _ (DA x I)) as KR. rewrite <- (unit_key o _ FD) in KR |- *.
    destruct (CL _ KR) as [m [M _]]. { intros E. assert (X : In x (days (unit_of o (o_date x)))) by (apply filter_In; split; [exact I|apply Z.eqb_refl]). rewrite E in X. destruct X. }
    exists m, v. split; [exact M|]. split; [exact EV|]. unfold clim_lookup. rewrite map_length, L. replace ((1 <=? unit_of o (o_date x)) && (unit_of o (o_date x) <=? Z.of_nat (Z.to_nat 366))) with true by lia. rewrite M, EV. reflexivity. }
  split.
  - apply Forall_forall. intros a I. apply in_map_iff in I. destruct I as [x [<- I]]. destruct (AN x I) as [m [v [_ [_ E]]]]. rewrite E. discriminate.
  - intros k. unfold on_unit, calc_anomaly_clim.
    set (g := fun ob => cell_sub (o_val ob) (clim_lookup (map c_clim out) (anomaly_key (k_respect o) (o_date ob)))) in *.
    assert (E : map snd (filter (fun p => unit_of o (o_date (fst p)) =? k) (combine ser (map g ser))) = map g (days k)).
    { unfold days. clear. induction ser as [|x l IH]; cbn; [reflexivity|]. destruct (unit_of o (o_date x) =? k); cbn; rewrite IH; reflexivity. }
    rewrite E. destruct (days k) as [|x0 l0] eqn:DK; [reflexivity|]. rewrite <- DK in *.
    assert (K : 1 <= k <= 366). { assert (X : In x0 (days k)) by (rewrite DK; left; reflexivity). apply filter_In in X. destruct X as [X1 X2]. apply Z.eqb_eq in X2. subst k. rewrite Forall_forall in DA. rewrite (unit_key o _ FD). apply key_range. exact (DA x0 X1). }
    destruct (CL k K) as [m [M S]]; [rewrite DK; discriminate|].
    assert (E2 : map g (days k) = map (fun x => Some (value_of x - m)%Q) (days k)).
    { apply map_ext_in. intros x I. apply filter_In in I. destruct I as [I U]. apply Z.eqb_eq in U. destruct (AN x I) as [m' [v [M' [EV A]]]]. unfold g. rewrite A. rewrite U, M in M'. injection M' as <-. unfold value_of. rewrite EV. reflexivity. }
    rewrite E2, vals_some, sum_minus, S. ring.
Qed.
