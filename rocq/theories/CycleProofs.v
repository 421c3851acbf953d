(* Proofs for C127: trends, yearly cycles and yearly means under moving averages and climatologies. *)
From Verif Require Import Base BaseProofs Calendar FiltersModel FiltersSpec FiltersProofs AnomalyModel AnomalySpec AnomalyProofs ClimProofs ClimProofs2 ScalingProofs.
From Coq Require Import Lqa Qabs.
Open Scope Z_scope.

(* ------------------------------------------------------------ lists in strict order *)
Lemma same_sorted (l m : list Q) : StronglySorted Qlt l -> StronglySorted Qlt m ->
  (forall x, In x l -> exists y, In y m /\ (y == x)%Q) -> (forall y, In y m -> exists x, In x l /\ (x == y)%Q) -> Forall2 Qeq l m.
Proof.
  revert m. induction l as [|a l IH]; intros m S1 S2 H1 H2.
  - destruct m as [|b m]; [constructor|]. destruct (H2 b (or_introl eq_refl)) as (x & [] & _).
  - destruct m as [|b m]; [destruct (H1 a (or_introl eq_refl)) as (x & [] & _)|]. inversion S1 as [|? ? S1' F1]; subst. inversion S2 as [|? ? S2' F2]; subst. rewrite Forall_forall in F1, F2.
    assert (E : (a == b)%Q).
    { destruct (H1 a (or_introl eq_refl)) as (y & [<-|Y] & EY); [lra|]. destruct (H2 b (or_introl eq_refl)) as (x & [<-|X] & EX); [lra|]. specialize (F1 _ X). specialize (F2 _ Y). lra. }
    constructor; [exact E|]. apply IH; try assumption.
    + intros x X. destruct (H1 x (or_intror X)) as (y & [<-|Y] & EY); [specialize (F1 _ X); lra|]. exists y. tauto.
    + intros y Y. destruct (H2 y (or_intror Y)) as (x & [<-|X] & EX); [specialize (F2 _ Y); lra|]. exists x. tauto.
Qed.
Lemma mirror_sorted c l : StronglySorted Qlt l -> StronglySorted Qlt (rev (map (fun s => (-(1) * s + c)%Q) l)).
Proof.
  intros S. induction S as [|a l S IH F]; [constructor|]. cbn [map rev]. rewrite Forall_forall in F.
  assert (A : forall m x, StronglySorted Qlt m -> (forall y, In y m -> (y < x)%Q) -> StronglySorted Qlt (m ++ [x])).
  { clear. intros m x S. induction S as [|b m S IH F]; intros H; [repeat constructor|]. cbn. constructor; [apply IH; intros y Y; apply H; right; exact Y|].
    apply Forall_app. split; [exact F|]. constructor; [apply H; left; reflexivity|constructor]. }
  apply A; [exact IH|]. intros y Y. apply in_rev in Y. apply in_map_iff in Y as (s & <- & I). specialize (F s I). lra.
Qed.
Lemma qsum_rev l : (qsum (rev l) == qsum l)%Q.
Proof. apply qsum_perm. apply Permutation_sym, Permutation_rev. Qed.
Lemma symmetric_sum t l : StronglySorted Qlt l -> (forall s, In s l -> exists s', In s' l /\ (s' == 2 * t - s)%Q) -> (qsum l == t * qlen l)%Q.
Proof.
  intros S H. assert (F : Forall2 Qeq l (rev (map (fun s => (-(1) * s + 2 * t)%Q) l))).
  { apply same_sorted; [exact S|apply mirror_sorted, S| |].
    - intros x X. destruct (H x X) as (s & I & E). exists (-(1) * s + 2 * t)%Q. split; [apply in_rev; rewrite rev_involutive; apply in_map_iff; exists s; split; [reflexivity|exact I]|lra].
    - intros y Y. apply in_rev in Y. apply in_map_iff in Y as (s & <- & I). destruct (H s I) as (s' & I' & E). exists s'. split; [exact I'|lra]. }
  apply qsum_pair in F. rewrite qsum_rev, qsum_affine in F. lra.
Qed.

(* ------------------------------------------------------------ trends *)
Definition on_line (nan a b : Q) (pts : list point) : Prop := forall s c, In (s, c) pts -> exists v, c = Some v /\ (v == a + b * s)%Q /\ ~ (v == nan)%Q.
Definition window_times (limit t : Q) (pts : list point) : list Q := filter (fun s => Qle_bool (Qabs (s - t)) limit) (map fst pts).
Lemma near_linear nan a b limit t pts : on_line nan a b pts -> Forall2 Qeq (near_values nan limit t pts) (map (fun s => (b * s + a)%Q) (window_times limit t pts)).
Proof.
  unfold window_times. induction pts as [|[s c] r IH]; intros H; [constructor|]. destruct (H s c (or_introl eq_refl)) as (v & -> & E & N). cbn [near_values map fst filter].
  assert (IHr := IH (fun s c I => H s c (or_intror I))).
  destruct (Qeq_bool v nan) eqn:B; [apply Qeq_bool_iff in B; contradiction|]. cbn [negb andb]. destruct (Qle_bool (Qabs (s - t)) limit); [|exact IHr]. cbn [map]. constructor; [rewrite E; ring|exact IHr].
Qed.
Lemma window_sorted limit t pts : StronglySorted (fun p q : point => (fst p < fst q)%Q) pts -> StronglySorted Qlt (window_times limit t pts).
Proof.
  unfold window_times. intros S. induction S as [|p r S IH F]; [constructor|]. cbn [map filter]. destruct (Qle_bool (Qabs (fst p - t)) limit); [|exact IH]. constructor; [exact IH|].
  apply Forall_forall. intros x I. apply filter_In in I as [I _]. apply in_map_iff in I as (q & <- & I). rewrite Forall_forall in F. exact (F q I).
Qed.
Lemma trend_average nan a b window min_obs pts t :
  StronglySorted (fun p q : point => (fst p < fst q)%Q) pts -> on_line nan a b pts ->
  (forall s c, In (s, c) pts -> (Qabs (s - t) <= window / 2)%Q -> exists s' c', In (s', c') pts /\ (s' == 2 * t - s)%Q) ->
  forall m, average_at nan window min_obs pts t = Some m -> 1 <= min_obs -> (m == a + b * t)%Q.
Proof.
  intros S L SY m A M. unfold average_at in A. pose proof (near_linear nan a b (window / 2) t pts L) as F. set (v := near_values nan (window / 2) t pts) in *. set (w := window_times (window / 2) t pts) in *.
  destruct (Z.leb_spec min_obs (Z.of_nat (List.length v))) as [LE|]; [|discriminate]. assert (E : m = qmean v) by congruence. clear A. subst m.
  assert (LN : List.length v = List.length w) by (rewrite <- (map_length (fun s => (b * s + a)%Q) w); clear - F; induction F as [|? ? ? ? _ _ IH]; [reflexivity|cbn [List.length]; rewrite IH; reflexivity]).
  assert (W : (qsum w == t * qlen w)%Q).
  { apply symmetric_sum; [apply window_sorted, S|]. intros s I. unfold w, window_times in I. apply filter_In in I as [I B]. apply in_map_iff in I as ([s0 c] & E & I). cbn in E. subst s0.
    apply Qle_bool_iff in B. destruct (SY s c I B) as (s' & c' & I' & E'). exists s'. split; [|exact E']. unfold w, window_times. apply filter_In. split; [apply in_map_iff; exists (s', c'); split; [reflexivity|exact I']|].
    apply Qle_bool_iff. rewrite E'. rewrite <- Qabs_opp. setoid_replace (- (2 * t - s - t))%Q with (s - t)%Q by ring. exact B. }
  unfold qmean. rewrite (qsum_pair _ _ F), qsum_affine, W. unfold qlen. rewrite LN. field.
  change 0%Q with (inject_Z 0). rewrite inject_Z_injective. lia.
Qed.

(* ------------------------------------------------------------ cycles *)
Lemma vals_map_filter {A} (h : A -> cell) (p : A -> bool) (l : list A) :
  vals (map snd (filter (fun q => p (fst q)) (combine l (map h l)))) = vals (map h (filter p l)).
Proof. induction l as [|a l IH]; [reflexivity|]. cbn [map combine filter fst]. destruct (p a); cbn [map snd vals]; rewrite IH; reflexivity. Qed.
Lemma equal_sum (a : Q) l : (forall x, In x l -> (x == a)%Q) -> l <> [] -> (qsum l == 0)%Q -> (a == 0)%Q.
Proof.
  intros H N Z0. assert (E : (qsum l == a * qlen l)%Q).
  { clear N Z0. induction l as [|x l IH]; [cbn [qsum]; unfold qlen; cbn [List.length]; change (inject_Z (Z.of_nat 0)) with 0%Q; ring|]. cbn [qsum]. assert (E1 := H x (or_introl eq_refl)). rewrite IH by (intros y Y; apply H; right; exact Y). unfold qlen. cbn [List.length].
    rewrite Nat2Z.inj_succ, <- Z.add_1_r, inject_Z_plus. change (inject_Z 1) with 1%Q. lra. }
  rewrite E in Z0. apply Qmult_integral in Z0 as [Z0|Z0]; [exact Z0|]. exfalso. apply N. destruct l; [reflexivity|]. revert Z0. unfold qlen. change 0%Q with (inject_Z 0). rewrite inject_Z_injective. cbn [List.length]. lia.
Qed.

(* ------------------------------------------------------------ sums around the circle *)
Lemma qsum_swap {A B} (f : A -> B -> Q) (K : list A) (D : list B) :
  (qsum (map (fun k => qsum (map (fun d => f k d) D)) K) == qsum (map (fun d => qsum (map (fun k => f k d) K)) D))%Q.
Proof.
  assert (P : forall (g h : B -> Q) D, (qsum (map (fun d => (g d + h d)%Q) D) == qsum (map g D) + qsum (map h D))%Q).
  { intros g h E. induction E as [|x E IH]; cbn [map qsum]; [ring|]. rewrite IH. ring. }
  induction K as [|k K IH]; cbn [map qsum].
  - induction D as [|d D IHD]; [reflexivity|]. cbn [map qsum]. rewrite <- IHD. ring.
  - rewrite IH. rewrite <- P. reflexivity.
Qed.
Lemma zrange_first a n : zrange a (S n) = a :: zrange (a + 1) n.
Proof. unfold zrange. cbn [seq map]. f_equal; [lia|]. rewrite <- seq_shift, map_map. apply map_ext. intros j. lia. Qed.
Lemma zrange_last a n : zrange a (S n) = zrange a n ++ [a + Z.of_nat n].
Proof. unfold zrange. rewrite seq_S, map_app. reflexivity. Qed.
Lemma circle_sum (c : Z -> Q) n : (forall k : Z, (c (k + Z.of_nat n)%Z == c k)%Q) -> forall a b, (qsum (map c (zrange a n)) == qsum (map c (zrange b n)))%Q.
Proof.
  intros P. assert (ST : forall a, (qsum (map c (zrange (a + 1) n)) == qsum (map c (zrange a n)))%Q).
  { intros a. destruct n as [|n]; [reflexivity|]. rewrite (zrange_last (a + 1) n), (zrange_first a n). rewrite map_app, qsum_app. cbn [map qsum]. replace (a + 1 + Z.of_nat n) with (a + Z.of_nat (S n)) by lia. rewrite P. ring. }
  assert (UP : forall j a, (qsum (map c (zrange (a + Z.of_nat j) n)) == qsum (map c (zrange a n)))%Q).
  { induction j as [|j IH]; intros a; [rewrite Z.add_0_r; reflexivity|]. replace (a + Z.of_nat (S j)) with ((a + Z.of_nat j) + 1) by lia. rewrite ST. apply IH. }
  intros a b. destruct (Z_le_gt_dec a b) as [L|L].
  - replace b with (a + Z.of_nat (Z.to_nat (b - a))) by lia. rewrite UP. reflexivity.
  - replace a with (b + Z.of_nat (Z.to_nat (a - b))) at 1 by lia. apply UP.
Qed.

Lemma cycle_zero o ser agg_std : k_freq o = FDay -> k_wrap o = true -> plain o -> k_ma_clim o = Some 1%nat -> k_min_clim o = 1 -> k_min_orig o = 1 ->
  (0 <= k_ma_orig o)%Q -> Forall (fun x => exists v, o_val x = Some v /\ (default_nan < v)%Q) ser -> Forall (fun x => valid_date (o_date x)) ser ->
  StronglySorted (fun x y => (o_jd x + k_ma_orig o / 2 < o_jd y)%Q) ser ->
  (forall x y, In x ser -> In y ser -> unit_of o (o_date x) = unit_of o (o_date y) -> ceq (o_val x) (o_val y)) ->
  exists out, calc_climatology mean_agg agg_std o ser = Ok out /\
    Forall (fun a => exists d, a = Some d /\ (d == 0)%Q) (calc_anomaly_clim (k_respect o) (map c_clim out) ser).
Proof.
  intros FD WR PL MC MIN MIO W VA DA AP PER. destruct (zero_sum o ser agg_std) as (out & C & Z0); try assumption. cbv zeta in Z0. destruct Z0 as [NN Z0]. exists out. split; [exact C|].
  unfold calc_anomaly_clim in *. set (h := fun x => cell_sub (o_val x) (clim_lookup (map c_clim out) (anomaly_key (k_respect o) (o_date x)))) in *.
  apply Forall_forall. intros a I. apply in_map_iff in I as (x & E & I). rewrite Forall_forall in NN.
  assert (N : h x <> None) by (apply NN; apply in_map_iff; exists x; split; [reflexivity|exact I]).
  destruct (h x) as [d|] eqn:HX; [|congruence]. exists d. split; [congruence|].
  assert (KU : forall y, anomaly_key (k_respect o) (o_date y) = unit_of o (o_date y)) by (intros y; unfold anomaly_key, unit_of; rewrite FD; reflexivity).
  specialize (Z0 (unit_of o (o_date x))). unfold on_unit in Z0. rewrite (vals_map_filter h (fun y => unit_of o (o_date y) =? unit_of o (o_date x)) ser) in Z0.
  assert (IX : In d (vals (map h (filter (fun y => unit_of o (o_date y) =? unit_of o (o_date x)) ser)))).
  { assert (IM : In (Some d) (map h (filter (fun y => unit_of o (o_date y) =? unit_of o (o_date x)) ser))) by (apply in_map_iff; exists x; split; [exact HX|apply filter_In; split; [exact I|apply Z.eqb_refl]]).
    revert IM. clear. generalize (map h (filter (fun y => unit_of o (o_date y) =? unit_of o (o_date x)) ser)). intros l. induction l as [|[v|] l IH]; intros J; [destruct J| |]; cbn [vals]; destruct J as [J|J].
    - left. congruence.
    - right. exact (IH J).
    - discriminate J.
    - exact (IH J). }
  apply (equal_sum d (vals (map h (filter (fun y => unit_of o (o_date y) =? unit_of o (o_date x)) ser)))); [|intros E0; rewrite E0 in IX; destruct IX|exact Z0].
  intros z J. assert (JM : In (Some z) (map h (filter (fun y => unit_of o (o_date y) =? unit_of o (o_date x)) ser))).
  { revert J. clear. generalize (map h (filter (fun y => unit_of o (o_date y) =? unit_of o (o_date x)) ser)). intros l. induction l as [|[v|] l IH]; cbn [vals]; intros J; [destruct J|destruct J as [->|J]; [left; reflexivity|right; exact (IH J)]|right; exact (IH J)]. }
  apply in_map_iff in JM as (y & HY & IY). apply filter_In in IY as [IY UY]. apply Z.eqb_eq in UY.
  unfold h in HX, HY. rewrite KU in HX, HY. rewrite UY in HY. specialize (PER x y I IY (eq_sym UY)).
  destruct (o_val x) as [vx|], (o_val y) as [vy|], (clim_lookup (map c_clim out) (unit_of o (o_date x))) as [c|]; cbn [cell_sub] in HX, HY; try discriminate. cbn [ceq] in PER.
  assert (d = (vx - c)%Q) by congruence. assert (z = (vy - c)%Q) by congruence. subst. rewrite PER. reflexivity.
Qed.

(* the smoothed cycle has the sum of the cycle *)
Lemma circular_sum (cycle : list cell) (window min_obs : Z) (out : list cell) : 1 <= window -> 1 <= min_obs <= 2 * (window / 2) + 1 ->
  (forall c, In c cycle -> exists v, c = Some v /\ ~ (v == default_nan)%Q) ->
  List.length out = List.length cycle ->
  (forall k, 1 <= k <= Z.of_nat (List.length cycle) -> exists c, nth_error out (Z.to_nat (k - 1)) = Some c /\ ceq c (circular_average cycle window min_obs k)) ->
  Forall (fun c => c <> None) out /\ (qsum (vals out) == qsum (vals cycle))%Q.
Proof.
  intros W M V L A. set (n := List.length cycle) in *. set (h := window / 2) in *. assert (H0 : 0 <= h) by (apply Z.div_pos; lia).
  destruct (Nat.eq_dec n 0) as [N0|N0]; [destruct cycle; [|discriminate N0]; destruct out; [|discriminate L]; split; [constructor|reflexivity]|].
  set (c := fun k => match circular cycle k with Some v => v | None => 0%Q end).
  assert (CV : forall k, exists v, circular cycle k = Some v /\ ~ (v == default_nan)%Q).
  { intros k. apply V. unfold circular. apply nth_In. fold n. pose proof (Z.mod_pos_bound (k - 1) (Z.of_nat n)). lia. }
  assert (CC : forall k, circular cycle k = Some (c k)) by (intros k; unfold c; destruct (CV k) as (v & -> & _); reflexivity).
  assert (PER : forall k, (c (k + Z.of_nat n)%Z == c k)%Q).
  { intros k. unfold c, circular. fold n. replace (k + Z.of_nat n - 1) with (k - 1 + 1 * Z.of_nat n) by lia. rewrite Z.mod_add by lia. reflexivity. }
  set (m := Z.to_nat (2 * h + 1)).
  assert (VO : forall k, valid_only (circular_window cycle window k) = map (fun d => c (k + d)) (zrange (- h) m)).
  { intros k. unfold valid_only, circular_window. fold h m. assert (ZE : zrange (k - h) m = map (fun d => k + d) (zrange (- h) m)) by (unfold zrange; rewrite map_map; apply map_ext; intros j; lia).
    rewrite ZE, map_map. generalize (zrange (- h) m). intros l. induction l as [|d l IH]; [reflexivity|]. cbn [map]. rewrite CC. cbn [vals filter].
    destruct (CV (k + d)) as (v & E & NV). rewrite CC in E. assert (v = c (k + d)) by congruence. subst v. destruct (Qeq_bool (c (k + d)) default_nan) eqn:B; [apply Qeq_bool_iff in B; contradiction|]. cbn [negb]. rewrite IH. reflexivity. }
  assert (AV : forall k, circular_average cycle window min_obs k = Some (qmean (map (fun d => c (k + d)) (zrange (- h) m)))).
  { intros k. unfold circular_average. rewrite VO. rewrite map_length, zrange_length. unfold m. rewrite Z2Nat.id by lia. destruct (Z.leb_spec min_obs (2 * h + 1)); [reflexivity|lia]. }
  assert (OUT : Forall2 ceq out (map (fun k => Some (qmean (map (fun d => c (k + d)) (zrange (- h) m)))) (zrange 1 n))).
  { assert (G : forall l a, List.length l = List.length (zrange a (List.length l)) -> (forall k, a <= k < a + Z.of_nat (List.length l) -> exists c, nth_error l (Z.to_nat (k - a)) = Some c /\ ceq c (circular_average cycle window min_obs k)) ->
       Forall2 ceq l (map (fun k => Some (qmean (map (fun d => c (k + d)) (zrange (- h) m)))) (zrange a (List.length l)))).
    { clear A L. induction l as [|x l IH]; intros a LL A; [constructor|]. cbn [List.length]. rewrite zrange_first. cbn [map]. constructor.
      - destruct (A a) as (y & Y & E); [cbn [List.length]; lia|]. rewrite Z.sub_diag in Y. cbn in Y. assert (y = x) by congruence. subst y. rewrite AV in E. exact E.
      - apply IH; [rewrite zrange_length; reflexivity|]. intros k K. destruct (A k) as (y & Y & E); [cbn [List.length]; lia|]. exists y. split; [|exact E].
        replace (Z.to_nat (k - a)) with (S (Z.to_nat (k - (a + 1)))) in Y by lia. exact Y. }
    specialize (G out 1). rewrite zrange_length in G. rewrite <- L. apply G; [reflexivity|]. intros k K. apply A. lia. }
  assert (CY : cycle = map (fun k => Some (c k)) (zrange 1 n)).
  { apply (nth_ext _ _ None None); [rewrite map_length, zrange_length; reflexivity|]. intros i I. fold n in I.
    rewrite (nth_indep (map _ _) None (Some (c 0))) by (rewrite map_length, zrange_length; exact I). rewrite (map_nth (fun k => Some (c k)) (zrange 1 n) 0 i).
    pose proof (zrange_nth 1 n i I) as ZN. apply (nth_error_nth _ _ 0) in ZN. rewrite ZN. rewrite <- CC. unfold circular. fold n. replace (1 + Z.of_nat i - 1) with (Z.of_nat i) by lia. rewrite (Z.mod_small (Z.of_nat i) (Z.of_nat n)) by (split; [apply Nat2Z.is_nonneg|apply Nat2Z.inj_lt; exact I]). rewrite Nat2Z.id. reflexivity. }
  assert (VS : forall (g : Z -> Q) l, vals (map (fun k => Some (g k)) l) = map g l) by (intros g l; induction l as [|k l IH]; [reflexivity|]; cbn [map vals]; rewrite IH; reflexivity).
  split.
  - clear - OUT. remember (map (fun k => Some (qmean (map (fun d => c (k + d)) (zrange (- h) m)))) (zrange 1 n)) as r eqn:E. assert (R : Forall (fun x => x <> None) r) by (subst r; apply Forall_forall; intros x I; apply in_map_iff in I as (k & <- & _); discriminate). clear E.
    induction OUT as [|x y l r E F IH]; [constructor|]. inversion R as [|? ? R1 R2]; subst. constructor; [|exact (IH R2)]. destruct x; [discriminate|]. destruct y; [contradiction|congruence].
  - assert (S1 : (qsum (vals out) == qsum (map (fun k => qmean (map (fun d => c (k + d)%Z) (zrange (- h) m))) (zrange 1 n)))%Q).
    { rewrite <- VS. revert OUT. generalize (map (fun k => Some (qmean (map (fun d => c (k + d)) (zrange (- h) m)))) (zrange 1 n)). clear. intros r F. induction F as [|x y l r E F IH]; [reflexivity|].
      destruct x, y; cbn [ceq] in E; try contradiction; cbn [vals qsum]; [rewrite E, IH; reflexivity|exact IH]. }
    assert (S2 : (qsum (vals cycle) == qsum (map c (zrange 1 n)))%Q) by (rewrite CY at 1; rewrite VS; reflexivity).
    rewrite S1, S2. unfold qmean, qlen.
    assert (S3 : forall K, (qsum (map (fun k => (qsum (map (fun d => c (k + d)%Z) (zrange (- h) m)) / inject_Z (Z.of_nat (List.length (map (fun d => c (k + d)%Z) (zrange (- h) m)))))%Q) K) * inject_Z (Z.of_nat m) == qsum (map (fun k => qsum (map (fun d => c (k + d)%Z) (zrange (- h) m))) K))%Q).
    { induction K as [|k K IH]; cbn [map qsum]; [ring|]. rewrite Qmult_plus_distr_l, IH. rewrite map_length, zrange_length. field. change 0%Q with (inject_Z 0). rewrite inject_Z_injective. unfold m. lia. }
    specialize (S3 (zrange 1 n)). rewrite (qsum_swap (fun k d => c (k + d)%Z) (zrange 1 n) (zrange (- h) m)) in S3.
    assert (S4 : forall D, (qsum (map (fun d => qsum (map (fun k => c (k + d)%Z) (zrange 1 n))) D) == qsum (map c (zrange 1 n)) * inject_Z (Z.of_nat (List.length D)))%Q).
    { induction D as [|d D IH]; [cbn [map qsum List.length]; change (inject_Z (Z.of_nat 0)) with 0%Q; ring|]. cbn [map qsum List.length]. rewrite IH. rewrite Nat2Z.inj_succ, <- Z.add_1_r, inject_Z_plus. change (inject_Z 1) with 1%Q.
      assert (E : map (fun k => c (k + d)) (zrange 1 n) = map c (zrange (1 + d) n)) by (unfold zrange; rewrite !map_map; apply map_ext; intros j; f_equal; lia). rewrite E. rewrite (circle_sum c n PER (1 + d) 1). ring. }
    rewrite S4 in S3. rewrite zrange_length in S3. apply Qmult_inj_r in S3; [exact S3|]. change 0%Q with (inject_Z 0). rewrite inject_Z_injective. unfold m. lia.
Qed.
Lemma year_sum (agg agg_std : list Q -> cell) o ser :
  k_freq o <> FOther -> k_wrap o = true -> plain o -> 1 <= clim_window o <= n_units (k_freq o) -> 1 <= k_min_clim o <= 2 * (clim_window o / 2) + 1 -> 1 <= k_min_orig o ->
  time_sorted (map (fun y => (o_jd y, o_val y)) ser) ->
  exists sm out, smoothed (k_ma_orig o) (k_fillna o) (k_min_orig o) ser sm /\ calc_climatology agg agg_std o ser = Ok out /\
    let cycle := map (fun k => agg (on_unit (unit_of o) k ser sm)) (zrange 1 (Z.to_nat (n_units (k_freq o)))) in
    ((forall c, In c cycle -> exists v, c = Some v /\ ~ (v == default_nan)%Q) -> Forall (fun c => c <> None) (map c_clim out) /\ (qsum (vals (map c_clim out)) == qsum (vals cycle))%Q).
Proof.
  intros F WR PL W M MO TS. destruct (climatology_circular agg agg_std o ser) as (sm & out & SM & C & L & V); try assumption; try lia. exists sm, out. split; [exact SM|]. split; [exact C|]. cbv zeta in V |- *.
  set (cycle := map (fun k => agg (on_unit (unit_of o) k ser sm)) (zrange 1 (Z.to_nat (n_units (k_freq o))))) in *. intros CY.
  assert (LC : List.length cycle = Z.to_nat (n_units (k_freq o))) by (unfold cycle; rewrite map_length; apply zrange_length).
  apply (circular_sum cycle (clim_window o) (k_min_clim o)); try assumption; try lia; [rewrite map_length, L; symmetry; exact LC|].
  intros k K. rewrite LC in K. destruct (V k) as (r & NR & _ & V2); [lia|]. exists (c_clim r). split; [rewrite nth_error_map, NR; reflexivity|]. apply V2. left.
  intros MI. unfold circular in MI. rewrite LC in MI.
  destruct (CY (nth (Z.to_nat ((k - 1) mod Z.of_nat (Z.to_nat (n_units (k_freq o))))) cycle None)) as (v & E & NV); [apply nth_In; rewrite LC; assert (P0 : 0 < Z.of_nat (Z.to_nat (n_units (k_freq o)))) by lia; pose proof (Z.mod_pos_bound (k - 1) _ P0) as P1; clear - P0 P1; set (z := (k - 1) mod _) in *; clearbody z; lia|].
  rewrite E in MI. cbn [missing] in MI. contradiction.
Qed.
