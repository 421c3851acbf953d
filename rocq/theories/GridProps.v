(* C134: sums of data on a power-of-two grid are exact. *)
From Coq Require Import ZArith Reals List Lia Lra Bool Permutation.
From Flocq Require Import Core IEEE754.BinarySingleNaN.
From Verif Require Import Base Calendar FloatModel FloatSpec FloatProofs FloatProofs4 FloatProps TypedModel ExpFloatModel ExpFloatSpec ExpFloatProofs BoxFloatModel BoxFloatSpec BoxFloatProofs BoxFloatProofs2 BoxFloatProps JdModel JdSpec MeanFloatModel MeanFloatSpec MeanFloatProps GridSpec GridProofs.
Import ListNotations.
Open Scope R_scope.

(* The bias of pairs of multiples of 2^e: the exact mean difference, rounded once. *)
Theorem C134_bias :
  forall e (m : list (Z * Z)) (d : list (double * double)),
    pairs_on_grid e m d -> d <> [] -> (Z.of_nat (List.length d) <= 2 ^ 53)%Z -> (z_size (differences m) <= 2 ^ 53)%Z -> (-1074 <= e <= 950)%Z ->
    rounded_once (IZR (z_sum (differences m)) * bpow radix2 e / INR (List.length d)) (dbl f_bias d).
Proof. exact bias_grid. Qed.
Print Assumptions C134_bias.

(* The residual sum of squares has no rounding error at all. *)
Theorem C134_rss :
  forall e (m : list (Z * Z)) (d : list (double * double)),
    pairs_on_grid e m d -> (z_sum (squares (differences m)) <= 2 ^ 53)%Z -> (-537 <= e <= 475)%Z ->
    on_grid (2 * e) (z_sum (squares (differences m))) (dbl f_RSS d).
Proof. exact rss_grid. Qed.
Print Assumptions C134_rss.

(* The mean square difference is rounded once, its root twice. *)
Theorem C134_msd :
  forall e (m : list (Z * Z)) (d : list (double * double)),
    pairs_on_grid e m d -> d <> [] -> (Z.of_nat (List.length d) <= 2 ^ 53)%Z -> (z_sum (squares (differences m)) <= 2 ^ 53)%Z -> (-537 <= e <= 475)%Z ->
    let msd := IZR (z_sum (squares (differences m))) * bpow radix2 (2 * e) / INR (List.length d) in
    rounded_once msd (dbl f_msd d) /\ B2R (dbl f_rmsd d) = nearest_double (sqrt (nearest_double msd)).
Proof.
  intros e m d F N LN B E msd. assert (M : rounded_once msd (dbl f_msd d)).
  { apply (div_grid (2 * e)); [exact (rss_grid e m d F B E)| |lia|destruct d; [congruence|cbn; lia]|exact LN]. rewrite Z.abs_eq; [exact B|apply squares_nonneg]. }
  split; [exact M|]. destruct M as [_ V]. rewrite <- V. unfold f_rmsd, fsqrt. exact (proj1 (Bsqrt_correct 53 1024 p53 e1024 mode_NE (dbl f_msd d))).
Qed.
Print Assumptions C134_msd.

(* Three pairs of whole numbers. *)
Definition counts : list (Z * Z) := [(3, 1); (5, 9); (1005, 1000)]%Z.
Definition count_pairs : list (double * double) := map (fun q => (z64 (fst q), z64 (snd q))) counts.
Lemma z64_grid z : (Z.abs z <= 2 ^ 53)%Z -> on_grid 0 z (z64 z).
Proof. intros B. destruct (JdProofs.z_exact z B) as [F V]. split; [exact F|]. transitivity (IZR z); [exact V|cbn; ring]. Qed.
Example C134_pairs_case :
  pairs_on_grid 0 counts count_pairs /\ count_pairs <> [] /\ (z_size (differences counts) <= 2 ^ 53)%Z /\ z_sum (differences counts) = 3%Z /\ z_sum (squares (differences counts)) = 45%Z.
Proof.
  split; [|split; [discriminate|repeat split; vm_compute; discriminate || reflexivity]]. unfold count_pairs, counts. cbn [map fst snd].
  repeat constructor; cbn [fst snd]; apply z64_grid; vm_compute; discriminate.
Qed.

(* The bias is zero exactly if both columns have the same sum. *)
Theorem C134_bias_zero :
  forall e (m : list (Z * Z)) (d : list (double * double)),
    pairs_on_grid e m d -> d <> [] -> (Z.of_nat (List.length d) <= 2 ^ 53)%Z -> (z_size (differences m) <= 2 ^ 53)%Z -> (-1000 <= e <= 950)%Z ->
    (B2R (dbl f_bias d) = 0 <-> z_sum (map fst m) = z_sum (map snd m)).
Proof.
  intros e m d F N LN B E. destruct (C134_bias e m d F N LN B ltac:(lia)) as [_ V]. rewrite V.
  assert (S : z_sum (differences m) = (z_sum (map fst m) - z_sum (map snd m))%Z).
  { clear. induction m as [|q m IH]; [reflexivity|]. change (z_sum (differences (q :: m))) with ((fst q - snd q) + z_sum (differences m))%Z. rewrite IH. cbn [map]. unfold z_sum. cbn [fold_right]. lia. }
  assert (IN : 1 <= INR (List.length d)) by (apply (le_INR 1); destruct d; [congruence|cbn; lia]).
  split; intros H.
  - destruct (Z.eq_dec (z_sum (differences m)) 0) as [Z0|NZ]; [lia|]. exfalso. set (z := z_sum (differences m)) in *. clearbody z.
    assert (L : bpow radix2 (-1074) <= Rabs (IZR z * bpow radix2 e / INR (List.length d))).
    { unfold Rdiv. rewrite !Rabs_mult, (Rabs_pos_eq (bpow radix2 e)) by apply bpow_ge_0. rewrite (Rabs_pos_eq (/ INR (List.length d))) by (left; apply Rinv_0_lt_compat; lra).
      assert (Z1 : 1 <= Rabs (IZR z)) by (rewrite <- abs_IZR; apply IZR_le; lia).
      assert (I1 : bpow radix2 (-53) <= / INR (List.length d)).
      { change (-53)%Z with (- (53))%Z. rewrite (bpow_opp radix2 53). apply Rinv_le; [lra|]. rewrite INR_IZR_INZ. change (bpow radix2 53) with (IZR (2 ^ 53)). apply IZR_le. exact LN. }
      assert (I2 : bpow radix2 (-1000) <= bpow radix2 e) by (apply bpow_le; lia). apply Rle_trans with (bpow radix2 (-1000) * bpow radix2 (-53)); [rewrite <- bpow_plus; apply bpow_le; lia|].
      apply Rmult_le_compat; try apply bpow_ge_0; [|exact I1]. pose proof (bpow_ge_0 radix2 e). nra. }
    assert (G : bpow radix2 (-1074) <= Rabs (nearest_double (IZR z * bpow radix2 e / INR (List.length d)))).
    { apply abs_round_ge_generic; [exact (FLT_exp_valid (prec_gt_0_ := p53) _ _)|auto with typeclass_instances| |exact L]. apply generic_format_bpow. unfold FLT_exp. lia. }
    rewrite H, Rabs_R0 in G. pose proof (bpow_gt_0 radix2 (-1074)). lra.
  - rewrite S, H, Z.sub_diag. replace (0 * bpow radix2 e / INR (List.length d)) with 0 by (field; lra). unfold nearest_double. apply round_0. auto with typeclass_instances.
Qed.
Print Assumptions C134_bias_zero.
(* columns that differ in every row and have the same sum *)
Example C134_bias_zero_case :
  let m := [(3, 1); (5, 9); (1002, 1000)]%Z in let d := map (fun q => (z64 (fst q), z64 (snd q))) m in
  pairs_on_grid 0 m d /\ (z_size (differences m) <= 2 ^ 53)%Z /\ z_sum (map fst m) = z_sum (map snd m) /\ z_sum (map fst counts) <> z_sum (map snd counts).
Proof.
  cbv zeta. split; [|repeat split; vm_compute; discriminate || reflexivity]. cbn [map fst snd].
  repeat constructor; cbn [fst snd]; apply z64_grid; vm_compute; discriminate.
Qed.

(* The order of the pairs is of no influence. *)
Lemma perm_grid e m d d' : Permutation d d' -> pairs_on_grid e m d -> exists m', Permutation m m' /\ pairs_on_grid e m' d'.
Proof.
  intros P. revert m. induction P as [|p d d' P IH|p q d|d1 d2 d3 P1 IH1 P2 IH2]; intros m F.
  - exists m. split; [reflexivity|exact F].
  - inversion F as [|z p' m0 d0 A B]; subst. destruct (IH m0 B) as (m' & Q & G). exists (z :: m'). split; [constructor; exact Q|constructor; assumption].
  - inversion F as [|z1 p1 m1 d1 A1 B1]; subst. inversion B1 as [|z2 p2 m2 d2 A2 B2]; subst. exists (z2 :: z1 :: m2). split; [constructor|repeat (constructor; try assumption)].
  - destruct (IH1 m F) as (m1 & Q1 & G1). destruct (IH2 m1 G1) as (m2 & Q2 & G2). exists m2. split; [eapply perm_trans; eassumption|exact G2].
Qed.
Lemma perm_sum l k : Permutation l k -> z_sum l = z_sum k.
Proof. induction 1; unfold z_sum in *; cbn [fold_right]; lia. Qed.
Lemma perm_size l k : Permutation l k -> z_size l = z_size k.
Proof. induction 1; unfold z_size in *; cbn [fold_right]; lia. Qed.
Theorem C134_order :
  forall e (m : list (Z * Z)) (d d' : list (double * double)),
    Permutation d d' -> pairs_on_grid e m d -> d <> [] -> (Z.of_nat (List.length d) <= 2 ^ 53)%Z -> (z_size (differences m) <= 2 ^ 53)%Z -> (z_sum (squares (differences m)) <= 2 ^ 53)%Z -> (-537 <= e <= 475)%Z ->
    B2R (dbl f_bias d) = B2R (dbl f_bias d') /\ B2R (dbl f_RSS d) = B2R (dbl f_RSS d') /\ B2R (dbl f_msd d) = B2R (dbl f_msd d') /\ B2R (dbl f_rmsd d) = B2R (dbl f_rmsd d').
Proof.
  intros e m d d' P F N LN B1 B2 E. destruct (perm_grid e m d d' P F) as (m' & Q & F').
  assert (PD : Permutation (differences m) (differences m')) by (apply Permutation_map; exact Q). assert (PS : Permutation (squares (differences m)) (squares (differences m'))) by (apply Permutation_map; exact PD).
  assert (N' : d' <> []) by (intros ->; apply N; apply Permutation_nil; symmetry; exact P). pose proof (Permutation_length P) as LE.
  pose proof (perm_sum _ _ PD) as S1. pose proof (perm_sum _ _ PS) as S2. pose proof (perm_size _ _ PD) as S3.
  destruct (C134_bias e m d F N LN B1 ltac:(lia)) as [_ V1]. destruct (C134_bias e m' d' F' N' ltac:(rewrite <- LE; exact LN) ltac:(rewrite <- S3; exact B1) ltac:(lia)) as [_ V1'].
  destruct (C134_rss e m d F B2 E) as [_ V2]. destruct (C134_rss e m' d' F' ltac:(rewrite <- S2; exact B2) E) as [_ V2'].
  destruct (C134_msd e m d F N LN B2 E) as ((_ & V3) & V4). destruct (C134_msd e m' d' F' N' ltac:(rewrite <- LE; exact LN) ltac:(rewrite <- S2; exact B2) E) as ((_ & V3') & V4').
  rewrite V1, V1', V2, V2', V3, V3', V4, V4', S1, S2, LE. repeat split.
Qed.
Print Assumptions C134_order.
Example C134_order_case :
  Permutation count_pairs (rev count_pairs) /\ pairs_on_grid 0 counts count_pairs /\ (z_size (differences counts) <= 2 ^ 53)%Z /\ (z_sum (squares (differences counts)) <= 2 ^ 53)%Z.
Proof. split; [apply Permutation_rev|]. split; [apply C134_pairs_case|]. split; vm_compute; discriminate. Qed.
(* Off the grid the order matters: 0.1, 0.2 and 0.3 compared with zeros have another bias in the reverse order. *)
Theorem C134_order_refuted :
  let d := [(dec 1 10, dec 0 1); (dec 2 10, dec 0 1); (dec 3 10, dec 0 1)] in
  Beqb (dbl f_bias d) (dbl f_bias (rev d)) = false /\ is_finite (dbl f_bias d) = true /\ is_finite (dbl f_bias (rev d)) = true.
Proof. cbv zeta. repeat split; vm_compute; reflexivity. Qed.
Print Assumptions C134_order_refuted.

(* Collocation by means, windows that are multiples of 675 seconds and times in whole milliseconds: each value is the exact mean
   of the observations in the closed window, rounded once. None stands for a missing observation. *)
Definition datum_on_grid (e : Z) (z : option Z) (v : double) : Prop := match z with Some n => on_grid e n v | None => BinarySingleNaN.is_nan v = true end.
Fixpoint known (l : list (option Z)) : list Z := match l with [] => [] | Some z :: r => z :: known r | None :: r => known r end.
Definition window_mean (e : Z) (zs : list Z) (r : double) : Prop :=
  match zs with [] => BinarySingleNaN.is_nan r = true | _ => rounded_once (IZR (z_sum zs) * bpow radix2 e / INR (List.length zs)) r end.
Lemma known_grid e l v : Forall2 (datum_on_grid e) l v -> Forall2 (on_grid e) (known l) (present v).
Proof.
  induction 1 as [|z x l v D F IH]; [constructor|]. unfold present in *. cbn [filter]. destruct z as [n|]; cbn [datum_on_grid known] in *.
  - destruct D as [FD VD]. assert (NX : BinarySingleNaN.is_nan x = false) by (destruct x; cbn in *; congruence). rewrite NX. cbn [negb]. constructor; [split; assumption|exact IH].
  - rewrite D. cbn [negb]. exact IH.
Qed.
Lemma window_grid e a w : forall other l v, Forall2 (datum_on_grid e) l v -> Forall2 (datum_on_grid e) (in_window a w other l) (in_window a w other v).
Proof.
  intros other l v F. revert other. induction F as [|z x l v D F IH]; intros [|o other]; unfold in_window in *; cbn [combine filter map]; try constructor.
  cbn [fst]. destruct (Z.abs (ns_time o - ns_time a) <=? w)%Z; cbn [map snd]; [constructor; [exact D|apply IH]|apply IH].
Qed.
Lemma window_size a w : forall other l, (z_size (known (in_window a w other l)) <= z_size (known l))%Z /\ (List.length (known (in_window a w other l)) <= List.length l)%nat.
Proof.
  intros other l. revert other. induction l as [|z l IH]; intros other.
  { unfold in_window. destruct other; cbn; split; lia. }
  destruct other as [|o other].
  { change (in_window a w [] (z :: l)) with (@nil (option Z)). split; [exact (size_nonneg (known (z :: l)))|cbn; lia]. }
  destruct (IH other) as [A B]. unfold in_window in *. cbn [combine filter]. cbn [fst]. destruct (Z.abs (ns_time o - ns_time a) <=? w)%Z; cbn [map snd]; destruct z as [n|]; cbn [known List.length]; unfold z_size in *; cbn [fold_right]; split; lia.
Qed.
Theorem C134_collocation :
  forall oob (ref other : list stamp) (nums : list (option Z)) (values : list double) e k,
    List.length other = List.length values -> Forall valid_stamp ref -> Forall valid_stamp other -> in_order ref -> in_order other ->
    (1 <= k <= 3000000)%Z -> (forall a, In a ref \/ In a other -> exists ms, ns_time a = ms * 10 ^ 6)%Z ->
    Forall2 (datum_on_grid e) nums values -> (-1074 <= e <= 950)%Z -> (z_size (known nums) <= 2 ^ 53)%Z -> (Z.of_nat (List.length values) <= 2 ^ 53)%Z ->
    let w := (k * (675 * 10 ^ 9))%Z in
    Forall2 (fun a r => window_mean e (known (in_window a w other nums)) r) ref (dbl f_collocate_mean oob ref other values w).
Proof.
  intros oob ref other nums values e k L VR VO OR OO K MS G E B LN w. unfold w. rewrite (C108_parts_of_days oob ref other values k L VR VO OR OO K MS). fold w.
  pose proof (len2 _ _ _ G) as LG. clear - G E B LN LG. induction ref as [|a ref IH]; [constructor|]. cbn [map]. constructor; [|exact IH].
  pose proof (known_grid e _ _ (window_grid e a w other nums values G)) as KG. destruct (window_size a w other nums) as [S1 S2]. pose proof (len2 _ _ _ KG) as LK.
  unfold window_mean. destruct (known (in_window a w other nums)) as [|z0 zs] eqn:EK.
  - inversion KG as [H1 H2|]. unfold mean_of. rewrite <- H2. reflexivity.
  - rewrite <- EK in *. assert (NE : present (in_window a w other values) <> []) by (intros H; rewrite H, EK in LK; discriminate LK).
    assert (EM : mean_of (in_window a w other values) = dbl f_mean (present (in_window a w other values))) by (unfold mean_of, f_mean; destruct (present _); [congruence|reflexivity]).
    rewrite EM, LK. apply (mean_grid e _ _ KG NE); [rewrite <- LK; lia|lia|exact E].
Qed.
Print Assumptions C134_collocation.
Example C134_collocation_case :
  let ref := [on_day 13 20; on_day 18 0] in let other := [on_day 1 20; on_day 6 0; on_day 13 0] in let nums := [Some 20; None; Some 31]%Z in
  Forall valid_stamp ref /\ Forall valid_stamp other /\ in_order ref /\ in_order other /\ (forall a, In a ref \/ In a other -> exists ms, ns_time a = ms * 10 ^ 6)%Z /\
  Forall2 (datum_on_grid 0) nums [z64 20; B754_nan; z64 31] /\ (z_size (known nums) <= 2 ^ 53)%Z /\
  map (fun a => known (in_window a (64 * (675 * 10 ^ 9)) other nums)) ref = [[20; 31]; [31]]%Z.
Proof.
  cbv zeta. destruct C108_parts_of_days_case as (A & B & C & D & F & _). split; [exact A|]. split; [exact B|]. split; [exact C|]. split; [exact D|]. split; [exact F|]. split.
  - constructor; [apply z64_grid; vm_compute; discriminate|]. constructor; [reflexivity|]. constructor; [apply z64_grid; vm_compute; discriminate|constructor].
  - split; vm_compute; [discriminate|reflexivity].
Qed.

(* Moving averages of Julian-dated series: the samples up to half the (single precision) window away, their exact mean rounded once. *)
Theorem C134_moving_average :
  forall (window : double) fillna min_obs ser (num : nat -> Z) c e i,
    chronological ser -> (c * Z.of_nat (List.length ser) <= 2 ^ 53)%Z -> (Z.of_nat (List.length ser) < 2 ^ 31)%Z -> is_finite window = true -> bpow radix2 (-126) <= B2R window <= bpow radix2 127 ->
    (forall k, (k < List.length ser)%nat -> 2097152 <= B2R (time_of ser k) < 4194304) -> (i < List.length ser)%nat -> (-1074 <= e <= 950)%Z -> (0 <= c)%Z ->
    (forall k, (k < List.length ser)%nat -> BoxFloatSpec.present (z64 (-999999)) (value_of ser k) -> on_grid e (num k) (value_of ser k) /\ (Z.abs (num k) <= c)%Z) ->
    exists sel, NoDup sel /\
      (forall k, In k sel <-> (k < List.length ser)%nat /\ BoxFloatSpec.present (z64 (-999999)) (value_of ser k) /\ Rabs (B2R (time_of ser k) - B2R (time_of ser i)) <= B2R (to_single window) / 2) /\
      exists r, nth_error (f_moving_average window fillna min_obs ser) i = Some r /\
        (BoxFloatSpec.present (z64 (-999999)) (value_of ser i) \/ fillna = true -> (min_obs <= Z.of_nat (List.length sel))%Z -> sel <> [] ->
           rounded_once (IZR (z_sum (map num sel)) * bpow radix2 e / INR (List.length sel)) r).
Proof.
  intros window fillna mo ser num c e i C BC LN F B J L E C0 G. destruct (window_single window F B) as (FS & _). destruct (limit_val (to_single window) FS) as (FL & VL).
  destruct (chosen_all (z64 (-999999)) (f_limit (to_single window)) ser i C FL L) as (ND & MEM). pose proof (chosen_length (z64 (-999999)) (f_limit (to_single window)) ser i L) as CL.
  pose proof (box_at (z64 (-999999)) (to_single window) fillna mo ser i L) as BA. set (sel := chosen (z64 (-999999)) (f_limit (to_single window)) ser i) in *. clearbody sel.
  exists sel. split; [exact ND|]. split.
  { intros k. rewrite MEM, present_missing, VL. split; intros (K & M & N); (split; [exact K|]); (split; [exact M|]).
    - rewrite julian_diff in N by (apply J; assumption). exact N.
    - rewrite julian_diff by (apply J; assumption). exact N. }
  eexists. split; [exact BA|]. intros P MO NE.
  assert (PB : (negb (f_missing (z64 (-999999)) (value_of ser i)) || fillna)%bool = true) by (destruct P as [P| ->]; [apply present_missing in P; rewrite P; reflexivity|apply orb_true_r]).
  rewrite PB. rewrite (proj2 (Z.leb_le _ _) MO).
  assert (SG : Forall2 (on_grid e) (map num sel) (map (value_of ser) sel) /\ (z_size (map num sel) <= c * Z.of_nat (List.length sel))%Z).
  { assert (IN : forall k, In k sel -> on_grid e (num k) (value_of ser k) /\ (Z.abs (num k) <= c)%Z) by (intros k I; apply MEM in I as (K & M & _); apply G; [exact K|apply present_missing, M]).
    clear - IN C0. induction sel as [|k sel IH]; [split; [constructor|cbn; lia]|]. destruct IH as [I1 I2]; [intros j I; apply IN; right; exact I|]. destruct (IN k (or_introl eq_refl)) as [A1 A2]. split; [constructor; assumption|].
    cbn [map List.length]. unfold z_size in *. cbn [fold_right]. rewrite Nat2Z.inj_succ. lia. }
  destruct SG as [SG SB]. pose proof (mean_grid e _ _ SG) as MG. rewrite map_length in MG. apply MG; [destruct sel; [congruence|discriminate]|lia|nia|exact E].
Qed.
Print Assumptions C134_moving_average.
(* hourly whole numbers with two gaps, the series of C106: all its hypotheses on the dates and the window are met *)
Example C134_moving_average_case :
  let num k := nth k [10; 20; 0; 30; 0; 70; 80]%Z 0%Z in
  chronological demo /\ (forall k, (k < List.length demo)%nat -> 2097152 <= B2R (time_of demo k) < 4194304) /\ (80 * Z.of_nat (List.length demo) <= 2 ^ 53)%Z /\
  (forall k, (k < List.length demo)%nat -> BoxFloatSpec.present (z64 (-999999)) (value_of demo k) -> on_grid 0 (num k) (value_of demo k) /\ (Z.abs (num k) <= 80)%Z).
Proof.
  cbv zeta. destruct C106_met as (A & _ & _ & B & _). split; [exact A|]. split; [exact B|]. split; [vm_compute; discriminate|]. intros k K P. change (List.length demo) with 7%nat in K.
  assert (T : forall b, b = false -> b = true -> False) by (intros b -> H; discriminate H).
  do 7 (destruct k as [|k]; [first [split; [apply z64_grid; vm_compute; discriminate|vm_compute; discriminate]|exfalso; destruct P as (P1 & P2); first [apply (T _ P2); vm_compute; reflexivity|apply (T _ P1); vm_compute; reflexivity]]|]). lia.
Qed.
