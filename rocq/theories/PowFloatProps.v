(* C137: changing the unit by a power of two changes exponents only. *)
From Coq Require Import ZArith Reals List Lia Lra Bool.
From Flocq Require Import Core IEEE754.BinarySingleNaN.
From Verif Require Import FloatModel FloatSpec FloatProofs FloatProofs4 FloatProps TypedModel ExpFloatModel ExpFloatSpec ExpFloatProofs BoxFloatProofs GridSpec GridProofs GridProps PowFloatSpec PowFloatProofs.
Import ListNotations.
Open Scope R_scope.

Lemma not_tiny x : bpow radix2 (-1022) < Rabs (rn x) -> bpow radix2 (-1022) <= Rabs x.
Proof.
  intros L. destruct (Rle_or_lt (bpow radix2 (-1022)) (Rabs x)) as [G|G]; [exact G|]. exfalso.
  assert (H : Rabs (rn x) <= bpow radix2 (-1022)); [|lra]. unfold rnd. apply abs_round_le_generic; [apply FLT_exp_valid; reflexivity|apply valid_rnd_N| |lra].
  apply generic_format_FLT_bpow; [reflexivity|lia].
Qed.
Lemma pos_finite (y : double) : bpow radix2 (-1022) < Rabs (B2R y) -> is_finite y = true.
Proof. intros T. pose proof (bpow_gt_0 radix2 (-1022)). destruct y; try reflexivity; cbn [B2R] in T; rewrite Rabs_R0 in T; lra. Qed.
Lemma count_val n : (0 < n)%nat -> (Z.of_nat n <= 2 ^ 53)%Z -> is_finite (dbl of_n n) = true /\ B2R (dbl of_n n) = INR n /\ 1 <= INR n.
Proof. intros N L. destruct (of_n_exact 53 1024 FloatProps.p53 FloatProps.e1024 n L) as [F V]. split; [exact F|]. split; [exact V|]. apply (le_INR 1). lia. Qed.
Lemma mean_power {X} k (t u : X -> double) l m : (0 <= k <= 2000)%Z -> l <> [] -> (Z.of_nat (List.length l) <= 2 ^ 53)%Z -> Forall2 (fun x y => is_finite (u y) = true -> times_power k (t x) (u y)) l m ->
  let q := dbl fdiv (fold_left (fun s x => dbl fadd s (t x)) l (f0 53 1024)) (dbl of_n (List.length l)) in
  let q' := dbl fdiv (fold_left (fun s y => dbl fadd s (u y)) m (f0 53 1024)) (dbl of_n (List.length m)) in
  is_finite q' = true -> bpow radix2 (-1022) < Rabs (B2R q) -> times_power k q q'.
Proof.
  intros K N LN F2 q q' F T. subst q q'. rewrite <- (len2 _ _ _ F2) in *. destruct (count_val (List.length l) ltac:(destruct l; [congruence|cbn; lia]) LN) as (C1 & C2 & C3).
  pose proof (fdiv_finite_inv 53 1024 FloatProps.p53 FloatProps.e1024 _ _ F) as FS. pose proof (fold_power k t u K l m F2 _ _ (zero_power k) FS) as P.
  apply div_power; [lia|exact P|exact C1|lra| |exact F]. right. apply not_tiny. rewrite <- (fdiv_val 53 1024 FloatProps.p53 FloatProps.e1024); [exact T| |lra].
  apply pos_finite. exact T.
Qed.
(* The bias of the data in the larger numbers is 2^k times the bias, exactly: if it is finite, and if the
   bias in the smaller numbers is not so small that it underflows. *)
Theorem C137_bias :
  forall (k : Z) (d d' : list (double * double)),
    (0 <= k <= 2000)%Z -> pairs_times_power k d d' -> d <> [] -> (Z.of_nat (List.length d) <= 2 ^ 53)%Z ->
    is_finite (dbl f_bias d') = true -> bpow radix2 (-1022) < Rabs (B2R (dbl f_bias d)) ->
    times_power k (dbl f_bias d) (dbl f_bias d').
Proof.
  intros k d d' K P N LN F T. apply (mean_power k (fun p => dbl fsub (fst p) (snd p)) (fun p => dbl fsub (fst p) (snd p)) d d' K N LN); [|exact F|exact T].
  clear -K P. induction P as [|p q d d' [H1 H2] P IH]; constructor; [|exact IH]. intros F. apply sub_power; assumption.
Qed.
Print Assumptions C137_bias.
(* So are averages: of collocated observations, of moving windows, of stations. *)
Theorem C137_mean :
  forall (k : Z) (l l' : list double),
    (0 <= k <= 2000)%Z -> Forall2 (times_power k) l l' -> l <> [] -> (Z.of_nat (List.length l) <= 2 ^ 53)%Z ->
    is_finite (dbl f_mean l') = true -> bpow radix2 (-1022) < Rabs (B2R (dbl f_mean l)) ->
    times_power k (dbl f_mean l) (dbl f_mean l').
Proof.
  intros k l l' K P N LN F T. apply (mean_power k (fun x => x) (fun x => x) l l' K N LN); [|exact F|exact T].
  clear -P. induction P as [|p q d d' H P IH]; constructor; [|exact IH]. intros _. exact H.
Qed.
Print Assumptions C137_mean.

(* differences that are zero or of a size whose square can be represented well *)
Definition fair_differences (d : list (double * double)) : Prop :=
  Forall (fun p => B2R (dbl fsub (fst p) (snd p)) = 0 \/ bpow radix2 (-480) <= Rabs (B2R (dbl fsub (fst p) (snd p)))) d.
Lemma fair_sq x : x = 0 \/ bpow radix2 (-480) <= Rabs x -> x * x = 0 \/ bpow radix2 (-960) <= x * x.
Proof.
  intros [->|L]; [left; ring|right]. change (-960)%Z with (-480 + -480)%Z. rewrite bpow_plus. replace (x * x) with (Rabs x * Rabs x) by (rewrite <- Rabs_mult; apply Rabs_pos_eq; nra). pose proof (bpow_gt_0 radix2 (-480)). nra.
Qed.
Lemma fair_nz x : x = 0 \/ bpow radix2 (-960) <= x -> normal_or_zero x.
Proof. intros [H|H]; [left; exact H|right]. pose proof (bpow_gt_0 radix2 (-960)). rewrite Rabs_pos_eq by lra. eapply Rle_trans; [|exact H]. apply bpow_le. lia. Qed.
Lemma rn_ge x e : (-1074 <= e)%Z -> bpow radix2 e <= x -> bpow radix2 e <= rn x.
Proof. intros E L. apply round_ge_generic; [apply FLT_exp_valid; reflexivity|apply valid_rnd_N| |exact L]. apply generic_format_FLT_bpow; [reflexivity|exact E]. Qed.
Definition good_size (a : double) : Prop := is_finite a = true -> B2R a = 0 \/ bpow radix2 (-960) <= B2R a.
Lemma good_sq (x : double) : B2R x = 0 \/ bpow radix2 (-480) <= Rabs (B2R x) -> good_size (dbl fsq x).
Proof.
  intros H F. unfold fsq in *. rewrite (fmul_val 53 1024 FloatProps.p53 FloatProps.e1024) by exact F. apply fair_sq in H. destruct H as [->|H]; [left; apply (rnd_0 53 1024)|right; apply rn_ge; [lia|exact H]].
Qed.
Lemma good_add a b : good_size a -> good_size b -> good_size (dbl fadd a b).
Proof.
  intros A B F. destruct (fadd_finite_inv 53 1024 FloatProps.p53 FloatProps.e1024 a b F) as [Fa Fb]. rewrite (fadd_val 53 1024 FloatProps.p53 FloatProps.e1024) by exact F. pose proof (bpow_gt_0 radix2 (-960)).
  destruct (A Fa) as [EA|EA]; destruct (B Fb) as [EB|EB]; [left; rewrite EA, EB, Rplus_0_l; apply (rnd_0 53 1024)|right; apply rn_ge; [lia|lra]..].
Qed.
Lemma rss_good d : fair_differences d -> good_size (dbl f_RSS d).
Proof.
  intros F. unfold f_RSS. assert (G : good_size (f0 53 1024)) by (left; reflexivity). revert G. generalize (f0 53 1024). induction F as [|p d H F IH]; intros a G; [exact G|]. cbn [fold_left]. apply IH. apply good_add; [exact G|apply good_sq; exact H].
Qed.
Theorem C137_rss :
  forall (k : Z) (d d' : list (double * double)),
    (0 <= k <= 1000)%Z -> pairs_times_power k d d' -> fair_differences d -> is_finite (dbl f_RSS d') = true ->
    times_power (2 * k) (dbl f_RSS d) (dbl f_RSS d').
Proof.
  intros k d d' K P FD F. apply (fold_power (2 * k) (fun p => dbl fsq (dbl fsub (fst p) (snd p))) (fun p => dbl fsq (dbl fsub (fst p) (snd p))) ltac:(lia) d d'); [|apply zero_power|exact F].
  clear F. revert FD. induction P as [|p q d d' [H1 H2] P IH]; intros FD; constructor; [|apply IH; inversion FD; assumption]. intros F. unfold fsq in *.
  inversion FD as [|x y H H']; subst. apply sq_power; [lia| |apply fair_nz, fair_sq, H|exact F]. apply sub_power; [lia|exact H1|exact H2|]. apply (fmul_finite_inv 53 1024 FloatProps.p53 FloatProps.e1024) in F. apply F.
Qed.
Print Assumptions C137_rss.
Lemma sqrt_power k x x' : (0 <= k)%Z -> times_power (2 * k) x x' -> B2R x = 0 \/ bpow radix2 (-1022) <= B2R x -> times_power k (dbl fsqrt x) (dbl fsqrt x').
Proof.
  intros K (A1 & A2 & A3) H. assert (NN : 0 <= B2R x) by (pose proof (bpow_gt_0 radix2 (-1022)); lra). assert (NN' : 0 <= B2R x') by (rewrite A3; apply Rmult_le_pos; [exact NN|apply bpow_ge_0]).
  assert (FS : forall y : double, is_finite y = true -> 0 <= B2R y -> is_finite (dbl fsqrt y) = true).
  { intros y Fy Ny. unfold fsqrt. destruct (Bsqrt_correct 53 1024 FloatProps.p53 FloatProps.e1024 mode_NE y) as (_ & E & _). rewrite E. destruct y as [s|s| |s m e B]; try discriminate Fy; [reflexivity|]. destruct s; [|reflexivity]. exfalso.
    assert (B2R (B754_finite true m e B : double) < 0) by (apply F2R_lt_0; reflexivity). lra. }
  split; [apply FS; assumption|]. split; [apply FS; assumption|].
  assert (V : forall y : double, B2R (dbl fsqrt y) = rn (sqrt (B2R y))) by (intros y; exact (proj1 (Bsqrt_correct 53 1024 FloatProps.p53 FloatProps.e1024 mode_NE y))). rewrite !V, A3.
  assert (Q : sqrt (B2R x * bpow radix2 (2 * k)) = sqrt (B2R x) * bpow radix2 k).
  { rewrite sqrt_mult by (try apply bpow_ge_0; exact NN). f_equal. replace (2 * k)%Z with (k + k)%Z by ring. rewrite bpow_plus. apply sqrt_square, bpow_ge_0. }
  rewrite Q. apply rn_nz; [exact K|]. destruct H as [H|H]; [left; rewrite H; apply sqrt_0|right]. rewrite Rabs_pos_eq by apply sqrt_pos.
  apply Rle_trans with (bpow radix2 (-511)); [apply bpow_le; lia|]. rewrite <- (sqrt_square (bpow radix2 (-511))) by apply bpow_ge_0. apply sqrt_le_1_alt. rewrite <- bpow_plus. exact H.
Qed.
Theorem C137_rmsd :
  forall (k : Z) (d d' : list (double * double)),
    (0 <= k <= 1000)%Z -> pairs_times_power k d d' -> fair_differences d -> d <> [] -> (Z.of_nat (List.length d) <= 2 ^ 53)%Z ->
    is_finite (dbl f_msd d') = true ->
    times_power (2 * k) (dbl f_msd d) (dbl f_msd d') /\ times_power k (dbl f_rmsd d) (dbl f_rmsd d').
Proof.
  intros k d d' K P FD N LN F. assert (LE : List.length d = List.length d') by (apply (len2 _ _ _ P)). destruct (count_val (List.length d) ltac:(destruct d; [congruence|cbn; lia]) LN) as (C1 & C2 & C3).
  unfold f_rmsd, f_msd in *. rewrite <- LE in *. pose proof (fdiv_finite_inv 53 1024 FloatProps.p53 FloatProps.e1024 _ _ F) as FR. pose proof (C137_rss k d d' K P FD FR) as PR.
  assert (GS : B2R (dbl f_RSS d) = 0 \/ bpow radix2 (-960) <= B2R (dbl f_RSS d)) by (apply rss_good; [exact FD|apply PR]).
  assert (GQ : B2R (dbl f_RSS d) / B2R (dbl of_n (List.length d)) = 0 \/ bpow radix2 (-1013) <= B2R (dbl f_RSS d) / B2R (dbl of_n (List.length d))).
  { rewrite C2. destruct GS as [->|GS]; [left; field; lra|right]. change (-1013)%Z with (-960 + - (53))%Z. rewrite bpow_plus, bpow_opp. unfold Rdiv. apply Rmult_le_compat; [apply bpow_ge_0|left; apply Rinv_0_lt_compat, bpow_gt_0|exact GS|].
    apply Rinv_le; [lra|]. rewrite INR_IZR_INZ. change (bpow radix2 53) with (IZR (2 ^ 53)). apply IZR_le. exact LN. }
  assert (PM : times_power (2 * k) (dbl fdiv (dbl f_RSS d) (dbl of_n (List.length d))) (dbl fdiv (dbl f_RSS d') (dbl of_n (List.length d)))).
  { apply div_power; [lia|exact PR|exact C1|lra| |exact F]. destruct GQ as [G|G]; [left; exact G|right]. pose proof (bpow_gt_0 radix2 (-1013)). rewrite Rabs_pos_eq by lra. eapply Rle_trans; [|exact G]. apply bpow_le. lia. }
  split; [exact PM|]. apply sqrt_power; [lia|exact PM|]. rewrite (fdiv_val 53 1024 FloatProps.p53 FloatProps.e1024) by (try apply PM; lra).
  destruct GQ as [->|G]; [left; apply (rnd_0 53 1024)|right]. apply rn_ge; [lia|]. eapply Rle_trans; [|exact G]. apply bpow_le. lia.
Qed.
Print Assumptions C137_rmsd.
(* Other factors change the last digits: three pairs (0.1, 0) and the same in tenths have different biases. *)
Theorem C137_ten_refuted :
  let d := tenths [(1, 0); (1, 0); (1, 0)]%Z in
  Bltb (dbl f_bias [(z64 1, z64 0); (z64 1, z64 0); (z64 1, z64 0)]) (dbl fmul (z64 10) (dbl f_bias d)) = true.
Proof. cbv zeta. vm_compute. reflexivity. Qed.
Print Assumptions C137_ten_refuted.
(* With underflow a power of two does, too: half of the smallest number is rounded to zero. *)
Theorem C137_underflow_refuted :
  let tiny := dyad 1 (-1074) in let twice := dyad 1 (-1073) in let z := f0 53 1024 in
  Beqb (dbl fmul tiny (z64 2)) twice = true
  /\ Beqb (dbl f_bias [(tiny, z); (z, z)]) z = true /\ Bltb z (dbl f_bias [(twice, z); (z, z)]) = true.
Proof. cbv zeta. split; [vm_compute; reflexivity|]. split; vm_compute; reflexivity. Qed.
Print Assumptions C137_underflow_refuted.

Lemma z64_val z : (Z.abs z <= 2 ^ 53)%Z -> is_finite (z64 z) = true /\ B2R (z64 z) = IZR z.
Proof. intros B. destruct (z64_grid z B) as [F V]. split; [exact F|]. rewrite V. cbn. ring. Qed.
Lemma z64_power z k : (0 <= k)%Z -> (Z.abs z <= 2 ^ 53)%Z -> (Z.abs (z * 2 ^ k) <= 2 ^ 53)%Z -> times_power k (z64 z) (z64 (z * 2 ^ k)).
Proof. intros K A B. destruct (z64_val z A) as [F1 V1]. destruct (z64_val _ B) as [F2 V2]. split; [exact F1|]. split; [exact F2|]. rewrite V1, V2, mult_IZR. f_equal. symmetry. rewrite <- (IZR_Zpower radix2) by exact K. reflexivity. Qed.
Definition small_units : list (double * double) := [(z64 3, z64 (-1)); (z64 5, z64 2); (z64 7, z64 7)].
Definition large_units : list (double * double) := [(z64 (3 * 2 ^ 5), z64 (-1 * 2 ^ 5)); (z64 (5 * 2 ^ 5), z64 (2 * 2 ^ 5)); (z64 (7 * 2 ^ 5), z64 (7 * 2 ^ 5))].
Example C137_case :
  pairs_times_power 5 small_units large_units /\ is_finite (dbl f_bias large_units) = true /\ is_finite (dbl f_msd large_units) = true
  /\ bpow radix2 (-1022) < Rabs (B2R (dbl f_bias small_units)) /\ fair_differences small_units.
Proof.
  split; [repeat constructor; apply z64_power; vm_compute; discriminate|]. split; [vm_compute; reflexivity|]. split; [vm_compute; reflexivity|].
  assert (C : forall a : double, is_finite a = true -> Bltb (z64 1) (Babs a) = true -> 1 < Rabs (B2R a)).
  { intros a F L. destruct (z64_val 1 ltac:(vm_compute; discriminate)) as [F1 V1]. rewrite Bltb_correct in L by (try exact F1; rewrite is_finite_Babs; exact F). rewrite V1, B2R_Babs in L. destruct (Rlt_bool_spec 1 (Rabs (B2R a))) as [X|X]; [exact X|discriminate L]. }
  assert (O : bpow radix2 (-480) <= 1) by (change 1 with (bpow radix2 0); apply bpow_le; lia). split.
  - apply Rlt_trans with 1; [change 1 with (bpow radix2 0); apply bpow_lt; lia|]. apply C; vm_compute; reflexivity.
  - unfold fair_differences, small_units. constructor; [right; eapply Rle_trans; [exact O|]; left; apply C; vm_compute; reflexivity|]. constructor; [right; eapply Rle_trans; [exact O|]; left; apply C; vm_compute; reflexivity|].
    constructor; [|constructor]. left. cbn [fst snd]. vm_compute. reflexivity.
Qed.
