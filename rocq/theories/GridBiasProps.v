(* C134, continued: bias, smallest and largest difference and RMSD as computed. *)
From Coq Require Import ZArith Reals List Lia Lra Bool.
From Flocq Require Import Core Relative IEEE754.BinarySingleNaN.
From Verif Require Import FloatModel FloatSpec FloatProofs FloatProofs4 FloatProps TypedModel ExpFloatModel ExpFloatSpec ExpFloatProofs BoxFloatProofs GridSpec GridProofs GridProps.
Import ListNotations.
Open Scope R_scope.

(* n times the sum of squares exceeds the square of the sum by at least n - 1, unless all numbers are equal *)
Definition spread (l : list Z) : Z := (Z.of_nat (List.length l) * z_sum (squares l) - z_sum l * z_sum l)%Z.
Fixpoint dist2 (x : Z) (l : list Z) : Z := match l with [] => 0%Z | z :: r => ((x - z) * (x - z) + dist2 x r)%Z end.
Lemma dist2_eq x l : dist2 x l = (Z.of_nat (List.length l) * (x * x) + z_sum (squares l) - 2 * x * z_sum l)%Z.
Proof.
  induction l as [|z l IH]; [cbn; ring|]. cbn [dist2]. rewrite IH. change (z_sum (squares (z :: l))) with (z * z + z_sum (squares l))%Z. change (z_sum (z :: l)) with (z + z_sum l)%Z.
  cbn [List.length]. rewrite Nat2Z.inj_succ. ring.
Qed.
Lemma dist2_nonneg x l : (0 <= dist2 x l)%Z.
Proof. induction l as [|z l IH]; cbn [dist2]; [lia|]. pose proof (Z.square_nonneg (x - z)). lia. Qed.
Lemma dist2_pos x l z : In z l -> z <> x -> (1 <= dist2 x l)%Z.
Proof.
  induction l as [|y l IH]; [intros []|]. intros [->|J] NE; cbn [dist2]; pose proof (dist2_nonneg x l); [|pose proof (Z.square_nonneg (x - y)); specialize (IH J NE); lia].
  assert (1 <= (x - z) * (x - z))%Z by nia. lia.
Qed.
Lemma dist2_const x c l : (forall z, In z l -> z = c) -> dist2 x l = (Z.of_nat (List.length l) * ((x - c) * (x - c)))%Z.
Proof.
  induction l as [|z l IH]; intros H; [reflexivity|]. cbn [dist2]. rewrite IH by (intros y J; apply H; right; exact J). rewrite (H z (or_introl eq_refl)). cbn [List.length]. rewrite Nat2Z.inj_succ. ring.
Qed.
Lemma spread_cons x l : spread (x :: l) = (spread l + dist2 x l)%Z.
Proof.
  unfold spread. rewrite dist2_eq. change (z_sum (squares (x :: l))) with (x * x + z_sum (squares l))%Z. change (z_sum (x :: l)) with (x + z_sum l)%Z. cbn [List.length]. rewrite Nat2Z.inj_succ. ring.
Qed.
Lemma spread_bound l : (exists c, forall z, In z l -> z = c) \/ (Z.of_nat (List.length l) - 1 <= spread l)%Z.
Proof.
  induction l as [|x l [(c & E)|B]]; [left; exists 0%Z; intros z []| |].
  - destruct (Z.eq_dec x c) as [->|N]; [left; exists c; intros z [<-|J]; [reflexivity|apply E, J]|]. right. rewrite spread_cons, (dist2_const x c l E). cbn [List.length]. rewrite Nat2Z.inj_succ.
    assert (1 <= (x - c) * (x - c))%Z by nia. assert (0 <= spread l)%Z.
    { clear - E. assert (spread l = 0)%Z; [|lia]. induction l as [|y l IH]; [reflexivity|]. rewrite spread_cons, IH by (intros z J; apply E; right; exact J).
      rewrite (dist2_const y c l) by (intros z J; apply E; right; exact J). rewrite (E y (or_introl eq_refl)). ring. }
    nia.
  - destruct (Forall_Exists_dec (fun z => z = x) (fun z => Z.eq_dec z x) l) as [F|F].
    + left. exists x. rewrite Forall_forall in F. intros z [<-|J]; [reflexivity|apply F, J].
    + right. apply Exists_exists in F as (z & J & N). rewrite spread_cons. pose proof (dist2_pos x l z J N). cbn [List.length]. rewrite Nat2Z.inj_succ. lia.
Qed.
Lemma sum_const l c : (forall z, In z l -> z = c) -> z_sum l = (Z.of_nat (List.length l) * c)%Z /\ z_sum (squares l) = (Z.of_nat (List.length l) * (c * c))%Z.
Proof.
  induction l as [|z l IH]; intros H; [split; reflexivity|]. destruct IH as [A B]; [intros y J; apply H; right; exact J|].
  change (z_sum (squares (z :: l))) with (z * z + z_sum (squares l))%Z. change (z_sum (z :: l)) with (z + z_sum l)%Z. rewrite A, B, (H z (or_introl eq_refl)). cbn [List.length]. rewrite Nat2Z.inj_succ. split; ring.
Qed.
Lemma nearest_le x y : x <= y -> nearest_double x <= nearest_double y.
Proof. exact (rnd_le 53 1024 p53 x y). Qed.
Lemma nearest_abs x : Rabs (nearest_double x) = nearest_double (Rabs x).
Proof.
  unfold Rabs at 2. destruct (Rcase_abs x) as [N|N].
  - change (nearest_double (- x)) with (FloatProofs.rnd 53 1024 (- x)). rewrite rnd_opp. change (FloatProofs.rnd 53 1024 x) with (nearest_double x). apply Rabs_left1. apply Rle_trans with (nearest_double 0); [apply nearest_le; lra|]. right. exact (rnd_0 53 1024).
  - apply Rabs_pos_eq. apply Rle_trans with (nearest_double 0); [right; symmetry; exact (rnd_0 53 1024)|apply nearest_le; lra].
Qed.

(* The bias lies between the smallest and the largest difference. *)
Theorem C134_bias_between :
  forall e (m : list (Z * Z)) (d : list (double * double)) lo hi,
    pairs_on_grid e m d -> d <> [] -> (Z.of_nat (List.length d) <= 2 ^ 53)%Z -> (z_size (differences m) <= 2 ^ 53)%Z -> (-1074 <= e <= 950)%Z ->
    (forall p, In p d -> B2R lo <= B2R (fst p) - B2R (snd p) <= B2R hi) -> B2R (lo : double) <= B2R (dbl f_bias d) <= B2R (hi : double).
Proof.
  intros e m d lo hi F N LN B E H. destruct (C134_bias e m d F N LN B E) as [_ V]. rewrite V.
  assert (IN : 0 < INR (List.length d)) by (apply (lt_INR 0); destruct d; [congruence|cbn; lia]).
  assert (M : INR (List.length d) * B2R lo <= IZR (z_sum (differences m)) * bpow radix2 e <= INR (List.length d) * B2R hi).
  { clear - F H. induction F as [|q p m d [[_ A1] [_ A2]] F IH]; [cbn; lra|]. change (z_sum (differences (q :: m))) with ((fst q - snd q) + z_sum (differences m))%Z. rewrite plus_IZR, minus_IZR.
    cbn [List.length]. rewrite S_INR. pose proof (H p (or_introl eq_refl)) as Hp. rewrite A1, A2 in Hp. destruct IH as [I1 I2]; [intros p' J; apply H; right; exact J|]. lra. }
  assert (Q : B2R lo <= IZR (z_sum (differences m)) * bpow radix2 e / INR (List.length d) <= B2R hi).
  { split; apply (Rmult_le_reg_l (INR (List.length d))); try exact IN; replace (INR (List.length d) * (IZR (z_sum (differences m)) * bpow radix2 e / INR (List.length d))) with (IZR (z_sum (differences m)) * bpow radix2 e) by (field; lra); lra. }
  split; [rewrite <- (rnd_id 53 1024 lo)|rewrite <- (rnd_id 53 1024 hi)]; apply nearest_le; apply Q.
Qed.
Print Assumptions C134_bias_between.
Example C134_bias_between_case :
  pairs_on_grid 0 counts count_pairs /\ forall p, In p count_pairs -> B2R (z64 (-4)) <= B2R (fst p) - B2R (snd p) <= B2R (z64 5).
Proof.
  split; [apply C134_pairs_case|]. assert (V : forall z, (Z.abs z <= 2 ^ 53)%Z -> B2R (z64 z) = IZR z) by (intros z B; destruct (z64_grid z B) as [_ W]; rewrite W; cbn; ring).
  unfold count_pairs, counts. cbn [map fst snd In]. intros p [<-|[<-|[<-|[]]]]; cbn [fst snd]; rewrite !V by (vm_compute; discriminate); lra.
Qed.

(* The RMSD is never below the bias. *)
Theorem C134_bias_rmsd :
  forall e (m : list (Z * Z)) (d : list (double * double)),
    pairs_on_grid e m d -> d <> [] -> (Z.of_nat (List.length d) <= 2 ^ 53)%Z -> (z_size (differences m) <= 2 ^ 53)%Z -> (z_sum (squares (differences m)) <= 2 ^ 52)%Z -> (-450 <= e <= 475)%Z ->
    Rabs (B2R (dbl f_bias d)) <= B2R (dbl f_rmsd d).
Proof.
  intros e m d F N LN B1 B2 E. destruct (C134_bias e m d F N LN B1 ltac:(lia)) as [_ V1]. destruct (C134_msd e m d F N LN ltac:(lia) ltac:(lia)) as (_ & V2). cbv zeta in V2. rewrite V1, V2, nearest_abs. apply nearest_le.
  assert (LE : List.length (differences m) = List.length d) by (unfold differences; rewrite map_length; exact (len2 _ _ _ F)).
  set (l := differences m) in *. set (n := List.length d) in *. assert (N1 : (1 <= n)%nat) by (unfold n; destruct d; [congruence|cbn; lia]). assert (IN : 1 <= INR n) by (apply (le_INR 1); exact N1).
  pose proof (bpow_gt_0 radix2 e) as PE. assert (E2 : bpow radix2 (2 * e) = bpow radix2 e * bpow radix2 e) by (replace (2 * e)%Z with (e + e)%Z by lia; apply bpow_plus).
  pose proof (squares_nonneg l) as SN. set (S := z_sum l) in *. set (Q := z_sum (squares l)) in *.
  assert (KEY : Rsqr (IZR S * bpow radix2 e / INR n) <= nearest_double (IZR Q * bpow radix2 (2 * e) / INR n)).
  { destruct (spread_bound l) as [(c & C)|SB].
    - destruct (sum_const l c C) as [S1 Q1]. fold S in S1. fold Q in Q1. rewrite LE in S1, Q1.
      assert (QV : IZR Q * bpow radix2 (2 * e) / INR n = IZR (c * c) * bpow radix2 (2 * e)) by (rewrite Q1, mult_IZR, <- INR_IZR_INZ; field; lra).
      assert (BC : (Z.abs (c * c) <= 2 ^ 53)%Z) by (rewrite Z.abs_eq by apply Z.square_nonneg; nia).
      rewrite QV. change (nearest_double (IZR (c * c) * bpow radix2 (2 * e))) with (rnd64 (IZR (c * c) * bpow radix2 (2 * e))). rewrite (proj1 (grid_exact (c * c) (2 * e) BC ltac:(lia))).
      right. rewrite S1, mult_IZR, <- INR_IZR_INZ, E2, mult_IZR. unfold Rsqr. field. lra.
    - unfold spread in SB. fold S Q in SB. rewrite LE in SB.
      destruct (Z.eq_dec Q 0) as [Q0|Q0].
      { assert (S0 : S = 0%Z) by nia. rewrite S0, Q0. replace (0 * bpow radix2 e / INR n) with 0 by (field; lra). replace (0 * bpow radix2 (2 * e) / INR n) with 0 by (field; lra). right. unfold Rsqr. rewrite Rmult_0_l. symmetry. exact (rnd_0 53 1024). }
      assert (NB : n = 1%nat \/ (2 <= n)%nat) by lia. destruct NB as [NB|NB].
      { assert (SQ : IZR Q * bpow radix2 (2 * e) / INR n = IZR Q * bpow radix2 (2 * e)) by (rewrite NB; cbn; field). rewrite SQ. change (nearest_double (IZR Q * bpow radix2 (2 * e))) with (rnd64 (IZR Q * bpow radix2 (2 * e))).
        rewrite (proj1 (grid_exact Q (2 * e) ltac:(lia) ltac:(lia))). rewrite NB in *. cbn [INR]. assert (HQ : (S * S <= Q)%Z) by lia. apply IZR_le in HQ. rewrite mult_IZR in HQ. rewrite E2. unfold Rsqr. replace (IZR S * bpow radix2 e / 1 * (IZR S * bpow radix2 e / 1)) with (IZR S * IZR S * (bpow radix2 e * bpow radix2 e)) by field. apply Rmult_le_compat_r; [nra|exact HQ]. }
      set (x := IZR Q * bpow radix2 (2 * e) / INR n).
      assert (XP : bpow radix2 (-1022) <= x).
      { unfold x, Rdiv. assert (IQ : 1 <= IZR Q) by (apply IZR_le; lia).
        assert (I1 : bpow radix2 (-53) <= / INR n) by (change (-53)%Z with (- (53))%Z; rewrite (bpow_opp radix2 53); apply Rinv_le; [lra|]; rewrite INR_IZR_INZ; change (bpow radix2 53) with (IZR (2 ^ 53)); apply IZR_le; exact LN).
        assert (I2 : bpow radix2 (-900) <= bpow radix2 (2 * e)) by (apply bpow_le; lia). apply Rle_trans with (bpow radix2 (-900) * bpow radix2 (-53)); [rewrite <- bpow_plus; apply bpow_le; lia|].
        apply Rmult_le_compat; try apply bpow_ge_0; [|exact I1]. pose proof (bpow_ge_0 radix2 (2 * e)). nra. }
      assert (RE : Rabs (nearest_double x - x) <= / 2 * bpow radix2 (-53 + 1) * Rabs x).
      { apply (relative_error_N_FLT radix2 (-1074) 53 ltac:(lia)). rewrite Rabs_pos_eq by (pose proof (bpow_ge_0 radix2 (-1022)); lra). exact XP. }
      pose proof (bpow_gt_0 radix2 (-1022)) as P0. rewrite (Rabs_pos_eq x) in RE by lra. apply Rabs_le_inv in RE. destruct RE as [RE _].
      assert (H52 : bpow radix2 (-53 + 1) = / IZR (2 ^ 52)) by reflexivity. rewrite H52 in RE.
      assert (G : Rsqr (IZR S * bpow radix2 e / INR n) + / 2 * / IZR (2 ^ 52) * x <= x); [|lra].
      assert (B2' : IZR Q <= IZR (2 ^ 52)) by (apply IZR_le; lia). assert (P52 : 0 < IZR (2 ^ 52)) by (apply IZR_lt; lia).
      assert (SB' : IZR S * IZR S + (INR n - 1) <= INR n * IZR Q) by (rewrite INR_IZR_INZ; rewrite <- !mult_IZR, <- minus_IZR, <- plus_IZR; apply IZR_le; lia).
      assert (IN2 : 2 <= INR n) by (apply (le_INR 2); exact NB).
      assert (T : / IZR (2 ^ 52) * IZR Q <= 1) by (apply (Rmult_le_reg_l (IZR (2 ^ 52))); [exact P52|]; rewrite <- Rmult_assoc, Rinv_r by lra; lra).
      unfold x. rewrite E2. set (b := bpow radix2 e) in *. unfold Rsqr.
      replace (IZR S * b / INR n * (IZR S * b / INR n) + / 2 * / IZR (2 ^ 52) * (IZR Q * (b * b) / INR n)) with ((IZR S * IZR S + INR n / 2 * (/ IZR (2 ^ 52) * IZR Q)) * (b * b / (INR n * INR n))) by (field; lra).
      replace (IZR Q * (b * b) / INR n) with (INR n * IZR Q * (b * b / (INR n * INR n))) by (field; lra).
      apply Rmult_le_compat_r; [apply Rmult_le_pos; [nra|left; apply Rinv_0_lt_compat; nra]|]. assert (INR n / 2 * (/ IZR (2 ^ 52) * IZR Q) <= INR n / 2 * 1) by (apply Rmult_le_compat_l; lra). lra. }
  apply Rsqr_incr_0_var; [|apply sqrt_pos]. rewrite <- Rsqr_abs. rewrite Rsqr_sqrt; [exact KEY|]. eapply Rle_trans; [|exact KEY]. apply Rle_0_sqr.
Qed.
Print Assumptions C134_bias_rmsd.
Example C134_bias_rmsd_case :
  pairs_on_grid 0 counts count_pairs /\ (z_size (differences counts) <= 2 ^ 53)%Z /\ (z_sum (squares (differences counts)) <= 2 ^ 52)%Z /\ Bltb (dbl f_bias count_pairs) (dbl f_rmsd count_pairs) = true.
Proof. split; [apply C134_pairs_case|]. split; [vm_compute; discriminate|]. split; [vm_compute; discriminate|vm_compute; reflexivity]. Qed.
(* Off the grid it can be: three times 0.1 against 0. *)
Theorem C134_bias_rmsd_refuted :
  let d := [(dec 1 10, dec 0 1); (dec 1 10, dec 0 1); (dec 1 10, dec 0 1)] in
  Bltb (dbl f_rmsd d) (dbl f_bias d) = true /\ Bltb (dec 1 10) (dbl f_bias d) = true.
Proof. cbv zeta. split; vm_compute; reflexivity. Qed.
Print Assumptions C134_bias_rmsd_refuted.
