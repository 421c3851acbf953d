(* Rounding commutes with powers of two, away from underflow and overflow. *)
From Coq Require Import ZArith Reals List Lia Lra Bool.
From Flocq Require Import Core IEEE754.BinarySingleNaN.
From Verif Require Import FloatModel FloatSpec FloatProofs FloatProofs4 FloatProps TypedModel ExpFloatModel ExpFloatSpec ExpFloatProofs BoxFloatProofs GridSpec GridProofs PowFloatSpec.
Import ListNotations.
Open Scope R_scope.

Notation rn := (rnd 53 1024).
Lemma rn_norm x k : (0 <= k)%Z -> bpow radix2 (-1022) <= Rabs x -> rn (x * bpow radix2 k) = rn x * bpow radix2 k.
Proof.
  intros K N. assert (X : x <> 0) by (intros ->; rewrite Rabs_R0 in N; pose proof (bpow_gt_0 radix2 (-1022)); lra).
  assert (M : (-1022 < mag radix2 x)%Z) by (apply (mag_gt_bpow radix2 x (-1022)); exact N).
  unfold rnd, round, scaled_mantissa, cexp. rewrite mag_mult_bpow by exact X. set (m := mag radix2 x : Z) in *.
  assert (C1 : FLT_exp (3 - 1024 - 53) 53 m = (m - 53)%Z) by (unfold FLT_exp; lia). assert (C2 : FLT_exp (3 - 1024 - 53) 53 (m + k) = (m - 53 + k)%Z) by (unfold FLT_exp; lia).
  rewrite C1, C2.
  assert (E : x * bpow radix2 k * bpow radix2 (- (m - 53 + k)) = x * bpow radix2 (- (m - 53))) by (rewrite Rmult_assoc, <- bpow_plus; do 2 f_equal; lia). rewrite E.
  unfold F2R. cbn [Fnum Fexp]. rewrite (bpow_plus radix2 (m - 53) k). ring.
Qed.
Lemma rn_tiny z k : (0 <= k <= 2000)%Z -> rn (IZR z * bpow radix2 (-1074) * bpow radix2 k) = rn (IZR z * bpow radix2 (-1074)) * bpow radix2 k.
Proof.
  intros K. destruct (Rle_or_lt (bpow radix2 (-1022)) (Rabs (IZR z * bpow radix2 (-1074)))) as [L|L]; [apply rn_norm; [lia|exact L]|].
  assert (B : (Z.abs z < 2 ^ 52)%Z).
  { apply lt_IZR. rewrite abs_IZR. change (IZR (2 ^ 52)) with (bpow radix2 52). rewrite Rabs_mult, (Rabs_pos_eq (bpow _ _)) in L by apply bpow_ge_0. apply (Rmult_lt_reg_r (bpow radix2 (-1074))); [apply bpow_gt_0|]. rewrite <- bpow_plus. exact L. }
  rewrite (proj1 (grid_exact z (-1074) ltac:(lia) ltac:(lia))). rewrite Rmult_assoc, <- bpow_plus. apply (grid_exact z (-1074 + k)); lia.
Qed.
Lemma unit_grid (x : double) : exists z, B2R x = IZR z * bpow radix2 (-1074).
Proof.
  assert (G : generic_format radix2 (FIX_exp (-1074)) (B2R x)) by (apply (generic_format_FIX_FLT radix2 (-1074) 53); exact (generic_format_B2R 53 1024 x)).
  apply FIX_format_generic in G. destruct G as [f E1 E2]. exists (Fnum f). rewrite E1. unfold F2R. rewrite E2. reflexivity.
Qed.
Lemma below_big x k : (0 <= k)%Z -> Rabs (rn x * bpow radix2 k) < big 1024 -> Rabs (rn x) < big 1024.
Proof.
  intros K. rewrite Rabs_mult, (Rabs_pos_eq (bpow _ _)) by apply bpow_ge_0. intros L. eapply Rle_lt_trans; [|exact L]. pose proof (Rabs_pos (rn x)). assert (1 <= bpow radix2 k) by (change 1 with (bpow radix2 0); apply bpow_le; exact K). nra.
Qed.
Lemma add_power k a b a' b' : (0 <= k <= 2000)%Z -> times_power k a a' -> times_power k b b' -> is_finite (dbl fadd a' b') = true -> times_power k (dbl fadd a b) (dbl fadd a' b').
Proof.
  intros K (A1 & A2 & A3) (B1 & B2 & B3) F. destruct (unit_grid a) as [z Z1]. destruct (unit_grid b) as [w W1].
  assert (S1 : B2R a + B2R b = IZR (z + w) * bpow radix2 (-1074)) by (rewrite Z1, W1, plus_IZR; ring).
  assert (S2 : B2R a' + B2R b' = (B2R a + B2R b) * bpow radix2 k) by (rewrite A3, B3; ring).
  destruct (fadd_cases 53 1024 FloatProps.p53 FloatProps.e1024 a' b' A2 B2) as [(L & _ & V)|(_ & E & _)]; [|rewrite E in F; discriminate F].
  rewrite S2, S1, rn_tiny, <- S1 in L, V by exact K. apply below_big in L; [|lia].
  destruct (fadd_cases 53 1024 FloatProps.p53 FloatProps.e1024 a b A1 B1) as [(_ & F' & V')|(O & _)]; [|exfalso; lra]. split; [exact F'|]. split; [exact F|]. rewrite V'. exact V.
Qed.
Lemma sub_power k a b a' b' : (0 <= k <= 2000)%Z -> times_power k a a' -> times_power k b b' -> is_finite (dbl fsub a' b') = true -> times_power k (dbl fsub a b) (dbl fsub a' b').
Proof.
  intros K (A1 & A2 & A3) (B1 & B2 & B3) F. destruct (unit_grid a) as [z Z1]. destruct (unit_grid b) as [w W1].
  assert (S1 : B2R a - B2R b = IZR (z - w) * bpow radix2 (-1074)) by (rewrite Z1, W1, minus_IZR; ring).
  assert (S2 : B2R a' - B2R b' = (B2R a - B2R b) * bpow radix2 k) by (rewrite A3, B3; ring).
  destruct (fsub_cases 53 1024 FloatProps.p53 FloatProps.e1024 a' b' A2 B2) as [(L & _ & V)|(_ & E & _)]; [|rewrite E in F; discriminate F].
  rewrite S2, S1, rn_tiny, <- S1 in L, V by exact K. apply below_big in L; [|lia].
  destruct (fsub_cases 53 1024 FloatProps.p53 FloatProps.e1024 a b A1 B1) as [(_ & F' & V')|(O & _)]; [|exfalso; lra]. split; [exact F'|]. split; [exact F|]. rewrite V'. exact V.
Qed.
(* a number that is zero or not in the range of underflow *)
Definition normal_or_zero (x : R) : Prop := x = 0 \/ bpow radix2 (-1022) <= Rabs x.
Lemma rn_nz x k : (0 <= k)%Z -> normal_or_zero x -> rn (x * bpow radix2 k) = rn x * bpow radix2 k.
Proof. intros K [->|N]; [|apply rn_norm; assumption]. rewrite Rmult_0_l, (rnd_0 53 1024). ring. Qed.
Lemma div_power k s s' n : (0 <= k)%Z -> times_power k s s' -> is_finite n = true -> B2R n <> 0 -> normal_or_zero (B2R s / B2R n) -> is_finite (dbl fdiv s' n) = true -> times_power k (dbl fdiv s n) (dbl fdiv s' n).
Proof.
  intros K (A1 & A2 & A3) _ N NZ F. assert (S2 : B2R s' / B2R n = B2R s / B2R n * bpow radix2 k) by (rewrite A3; field; exact N).
  destruct (fdiv_cases 53 1024 FloatProps.p53 FloatProps.e1024 s' n A2 N) as [(L & _ & V)|(_ & E)]; [|rewrite E in F; discriminate F].
  rewrite S2, (rn_nz _ k K NZ) in L, V. apply below_big in L; [|lia].
  destruct (fdiv_cases 53 1024 FloatProps.p53 FloatProps.e1024 s n A1 N) as [(_ & F' & V')|(O & _)]; [|exfalso; lra]. split; [exact F'|]. split; [exact F|]. rewrite V'. exact V.
Qed.
Lemma sq_power k a a' : (0 <= k)%Z -> times_power k a a' -> normal_or_zero (B2R a * B2R a) -> is_finite (dbl fmul a' a') = true -> times_power (2 * k) (dbl fmul a a) (dbl fmul a' a').
Proof.
  intros K (A1 & A2 & A3) NZ F. assert (S2 : B2R a' * B2R a' = B2R a * B2R a * bpow radix2 (2 * k)) by (rewrite A3; replace (2 * k)%Z with (k + k)%Z by ring; rewrite bpow_plus; ring).
  destruct (fmul_cases 53 1024 FloatProps.p53 FloatProps.e1024 a' a' A2 A2) as [(L & _ & V)|(_ & E)]; [|rewrite E in F; discriminate F].
  rewrite S2, (rn_nz _ (2 * k) ltac:(lia) NZ) in L, V. apply below_big in L; [|lia].
  destruct (fmul_cases 53 1024 FloatProps.p53 FloatProps.e1024 a a A1 A1) as [(_ & F' & V')|(O & _)]; [|exfalso; lra]. split; [exact F'|]. split; [exact F|]. rewrite V'. exact V.
Qed.
Lemma fold_fin {X} (t : X -> double) l : forall a, is_finite (fold_left (fun s x => dbl fadd s (t x)) l a) = true -> is_finite a = true.
Proof. induction l as [|x l IH]; intros a F; [exact F|]. cbn [fold_left] in F. apply IH in F. apply fadd_finite_inv in F. apply F. Qed.
Lemma fold_power {X Y} k (t : X -> double) (u : Y -> double) (K : (0 <= k <= 2000)%Z) : forall l m, Forall2 (fun x y => is_finite (u y) = true -> times_power k (t x) (u y)) l m -> forall a b, times_power k a b ->
  is_finite (fold_left (fun s y => dbl fadd s (u y)) m b) = true -> times_power k (fold_left (fun s x => dbl fadd s (t x)) l a) (fold_left (fun s y => dbl fadd s (u y)) m b).
Proof.
  intros l m F2. induction F2 as [|x y l m H F2 IH]; intros a b P F; [exact P|]. cbn [fold_left] in *. apply IH; [|exact F]. apply fold_fin in F. apply add_power; [exact K|exact P|apply H; apply fadd_finite_inv in F; apply F|exact F].
Qed.
Lemma zero_power k : times_power k (f0 53 1024) (f0 53 1024).
Proof. split; [reflexivity|]. split; [reflexivity|]. cbn. ring. Qed.
