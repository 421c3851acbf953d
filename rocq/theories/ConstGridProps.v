(* C136, continued: ubRMSD of constant columns on a power-of-two grid. *)
From Coq Require Import ZArith Reals List Lia Lra Bool.
From Flocq Require Import Core IEEE754.BinarySingleNaN.
From Verif Require Import FloatModel FloatSpec FloatProofs FloatProofs4 FloatProps TypedModel ExpFloatModel ExpFloatSpec ExpFloatProofs BoxFloatProofs GridSpec GridProofs GridProps ConstFloatProofs ConstFloatProps.
Import ListNotations.
Open Scope R_scope.

Lemma sum_repeat z n : z_sum (repeat z n) = (Z.of_nat n * z)%Z.
Proof. induction n as [|n IH]; [reflexivity|]. change (z_sum (repeat z (S n))) with (z + z_sum (repeat z n))%Z. rewrite IH, Nat2Z.inj_succ. ring. Qed.
Lemma size_repeat z n : z_size (repeat z n) = (Z.of_nat n * Z.abs z)%Z.
Proof. induction n as [|n IH]; [reflexivity|]. change (z_size (repeat z (S n))) with (Z.abs z + z_size (repeat z n))%Z. rewrite IH, Nat2Z.inj_succ. ring. Qed.
Lemma mean_repeat {X} e z (c : double) (term : X -> double) (d : list X) : on_grid e z c -> (-1074 <= e <= 950)%Z -> d <> [] -> (Z.of_nat (List.length d) <= 2 ^ 53)%Z -> (Z.of_nat (List.length d) * Z.abs z <= 2 ^ 53)%Z ->
  Forall (fun x => term x = c) d -> valued 53 1024 c (dbl fdiv (fold_left (fun s x => dbl fadd s (term x)) d (f0 53 1024)) (dbl of_n (List.length d))).
Proof.
  intros G E N LN B F. assert (P : (0 < List.length d)%nat) by (destruct d; [congruence|cbn; lia]).
  assert (F2 : Forall2 (fun w x => on_grid e w (term x)) (repeat z (List.length d)) d) by (clear -G F; induction F as [|x d H F IH]; cbn; constructor; [rewrite H; exact G|exact IH]).
  pose proof (fold_grid e E term d _ F2 0%Z (f0 53 1024) (zero_grid e) ltac:(rewrite size_repeat; lia)) as S1. rewrite sum_repeat, Z.add_0_l in S1.
  destruct (div_grid e _ _ (List.length d) S1 ltac:(rewrite Z.abs_mul, Z.abs_eq by lia; exact B) E P LN) as [D1 D2]. split; [exact D1|]. etransitivity; [exact D2|]. destruct G as [_ V]. rewrite V.
  assert (IN : 1 <= INR (List.length d)) by (apply (le_INR 1); lia).
  replace (IZR (Z.of_nat (List.length d) * z) * bpow radix2 e / INR (List.length d)) with (IZR z * bpow radix2 e) by (rewrite mult_IZR, <- INR_IZR_INZ; field; lra).
  apply (grid_exact z e); [nia|exact E].
Qed.
Lemma zero_fold {X} (term : X -> double) (d : list X) : Forall (fun x => zero_valued 53 1024 (term x)) d -> forall a, zero_valued 53 1024 a -> zero_valued 53 1024 (fold_left (fun s x => dbl fadd s (term x)) d a).
Proof. induction 1 as [|x d H F IH]; intros a A; [exact A|]. cbn [fold_left]. apply IH. destruct A as [A1 A2]. destruct (add_zero 53 1024 p53 e1024 a _ A1 H) as [B1 B2]. split; [exact B1|]. exact (eq_trans B2 A2). Qed.

(* Pairs that do not change have no unbiased error: the ubRMSD is exactly zero, if the sums of the columns
   stay within 2^53 units of the grid.  (Without a grid: C136_ubrmsd_refuted.) *)
Theorem C136_ubrmsd_grid :
  forall (e z1 z2 : Z) (c1 c2 : double) (d : list (double * double)),
    on_grid e z1 c1 -> on_grid e z2 c2 -> (-1074 <= e <= 950)%Z ->
    d <> [] -> Forall (fun p => p = (c1, c2)) d ->
    (Z.of_nat (List.length d) <= 2 ^ 53)%Z -> (Z.of_nat (List.length d) * Z.abs z1 <= 2 ^ 53)%Z -> (Z.of_nat (List.length d) * Z.abs z2 <= 2 ^ 53)%Z ->
    is_finite (dbl f_ubrmsd d) = true /\ B2R (dbl f_ubrmsd d) = 0.
Proof.
  intros e z1 z2 c1 c2 d G1 G2 E N F LN B1 B2. assert (Fx : Forall (fun p => fst p = c1) d) by (eapply Forall_impl; [|exact F]; intros p ->; reflexivity). assert (Fy : Forall (fun p => snd p = c2) d) by (eapply Forall_impl; [|exact F]; intros p ->; reflexivity).
  pose proof (mean_repeat e z1 c1 fst d G1 E N LN B1 Fx) as [MX1 MX2]. pose proof (mean_repeat e z2 c2 snd d G2 E N LN B2 Fy) as [MY1 MY2].
  assert (H : zero_valued 53 1024 (dbl f_ubrmsd d)); [|exact H].
  unfold f_ubrmsd. destruct d as [|p0 d0] eqn:D; [congruence|]. rewrite <- D in *. apply (sqrt_zero 53 1024 p53 e1024). apply (div_zero 53 1024 p53 e1024); [|apply (len_cnt 53 1024 p53 e1024), nonempty_len, N].
  apply zero_fold; [|apply f0_zero]. eapply Forall_impl; [|exact F]. intros p ->. cbn [fst snd]. unfold fsq.
  pose proof (sub_zero 53 1024 p53 e1024 c1 _ (proj1 G1) MX1 (eq_sym MX2)) as X1. pose proof (sub_zero 53 1024 p53 e1024 c2 _ (proj1 G2) MY1 (eq_sym MY2)) as X2.
  pose proof (sub_zero 53 1024 p53 e1024 _ _ (proj1 X1) (proj1 X2) (eq_trans (proj2 X1) (eq_sym (proj2 X2)))) as X3. exact (mul_zero 53 1024 p53 e1024 _ _ X3 (proj1 X3)).
Qed.
Print Assumptions C136_ubrmsd_grid.
Example C136_ubrmsd_grid_case :
  let d := [(z64 7, z64 (-3)); (z64 7, z64 (-3)); (z64 7, z64 (-3))] in
  on_grid 0 7 (z64 7) /\ on_grid 0 (-3) (z64 (-3)) /\ Forall (fun p => p = (z64 7, z64 (-3))) d /\ (Z.of_nat (List.length d) * Z.abs 7 <= 2 ^ 53)%Z.
Proof. cbv zeta. split; [apply z64_grid; vm_compute; discriminate|]. split; [apply z64_grid; vm_compute; discriminate|]. split; [repeat constructor|vm_compute; discriminate]. Qed.
