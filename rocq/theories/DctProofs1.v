(* The kernel of the cosine transform is orthonormal, and its rows are eigenvectors of the second difference. *)
From Coq Require Import Lra Lia.
From Verif Require Import Base RStats RStatsProofs DctModel.
Open Scope R_scope.

Lemma rsum_seq_S (f : nat -> R) n : rsum (map f (seq 0 (S n))) = rsum (map f (seq 0 n)) + f n.
Proof. rewrite seq_S, map_app, rsum_app. cbn. ring. Qed.

Lemma rsum_seq_ext (f g : nat -> R) n : (forall i, (i < n)%nat -> f i = g i) -> rsum (map f (seq 0 n)) = rsum (map g (seq 0 n)).
Proof. intros H. apply rsum_ext. intros i Hi. apply in_seq in Hi. apply H. lia. Qed.

(* sum of cosines at odd multiples *)
Lemma odd_cosines x n : 2 * sin x * rsum (map (fun i => cos ((2 * INR i + 1) * x)) (seq 0 n)) = sin (2 * INR n * x).
Proof.
  induction n as [|n IH].
  - cbn [seq map rsum INR]. rewrite Rmult_0_r. replace (2 * 0 * x) with 0 by ring. rewrite sin_0. reflexivity.
  - rewrite rsum_seq_S, Rmult_plus_distr_l, IH, S_INR.
    replace (2 * (INR n + 1) * x) with ((2 * INR n + 1) * x + x) by ring.
    replace (2 * INR n * x) with ((2 * INR n + 1) * x - x) by ring. rewrite sin_plus, sin_minus. ring.
Qed.
(* sum of cosines at multiples *)
Lemma all_cosines x n : 2 * sin (x / 2) * rsum (map (fun k => cos (INR (S k) * x)) (seq 0 n)) = sin ((INR n + 1 / 2) * x) - sin (x / 2).
Proof.
  induction n as [|n IH].
  - cbn [seq map rsum INR]. replace ((0 + 1 / 2) * x) with (x / 2) by field. ring.
  - rewrite rsum_seq_S, Rmult_plus_distr_l, IH, S_INR.
    replace ((INR n + 1 + 1 / 2) * x) with ((INR n + 1) * x + x / 2) by field.
    replace ((INR n + 1 / 2) * x) with ((INR n + 1) * x - x / 2) by field. rewrite sin_plus, sin_minus. ring.
Qed.

Lemma sin_pos_frac m n : (0 < m)%nat -> (m < n)%nat -> 0 < sin (PI * INR m / INR n).
Proof.
  intros M N. assert (0 < INR m) by (apply lt_0_INR, M). assert (INR m < INR n) by (apply lt_INR, N). pose proof PI_RGT_0.
  apply sin_gt_0.
  - apply Rmult_lt_0_compat; [apply Rmult_lt_0_compat; assumption|apply Rinv_0_lt_compat; lra].
  - apply Rmult_lt_reg_r with (INR n); [lra|]. unfold Rdiv. rewrite Rmult_assoc, Rinv_l, Rmult_1_r by lra. nra.
Qed.
Lemma sin_nat_PI m : sin (INR m * PI) = 0.
Proof. apply sin_eq_0_1. exists (Z.of_nat m). rewrite <- INR_IZR_INZ. reflexivity. Qed.

Lemma odd_sum_zero n m : (0 < m)%nat -> (m < 2 * n)%nat ->
  rsum (map (fun i => cos ((2 * INR i + 1) * (PI * INR m / (2 * INR n)))) (seq 0 n)) = 0.
Proof.
  intros M N. assert (Nn : 0 < INR n) by (apply lt_0_INR; lia).
  pose proof (odd_cosines (PI * INR m / (2 * INR n)) n) as E.
  replace (2 * INR n * (PI * INR m / (2 * INR n))) with (INR m * PI) in E by (field; lra). rewrite sin_nat_PI in E.
  assert (P : 0 < sin (PI * INR m / (2 * INR n))).
  { replace (2 * INR n) with (INR (2 * n)) by (rewrite mult_INR; cbn; ring). apply sin_pos_frac; lia. }
  apply Rmult_integral in E. destruct E; [lra|assumption].
Qed.

Lemma cos_nat_PI m : cos (INR m * PI) = if Nat.even m then 1 else -1.
Proof.
  induction m as [|m IH]; [cbn; rewrite Rmult_0_l; apply cos_0|].
  rewrite S_INR, Rmult_plus_distr_r, Rmult_1_l, neg_cos, IH, Nat.even_succ, <- Nat.negb_even. destruct (Nat.even m); cbn; ring.
Qed.

Lemma all_sum n m : (0 < m)%nat -> (m < 2 * n)%nat ->
  rsum (map (fun k => cos (INR (S k) * (PI * INR m / INR n))) (seq 0 (n - 1))) = if Nat.even m then -1 else 0.
Proof.
  intros M N. assert (Nn : 0 < INR n) by (apply lt_0_INR; lia).
  pose proof (all_cosines (PI * INR m / INR n) (n - 1)) as E.
  assert (HN : INR (n - 1) = INR n - 1) by (rewrite minus_INR by lia; reflexivity). rewrite HN in E.
  replace ((INR n - 1 + 1 / 2) * (PI * INR m / INR n)) with (INR m * PI - PI * INR m / INR n / 2) in E by (field; lra).
  rewrite sin_minus, sin_nat_PI, cos_nat_PI in E.
  assert (P : 0 < sin (PI * INR m / INR n / 2)).
  { replace (PI * INR m / INR n / 2) with (PI * INR m / INR (2 * n)) by (rewrite mult_INR; cbn; field; lra). apply sin_pos_frac; lia. }
  set (s := sin _) in *. apply Rmult_eq_reg_l with (2 * s); [|lra]. rewrite E. destruct (Nat.even m); ring.
Qed.

Lemma cos_prod a b : cos a * cos b = (cos (a - b) + cos (a + b)) / 2.
Proof. rewrite cos_minus, cos_plus. field. Qed.

Definition amp (n k : nat) : R := sqrt ((if Nat.eqb k 0 then 1 else 2) / INR n).
Lemma amp_sq n k : (0 < n)%nat -> amp n k * amp n k = (if Nat.eqb k 0 then 1 else 2) / INR n.
Proof.
  intros N. unfold amp. apply sqrt_sqrt. assert (0 < INR n) by (apply lt_0_INR, N).
  apply Rmult_le_pos; [destruct (Nat.eqb k 0); lra|]. left. apply Rinv_0_lt_compat; assumption.
Qed.

Lemma rows_lt n k l : (k < l)%nat -> (l < n)%nat -> rsum (map (fun i => kernel n k i * kernel n l i) (seq 0 n)) = 0.
Proof.
  intros K L. unfold kernel. fold (amp n k) (amp n l).
  transitivity (amp n k * amp n l / 2 * (rsum (map (fun i => cos ((2 * INR i + 1) * (PI * INR (l - k) / (2 * INR n)))) (seq 0 n)) +
     rsum (map (fun i => cos ((2 * INR i + 1) * (PI * INR (l + k) / (2 * INR n)))) (seq 0 n)))).
  - rewrite <- rsum_plus, <- rsum_scal. apply rsum_ext. intros i _. assert (Nn : 0 < INR n) by (apply lt_0_INR; lia).
    rewrite minus_INR, plus_INR by lia.
    replace ((2 * INR i + 1) * (PI * (INR l - INR k) / (2 * INR n))) with (PI * INR l * (2 * INR i + 1) / (2 * INR n) - PI * INR k * (2 * INR i + 1) / (2 * INR n)) by (field; lra).
    replace ((2 * INR i + 1) * (PI * (INR l + INR k) / (2 * INR n))) with (PI * INR l * (2 * INR i + 1) / (2 * INR n) + PI * INR k * (2 * INR i + 1) / (2 * INR n)) by (field; lra).
    set (a := PI * INR l * _ / _). set (b := PI * INR k * _ / _). rewrite cos_minus, cos_plus. field.
  - rewrite !odd_sum_zero by lia. ring.
Qed.
Lemma rows_eq n k : (k < n)%nat -> rsum (map (fun i => kernel n k i * kernel n k i) (seq 0 n)) = 1.
Proof.
  intros K. assert (Nn : 0 < INR n) by (apply lt_0_INR; lia). unfold kernel. fold (amp n k).
  transitivity (amp n k * amp n k / 2 * (rlen (seq 0 n) + rsum (map (fun i => cos ((2 * INR i + 1) * (PI * INR (k + k) / (2 * INR n)))) (seq 0 n)))).
  - rewrite <- (Rmult_1_l (rlen (seq 0 n))), <- rsum_const, <- rsum_plus, <- rsum_scal. apply rsum_ext. intros i _. rewrite plus_INR.
    replace ((2 * INR i + 1) * (PI * (INR k + INR k) / (2 * INR n))) with (PI * INR k * (2 * INR i + 1) / (2 * INR n) + PI * INR k * (2 * INR i + 1) / (2 * INR n)) by (field; lra).
    set (a := PI * INR k * _ / _). rewrite cos_plus. pose proof (sin2_cos2 a) as T. unfold Rsqr in T.
    replace (1 + (cos a * cos a - sin a * sin a)) with (2 * (cos a * cos a)) by lra. field.
  - rewrite amp_sq by lia. unfold rlen. rewrite seq_length. destruct (Nat.eqb_spec k 0) as [->|NZ].
    + assert (E : rsum (map (fun i => cos ((2 * INR i + 1) * (PI * INR (0 + 0) / (2 * INR n)))) (seq 0 n)) = INR n).
      { transitivity (1 * rlen (seq 0 n)); [|unfold rlen; rewrite seq_length; ring]. rewrite <- rsum_const. apply rsum_ext. intros i _.
        cbn [plus INR]. replace ((2 * INR i + 1) * (PI * 0 / (2 * INR n))) with 0 by (field; lra). apply cos_0. }
      rewrite E. field. lra.
    + rewrite odd_sum_zero by lia. field. lra.
Qed.
Lemma kernel_rows n k l : (k < n)%nat -> (l < n)%nat ->
  rsum (map (fun i => kernel n k i * kernel n l i) (seq 0 n)) = if Nat.eqb k l then 1 else 0.
Proof.
  intros K L. destruct (Nat.eqb_spec k l) as [->|NE]; [apply rows_eq, L|]. destruct (Nat.lt_ge_cases k l) as [C|C].
  - apply rows_lt; lia.
  - rewrite <- (rows_lt n l k) by lia. apply rsum_ext. intros. ring.
Qed.

Lemma cols_split n i j : (0 < n)%nat -> (j <= i)%nat ->
  rsum (map (fun k => kernel n k i * kernel n k j) (seq 0 n)) =
  1 / INR n * (1 + rsum (map (fun k => cos (INR (S k) * (PI * INR (i - j) / INR n))) (seq 0 (n - 1))) +
                   rsum (map (fun k => cos (INR (S k) * (PI * INR (i + j + 1) / INR n))) (seq 0 (n - 1)))).
Proof.
  intros N J. assert (Nn : 0 < INR n) by (apply lt_0_INR; lia).
  replace (seq 0 n) with (0%nat :: map S (seq 0 (n - 1))) by (rewrite seq_shift; destruct n; [lia|]; cbn [seq]; repeat f_equal; lia).
  cbn [map rsum]. rewrite map_map, Rplus_assoc, <- rsum_plus, Rmult_plus_distr_l, <- rsum_scal. f_equal.
  - unfold kernel. fold (amp n 0). cbn [INR]. replace (PI * 0 * (2 * INR i + 1) / (2 * INR n)) with 0 by (field; lra).
    replace (PI * 0 * (2 * INR j + 1) / (2 * INR n)) with 0 by (field; lra). rewrite cos_0.
    replace (amp n 0 * 1 * (amp n 0 * 1)) with (amp n 0 * amp n 0) by ring. rewrite amp_sq by lia. cbn. ring.
  - apply rsum_ext. intros k _. unfold kernel. fold (amp n (S k)).
    set (a := PI * INR (S k) * (2 * INR i + 1) / (2 * INR n)). set (b := PI * INR (S k) * (2 * INR j + 1) / (2 * INR n)).
    replace (amp n (S k) * cos a * (amp n (S k) * cos b)) with (amp n (S k) * amp n (S k) * (cos a * cos b)) by ring.
    rewrite amp_sq by lia. cbn [Nat.eqb]. rewrite cos_prod.
    replace (INR (S k) * (PI * INR (i - j) / INR n)) with (a - b) by (unfold a, b; rewrite minus_INR by lia; field; lra).
    replace (INR (S k) * (PI * INR (i + j + 1) / INR n)) with (a + b) by (unfold a, b; rewrite !plus_INR; change (INR 1) with 1; field; lra).
    field. lra.
Qed.
Lemma kernel_cols n i j : (i < n)%nat -> (j < n)%nat ->
  rsum (map (fun k => kernel n k i * kernel n k j) (seq 0 n)) = if Nat.eqb i j then 1 else 0.
Proof.
  assert (G : forall i j, (i < n)%nat -> (j <= i)%nat -> rsum (map (fun k => kernel n k i * kernel n k j) (seq 0 n)) = if Nat.eqb i j then 1 else 0).
  { clear i j. intros i j I J. rewrite cols_split by lia. assert (Nn : 0 < INR n) by (apply lt_0_INR; lia).
    rewrite (all_sum n (i + j + 1)) by lia. destruct (Nat.eqb_spec i j) as [->|NE].
    - rewrite Nat.sub_diag. assert (E : rsum (map (fun k => cos (INR (S k) * (PI * INR 0 / INR n))) (seq 0 (n - 1))) = INR n - 1).
      { transitivity (1 * rlen (seq 0 (n - 1))); [|unfold rlen; rewrite seq_length, minus_INR by lia; cbn; ring]. rewrite <- rsum_const. apply rsum_ext. intros k _.
        change (INR 0) with 0. replace (INR (S k) * (PI * 0 / INR n)) with 0 by (field; lra). apply cos_0. }
      rewrite E. replace (j + j + 1)%nat with (S (2 * j)) by lia. rewrite Nat.even_succ, Nat.odd_mul. cbn [Nat.odd Nat.even negb andb]. field. lra.
    - rewrite all_sum by lia.
      assert (X : Nat.even (i + j + 1) = negb (Nat.even (i - j))).
      { replace (i + j + 1)%nat with (S (i - j + 2 * j)) by lia. rewrite Nat.even_succ, <- Nat.negb_even, Nat.even_add, Nat.even_mul. cbn [Nat.even orb]. destruct (Nat.even (i - j)); reflexivity. }
      rewrite X. destruct (Nat.even (i - j)); cbn [negb]; field; lra. }
  intros I J. destruct (Nat.le_gt_cases j i) as [C|C]; [apply G; assumption|].
  rewrite Nat.eqb_sym. rewrite <- (G j i) by lia. apply rsum_ext. intros. ring.
Qed.
