(* Property theorems C122: the metrics of the pairs of three datasets. *)
From Coq Require Import Reals List Lra Lia Psatz.
From Verif Require Import RStats RStatsProofs MetricsModel MetricsSpec MetricsProofs MetricsProofs2 MetricsProps.
Open Scope R_scope.

Lemma minkowski {A} (f g : A -> R) l : l <> [] ->
  sqrt (rmean (map (fun x => (f x + g x) * (f x + g x)) l)) <= sqrt (rmean (map (fun x => f x * f x) l)) + sqrt (rmean (map (fun x => g x * g x) l)).
Proof.
  intros H. assert (N := rlen_pos l H). set (a := rmean (map (fun x => f x * f x) l)). set (b := rmean (map (fun x => g x * g x) l)). set (c := rmean (map (fun x => f x * g x) l)).
  assert (NN : forall h : A -> R, 0 <= rmean (map (fun x => h x * h x) l)).
  { intros h. unfold rmean. apply Rmult_le_pos; [apply rsum_nonneg; intros; apply sq_nonneg|]. left. apply Rinv_0_lt_compat. rewrite rlen_map. exact N. }
  assert (A0 : 0 <= a) by apply NN. assert (B0 : 0 <= b) by apply NN.
  assert (E : rmean (map (fun x => (f x + g x) * (f x + g x)) l) = a + 2 * c + b).
  { unfold a, b, c, rmean. rewrite !rlen_map. rewrite (rsum_ext _ (fun x => f x * f x + (2 * (f x * g x) + g x * g x))) by (intros; ring). rewrite rsum_plus, rsum_plus, rsum_scal. field. lra. }
  assert (CS : c * c <= a * b).
  { assert (K := cauchy_schwarz f g l). unfold Rsqr in K. unfold a, b, c, rmean. rewrite !rlen_map. unfold Rdiv.
    replace (rsum (map (fun x => f x * g x) l) * / rlen l * (rsum (map (fun x => f x * g x) l) * / rlen l)) with (rsum (map (fun x => f x * g x) l) * rsum (map (fun x => f x * g x) l) * (/ rlen l * / rlen l)) by ring.
    replace (rsum (map (fun x => f x * f x) l) * / rlen l * (rsum (map (fun x => g x * g x) l) * / rlen l)) with (rsum (map (fun x => f x * f x) l) * rsum (map (fun x => g x * g x) l) * (/ rlen l * / rlen l)) by ring.
    apply Rmult_le_compat_r; [|exact K]. left. apply Rmult_lt_0_compat; apply Rinv_0_lt_compat, N. }
  rewrite E. assert (SA := sqrt_pos a). assert (SB := sqrt_pos b). assert (QA := sqrt_sqrt a A0). assert (QB := sqrt_sqrt b B0).
  assert (C : c <= sqrt a * sqrt b).
  { destruct (Rle_dec c 0) as [Z|Z]; [assert (0 <= sqrt a * sqrt b) by (apply Rmult_le_pos; assumption); lra|]. apply Rsqr_incr_0_var; [|apply Rmult_le_pos; assumption]. unfold Rsqr.
    replace (sqrt a * sqrt b * (sqrt a * sqrt b)) with ((sqrt a * sqrt a) * (sqrt b * sqrt b)) by ring. rewrite QA, QB. exact CS. }
  rewrite <- (sqrt_Rsqr (sqrt a + sqrt b)) by lra. apply sqrt_le_1_alt. unfold Rsqr. nra.
Qed.

Section Rows.
Variables (rows : list (nat -> R)) (i j k : nat).
Hypothesis NE : rows <> [].
Lemma cols_ne a b : columns a b rows <> [].
Proof. apply map_ne, NE. Qed.
Lemma msd_cols a b : mean_square_diff (columns a b rows) = rmean (map (fun r => (r a - r b) * (r a - r b)) rows).
Proof. unfold mean_square_diff, columns. rewrite map_map. reflexivity. Qed.
Lemma xs_cols a b : xs (columns a b rows) = map (fun r => r a) rows.
Proof. unfold xs, columns. rewrite map_map. reflexivity. Qed.
Lemma ys_cols a b : ys (columns a b rows) = map (fun r => r b) rows.
Proof. unfold ys, columns. rewrite map_map. reflexivity. Qed.
Let m (a : nat) : R := rmean (map (fun r => r a) rows).
Let c (a : nat) (r : nat -> R) : R := r a - m a.
Lemma cov_cols a b : cov (columns a b rows) = rmean (map (fun r => c a r * c b r) rows).
Proof. unfold cov. rewrite xs_cols, ys_cols. unfold columns. rewrite map_map. reflexivity. Qed.
Lemma var_cols a : var (map (fun r => r a) rows) = rmean (map (fun r => c a r * c a r) rows).
Proof. unfold var. rewrite map_map. reflexivity. Qed.
Lemma ub_cols a b : ub2 (columns a b rows) = rmean (map (fun r => (c a r - c b r) * (c a r - c b r)) rows).
Proof.
  unfold ub2. rewrite xs_cols, ys_cols, !var_cols, cov_cols. unfold rmean. rewrite !rlen_map. assert (N := rlen_pos rows NE).
  rewrite (rsum_ext (fun r => (c a r - c b r) * (c a r - c b r)) (fun r => c a r * c a r + (c b r * c b r + -2 * (c a r * c b r)))) by (intros; ring). rewrite rsum_plus, rsum_plus, rsum_scal. field. lra.
Qed.

(* Root mean square differences: via a third dataset they can only become larger. *)
Lemma rmsd_triangle : sqrt (mean_square_diff (columns i k rows)) <= sqrt (mean_square_diff (columns i j rows)) + sqrt (mean_square_diff (columns j k rows)).
Proof.
  rewrite !msd_cols. assert (K := minkowski (fun r : nat -> R => r i - r j) (fun r => r j - r k) rows NE).
  rewrite (rmean_ext (fun r : nat -> R => (r i - r k) * (r i - r k)) (fun r => (r i - r j + (r j - r k)) * (r i - r j + (r j - r k)))) by (intros; ring). exact K.
Qed.
Lemma ubrmsd_triangle : sqrt (ub2 (columns i k rows)) <= sqrt (ub2 (columns i j rows)) + sqrt (ub2 (columns j k rows)).
Proof.
  rewrite !ub_cols. assert (K := minkowski (fun r : nat -> R => c i r - c j r) (fun r => c j r - c k r) rows NE).
  rewrite (rmean_ext (fun r : nat -> R => (c i r - c k r) * (c i r - c k r)) (fun r => (c i r - c j r + (c j r - c k r)) * (c i r - c j r + (c j r - c k r)))) by (intros; ring). exact K.
Qed.
Lemma rmean_le (f g : (nat -> R) -> R) : (forall r, f r <= g r) -> rmean (map f rows) <= rmean (map g rows).
Proof. intros H. unfold rmean. rewrite !rlen_map. apply Rmult_le_compat_r; [left; apply Rinv_0_lt_compat, rlen_pos, NE|]. apply rsum_le. intros; apply H. Qed.
Lemma rmean_add (f g : (nat -> R) -> R) : rmean (map (fun r => f r + g r) rows) = rmean (map f rows) + rmean (map g rows).
Proof. unfold rmean. rewrite !rlen_map, rsum_plus. field. apply rlen_ne, NE. Qed.
Lemma aad_cols a b : map (fun p => Rabs (fst p - snd p)) (columns a b rows) = map (fun r => Rabs (r a - r b)) rows.
Proof. unfold columns. rewrite map_map. reflexivity. Qed.
End Rows.

Theorem C122_distances :
  forall (rows : list (nat -> R)) i j k, rows <> [] ->
    exists e13 e12 e23 u13 u12 u23 a13 a12 a23 b13 b12 b23,
      rmsd (columns i k rows) 0 = Some e13 /\ rmsd (columns i j rows) 0 = Some e12 /\ rmsd (columns j k rows) 0 = Some e23 /\
      ubrmsd (columns i k rows) 0 = Some u13 /\ ubrmsd (columns i j rows) 0 = Some u12 /\ ubrmsd (columns j k rows) 0 = Some u23 /\
      aad (columns i k rows) = Some a13 /\ aad (columns i j rows) = Some a12 /\ aad (columns j k rows) = Some a23 /\
      bias (columns i k rows) = Some b13 /\ bias (columns i j rows) = Some b12 /\ bias (columns j k rows) = Some b23 /\
      e13 <= e12 + e23 /\ u13 <= u12 + u23 /\ a13 <= a12 + a23 /\ b13 = b12 + b23.
Proof.
  intros rows i j k NE. do 12 eexists.
  split; [apply rmsd_correct, cols_ne, NE|]. split; [apply rmsd_correct, cols_ne, NE|]. split; [apply rmsd_correct, cols_ne, NE|].
  split; [apply ubrmsd_correct, cols_ne, NE|]. split; [apply ubrmsd_correct, cols_ne, NE|]. split; [apply ubrmsd_correct, cols_ne, NE|].
  split; [apply aad_correct, cols_ne, NE|]. split; [apply aad_correct, cols_ne, NE|]. split; [apply aad_correct, cols_ne, NE|].
  split; [apply bias_correct, cols_ne, NE|]. split; [apply bias_correct, cols_ne, NE|]. split; [apply bias_correct, cols_ne, NE|].
  split; [apply rmsd_triangle, NE|]. split; [apply ubrmsd_triangle, NE|]. split.
  - rewrite !aad_cols. rewrite <- (rmean_add rows NE). apply (rmean_le rows NE). intros r. replace (r i - r k) with ((r i - r j) + (r j - r k)) by ring. apply Rabs_triang.
  - rewrite !xs_cols, !ys_cols. ring.
Qed.
(* the bias is bounded by the mean absolute difference *)
Theorem C122_bias_aad : forall d, d <> [] -> exists b a, bias d = Some b /\ aad d = Some a /\ Rabs b <= a.
Proof.
  intros d H. eexists. eexists. split; [apply bias_correct, H|]. split; [apply aad_correct, H|].
  assert (N := rlen_pos d H). replace (rmean (xs d) - rmean (ys d)) with (rsum (map (fun p => fst p - snd p) d) / rlen d) by (unfold rmean, xs, ys; rewrite !rlen_map, rsum_minus; field; lra).
  unfold rmean. rewrite rlen_map. unfold Rdiv. rewrite Rabs_mult, (Rabs_pos_eq (/ rlen d)) by (left; apply Rinv_0_lt_compat, N). apply Rmult_le_compat_r; [left; apply Rinv_0_lt_compat, N|].
  clear. induction d as [|p d IH]; cbn [map rsum]; [rewrite Rabs_R0; lra|]. eapply Rle_trans; [apply Rabs_triang|]. lra.
Qed.
(* The median absolute difference is no distance: it can be 0 twice and then not. *)
Definition mad_rows : list (nat -> R) := [(fun c => nth c [0; 0; 9] 0); (fun c => nth c [0; 0; 0] 0); (fun c => nth c [0; 9; 9] 0)].
Theorem C122_mad_refuted :
  exists (rows : list (nat -> R)) i j k a12 a23 a13, mad (columns i j rows) = Some a12 /\ mad (columns j k rows) = Some a23 /\ mad (columns i k rows) = Some a13 /\ a12 + a23 < a13.
Proof.
  exists mad_rows, 0%nat, 1%nat, 2%nat, 0, 0, 9. unfold mad, columns, mad_rows. cbn [map nth fst snd].
  replace (Rabs (0 - 0)) with 0 by (rewrite Rminus_0_r, Rabs_R0; reflexivity). replace (Rabs (0 - 9)) with 9 by (rewrite Rabs_minus_sym, Rminus_0_r, Rabs_pos_eq; lra). replace (Rabs (9 - 9)) with 0 by (rewrite Rminus_diag_eq, Rabs_R0; reflexivity).
  unfold np_median, r_sort. cbn [fold_right r_insert List.length]. repeat (match goal with |- context [Rle_dec ?a ?b] => destruct (Rle_dec a b); try lra end; cbn [r_insert]).
  cbn. repeat split; lra.
Qed.

(* ------------------------------------------------------- correlations *)
(* What the correlations with a common dataset leave for the third one. *)
Section Corr.
Variable betainc : R -> R -> R -> R.
Theorem C122_correlations :
  forall (rows : list (nat -> R)) i j k, rows <> [] ->
    ~ constant (column i rows) -> ~ constant (column j rows) -> ~ constant (column k rows) ->
    exists r12 r23 r13 p12 p23 p13,
      pearson_of betainc (columns i j rows) = Some (r12, p12) /\ pearson_of betainc (columns j k rows) = Some (r23, p23) /\ pearson_of betainc (columns i k rows) = Some (r13, p13) /\
      (r13 - r12 * r23) * (r13 - r12 * r23) <= (1 - r12 * r12) * (1 - r23 * r23).
Proof.
  intros rows i j k NE CI CJ CK. unfold column in *.
  assert (P : forall a b, ~ constant (map (fun r => r a) rows) -> ~ constant (map (fun r => r b) rows) -> pearson_of betainc (columns a b rows) = Some (correlation (columns a b rows), p_value betainc (correlation (columns a b rows)) (rlen (columns a b rows)))).
  { intros a b A B. apply pearson_some; [apply cols_ne, NE|rewrite xs_cols; exact A|rewrite ys_cols; exact B]. }
  do 6 eexists. split; [apply P; assumption|]. split; [apply P; assumption|]. split; [apply P; assumption|].
  assert (N := rlen_pos rows NE). unfold correlation. rewrite !xs_cols, !ys_cols, !cov_cols.
  set (f := fun a r => r a - rmean (map (fun r : nat -> R => r a) rows)). set (S := fun a b => rmean (map (fun r => f a r * f b r) rows)).
  assert (SP : forall a, ~ constant (map (fun r => r a) rows) -> 0 < std (map (fun r => r a) rows) /\ std (map (fun r => r a) rows) * std (map (fun r => r a) rows) = S a a).
  { intros a A. split; [|rewrite std_sqr; apply var_cols]. destruct (std_nonneg (map (fun r => r a) rows)) as [Z|Z]; [exact Z|]. exfalso. apply A. apply std_zero; [apply map_ne, NE|]. symmetry. exact Z. }
  destruct (SP i CI) as [PI QI]. destruct (SP j CJ) as [PJ QJ]. destruct (SP k CK) as [PK QK].
  change (rmean (map (fun r => (r i - rmean (map (fun r0 : nat -> R => r0 i) rows)) * (r j - rmean (map (fun r0 : nat -> R => r0 j) rows))) rows)) with (S i j).
  change (rmean (map (fun r => (r j - rmean (map (fun r0 : nat -> R => r0 j) rows)) * (r k - rmean (map (fun r0 : nat -> R => r0 k) rows))) rows)) with (S j k).
  change (rmean (map (fun r => (r i - rmean (map (fun r0 : nat -> R => r0 i) rows)) * (r k - rmean (map (fun r0 : nat -> R => r0 k) rows))) rows)) with (S i k).
  set (si := std (map (fun r => r i) rows)) in *. set (sj := std (map (fun r => r j) rows)) in *. set (sk := std (map (fun r => r k) rows)) in *.
  (* Cauchy-Schwarz for the residuals of the regressions on dataset j *)
  assert (LIN : forall a b : R, forall u v w z, rmean (map (fun r => (a * f u r - b * f v r) * (a * f w r - z * f v r)) rows) = a * a * S u w - a * z * S u v - a * b * S w v + b * z * S v v).
  { intros a b u v w z. unfold S, rmean. rewrite !rlen_map.
    rewrite (rsum_ext (fun r => (a * f u r - b * f v r) * (a * f w r - z * f v r)) (fun r => (a * a) * (f u r * f w r) + ((- (a * z)) * (f u r * f v r) + ((- (a * b)) * (f w r * f v r) + (b * z) * (f v r * f v r))))) by (intros; ring).
    rewrite !rsum_plus, !rsum_scal. field. lra. }
  assert (CS : forall p q : (nat -> R) -> R, rmean (map (fun r => p r * q r) rows) * rmean (map (fun r => p r * q r) rows) <= rmean (map (fun r => p r * p r) rows) * rmean (map (fun r => q r * q r) rows)).
  { intros p q. assert (K := cauchy_schwarz p q rows). unfold Rsqr in K. unfold rmean. rewrite !rlen_map. unfold Rdiv.
    match goal with |- ?a * ?n * (?b * ?n) <= ?d * ?n * (?e * ?n) => replace (a * n * (b * n)) with (a * b * (n * n)) by ring; replace (d * n * (e * n)) with (d * e * (n * n)) by ring end.
    apply Rmult_le_compat_r; [|exact K]. left. apply Rmult_lt_0_compat; apply Rinv_0_lt_compat, N. }
  assert (SYM : forall a b, S a b = S b a) by (intros a b; unfold S; apply rmean_ext; intros; ring).
  assert (K := CS (fun r => S j j * f i r - S i j * f j r) (fun r => S j j * f k r - S j k * f j r)). cbv beta in K. rewrite !LIN in K.
  rewrite (SYM k j) in K.
  set (x := S i j) in *. set (y := S j k) in *. set (z := S i k) in *. set (A := S i i) in *. set (B := S j j) in *. set (C := S k k) in *.
  clearbody x y z A B C si sj sk. assert (BP : 0 < B) by (rewrite <- QJ; apply Rmult_lt_0_compat; assumption).
  assert (K2 : (B * z - x * y) * (B * z - x * y) <= (B * A - x * x) * (B * C - y * y)).
  { apply (Rmult_le_reg_l (B * B)); [apply Rmult_lt_0_compat; assumption|].
    replace (B * B * ((B * z - x * y) * (B * z - x * y))) with ((B * B * z - B * y * x - B * x * y + x * y * B) * (B * B * z - B * y * x - B * x * y + x * y * B)) by ring.
    replace (B * B * ((B * A - x * x) * (B * C - y * y))) with ((B * B * A - B * x * x - B * x * x + x * x * B) * (B * B * C - B * y * y - B * y * y + y * y * B)) by ring. exact K. }
  set (D := B * B * A * C). assert (DP : 0 < D). { unfold D. rewrite <- QI, <- QK. repeat apply Rmult_lt_0_compat; assumption. }
  apply (Rmult_le_reg_l D); [exact DP|].
  replace (D * ((z / (si * sk) - x / (si * sj) * (y / (sj * sk))) * (z / (si * sk) - x / (si * sj) * (y / (sj * sk))))) with ((B * z - x * y) * (B * z - x * y)).
  2:{ unfold D. rewrite <- QI, <- QJ, <- QK. field. lra. }
  replace (D * ((1 - x / (si * sj) * (x / (si * sj))) * (1 - y / (sj * sk) * (y / (sj * sk))))) with ((B * A - x * x) * (B * C - y * y)); [exact K2|].
  unfold D. rewrite <- QI, <- QJ, <- QK. field. lra.
Qed.
End Corr.
(* for example: two datasets that have a correlation of at least 0.9 with a third one have a correlation of at least 0.62 *)
Example C122_ex r12 r23 r13 : (9 / 10) <= r12 <= 1 -> (9 / 10) <= r23 <= 1 -> (r13 - r12 * r23) * (r13 - r12 * r23) <= (1 - r12 * r12) * (1 - r23 * r23) -> (62 / 100) <= r13.
Proof.
  intros A B H. assert (X : (1 - r12 * r12) * (1 - r23 * r23) <= 19 / 100 * (19 / 100)) by (apply Rmult_le_compat; nra).
  assert (Y : 81 / 100 <= r12 * r23) by nra. destruct (Rle_dec (62 / 100) r13) as [Z|Z]; [exact Z|]. exfalso. assert (19 / 100 < r12 * r23 - r13) by lra. nra.
Qed.
Definition three_rows : list (nat -> R) := [(fun c => nth c [1; 2; 2] 0); (fun c => nth c [2; 5; 1] 0); (fun c => nth c [6; 2; 4] 0)].
Example C122_rows_ex : three_rows <> [] /\ ~ constant (column 0 three_rows) /\ ~ constant (column 1 three_rows) /\ ~ constant (column 2 three_rows).
Proof.
  split; [discriminate|]. unfold column, three_rows. cbn [map nth]. split; [|split]; intros C.
  - assert (X := C 1 2 (or_introl eq_refl) (or_intror (or_introl eq_refl))). lra.
  - assert (X := C 2 5 (or_introl eq_refl) (or_intror (or_introl eq_refl))). lra.
  - assert (X := C 2 1 (or_introl eq_refl) (or_intror (or_introl eq_refl))). lra.
Qed.

Print Assumptions C122_distances.
Print Assumptions C122_bias_aad.
Print Assumptions C122_mad_refuted.
Print Assumptions C122_correlations.
