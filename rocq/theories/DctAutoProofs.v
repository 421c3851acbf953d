(* Proofs about the smoothing parameter and the score of smoothn. *)
From Coq Require Import Lra Lia.
From Verif Require Import Base RStats RStatsProofs MetricsModel MetricsProofs DctModel DctSpec DctProofs1 DctProofs2 DctProofs3 DctProofs4 DctProofs5 DctProofs6 DctProofs7 DctAutoSpec.
Open Scope R_scope.

Section Score.
Variables (shape : list nat) (lam : arr R) (order : nat) (s : R).
Hypothesis L : pen_nonneg_lam shape lam.
Hypothesis SP : 0 <= s.
Hypothesis O : order = 1%nat \/ order = 2%nat.
Notation P := (pen lam order s).

Lemma gamma_pen k : gamma s lam order k = 1 / (1 + P k). Proof. reflexivity. Qed.
Lemma sm_best q : best_fit order shape s (fun _ => 1) q (sm shape P q).
Proof. apply (fixed_best_ones shape lam order s L SP O). intros i I. apply (sm_all_ones shape P q i I). Qed.
Lemma best_unique w q u v : best_fit order shape s w q u -> best_fit order shape s w q v -> forall i, In i (indices shape) -> v i = u i.
Proof. intros A B. apply (proj2 (A v)). apply (B u). Qed.
Lemma dct_sm q k : In k (indices shape) -> dctNd shape (sm shape P q) k = gamma s lam order k * dctNd shape q k.
Proof. intros K. unfold sm. rewrite dct_idct by exact K. reflexivity. Qed.
Lemma idct_is_sm q : idctNd shape (fun k => gamma s lam order k * dctNd shape q k) = sm shape P q. Proof. reflexivity. Qed.

Lemma norm2_total f : norm2 (map f (indices shape)) = total shape (fun i => f i ^ 2).
Proof. unfold norm2, total. rewrite map_map. reflexivity. Qed.
Lemma rss_plain q : norm2 (map (fun k => dctNd shape q k * (gamma s lam order k - 1)) (indices shape)) = total shape (fun i => (q i - sm shape P q i) ^ 2).
Proof.
  rewrite norm2_total. transitivity (total shape (fun i => (q i - sm shape P q i) * (q i - sm shape P q i))); [|apply total_ext; intros; ring].
  rewrite <- (dct_inner shape (fun i => q i - sm shape P q i)). apply total_ext. intros k K.
  assert (E : dctNd shape (fun i => q i - sm shape P q i) k = dctNd shape q k - gamma s lam order k * dctNd shape q k).
  { transitivity (dctNd shape (fun i => 1 * q i + (-1) * sm shape P q i) k); [apply dct_ext; [intros; ring|exact K]|]. rewrite dct_linear, dct_sm by exact K. ring. }
  rewrite E. ring.
Qed.
Lemma rss_flat (w y v : arr R) : (forall i, In i (indices shape) -> 0 <= w i) ->
  norm2 (flat_map (fun i => [sqrt (w i) * (y i - v i)]) (indices shape)) = total shape (fun i => w i * (y i - v i) ^ 2).
Proof.
  unfold norm2, total. induction (indices shape) as [|a l IH]; intros W; [reflexivity|]. cbn [flat_map app map rsum]. rewrite IH by (intros i I; apply W; right; exact I). f_equal.
  rewrite Rpow_mult_distr. f_equal. rewrite <- Rsqr_pow2. apply Rsqr_sqrt. apply W. left. reflexivity.
Qed.
(* the weights are handed on exactly if one of them is below 1 *)
Lemma weights_mean w : (forall i, In i (indices shape) -> 0 <= w i <= 1) -> size shape <> 0%nat ->
  (exists i, In i (indices shape) /\ w i < 1) /\ weights_arg shape w = Some w \/ (forall i, In i (indices shape) -> w i = 1) /\ weights_arg shape w = None.
Proof.
  intros W SZ. assert (N : 0 < INR (size shape)) by (apply lt_0_INR; lia).
  assert (T : total shape (fun i => 1 - w i) = INR (size shape) - total shape w) by (rewrite total_minus, total_const; ring).
  assert (NN : forall i, In i (indices shape) -> 0 <= 1 - w i) by (intros i I; specialize (W i I); lra).
  unfold weights_arg. destruct (Rle_dec 1 (total shape w / INR (size shape))) as [H|H].
  - right. split; [|reflexivity]. intros i I. assert (INR (size shape) <= total shape w).
    { apply (Rmult_le_compat_r (INR (size shape))) in H; [|lra]. unfold Rdiv in H. rewrite Rmult_assoc, Rinv_l in H by lra. lra. }
    pose proof (total_nonneg shape _ NN). pose proof (total_zero shape _ NN ltac:(lra) i I) as E. cbn beta in E. lra.
  - left. split; [|reflexivity]. destruct (Classical_Prop.classic (exists i, In i (indices shape) /\ w i < 1)) as [E|E]; [exact E|]. exfalso. apply H.
    assert (A : forall i, In i (indices shape) -> w i = 1) by (intros i I; specialize (W i I); destruct (Rlt_dec (w i) 1) as [C|C]; [exfalso; apply E; exists i; auto|lra]).
    rewrite (total_ext shape w (fun _ => 1) A), total_const. unfold Rdiv. rewrite Rmult_1_r, Rinv_r by lra. lra.
Qed.
Lemma gcv_rss_total w y zp : (forall i, In i (indices shape) -> 0 <= w i <= 1) -> size shape <> 0%nat ->
  gcv_rss shape s lam (dctNd shape (pull w y zp)) (fun i => Some (y i)) order (weights_arg shape w) =
  total shape (fun i => w i * (y i - sm shape P (pull w y zp) i) ^ 2).
Proof.
  intros W SZ. destruct (weights_mean w W SZ) as [[_ ->]|[A ->]]; unfold gcv_rss.
  - rewrite idct_is_sm. apply (rss_flat w y). intros i I. apply W, I.
  - rewrite rss_plain. apply total_ext. intros i I. rewrite (A i I). unfold pull at 1. rewrite (A i I). ring.
Qed.

(* ---- the trace *)
Lemma dct_impulse j k : In j (indices shape) -> In k (indices shape) -> dctNd shape (impulse j) k = kernelN shape k j.
Proof.
  intros J K. rewrite dctNd_kernel by exact K. rewrite <- (total_pick shape (kernelN shape k) j J). apply total_ext. intros i I. unfold impulse, ieqb.
  destruct (list_eq_dec Nat.eq_dec i j) as [->|NE]; [destruct (list_eq_dec Nat.eq_dec j j); [ring|congruence]|destruct (list_eq_dec Nat.eq_dec j i); [congruence|ring]].
Qed.
Lemma trace_gamma : total shape (fun j => sm shape P (impulse j) j) = total shape (gamma s lam order).
Proof.
  transitivity (total shape (fun j => total shape (fun k => gamma s lam order k * (kernelN shape k j * kernelN shape k j)))).
  - apply total_ext. intros j J. unfold sm. rewrite idctNd_kernel by exact J. apply total_ext. intros k K. rewrite (dct_impulse j k J K), gamma_pen. ring.
  - rewrite total_swap. apply total_ext. intros k K. rewrite total_scal, (rowsN shape k k K K). unfold ieqb. destruct (list_eq_dec Nat.eq_dec k k); [ring|congruence].
Qed.
Lemma influence_gamma t : influence order shape s t <-> t = total shape (gamma s lam order).
Proof.
  split.
  - intros (f & F & ->). rewrite <- trace_gamma. apply total_ext. intros j J. apply (best_unique _ _ _ _ (sm_best (impulse j)) (F j J) j J).
  - intros ->. exists (fun j => sm shape P (impulse j)). split; [intros j _; apply sm_best|]. symmetry. apply trace_gamma.
Qed.
End Score.
Lemma other_index shape : (2 <= size shape)%nat -> exists k, In k (indices shape) /\ k <> origin shape.
Proof.
  unfold size. pose proof (NoDup_indices shape) as ND. destruct (indices shape) as [|a [|b l]]; cbn; try lia. intros _. inversion ND as [|? ? N _]; subst.
  destruct (list_eq_dec Nat.eq_dec a (origin shape)) as [->|E]; [exists b|exists a; auto]. split; [auto|]. intros ->. apply N. left. reflexivity.
Qed.
Lemma gamma_range shape lam order s k : pen_nonneg_lam shape lam -> 0 <= s -> In k (indices shape) -> 0 < gamma s lam order k <= 1.
Proof.
  intros L SP K. unfold gamma. rewrite (L k K). assert (0 <= s * lamN shape k ^ order) by (apply Rmult_le_pos; [lra|apply pow_le, lamN_nonneg]). set (x := s * lamN shape k ^ order) in *. clearbody x.
  split; [apply Rmult_lt_0_compat; [lra|apply Rinv_0_lt_compat; lra]|]. apply (Rmult_le_reg_r (1 + x)); [lra|]. unfold Rdiv. rewrite Rmult_assoc, Rinv_l by lra. lra.
Qed.
Lemma trace_below shape lam order s : pen_nonneg_lam shape lam -> 0 < s -> (2 <= size shape)%nat -> 0 < total shape (gamma s lam order) < INR (size shape).
Proof.
  intros L SP SZ. pose proof (fun k K => gamma_range shape lam order s k L ltac:(lra) K) as G. destruct (other_index shape SZ) as (k & K & NE). split.
  - pose proof (total_ge shape (gamma s lam order) k ltac:(intros j J; left; apply G, J) K). pose proof (G k K). lra.
  - pose proof (total_ge shape (fun j => 1 - gamma s lam order j) k ltac:(intros j J; pose proof (G j J); lra) K) as T. cbn beta in T. rewrite total_minus, total_const in T.
    assert (gamma s lam order k < 1); [|lra]. unfold gamma. rewrite (L k K). assert (0 < s * lamN shape k ^ order) by (apply Rmult_lt_0_compat; [lra|apply pow_lt, lamN_pos; assumption]).
    set (x := s * lamN shape k ^ order) in *. clearbody x. apply (Rmult_lt_reg_r (1 + x)); [lra|]. unfold Rdiv. rewrite Rmult_assoc, Rinv_l by lra. lra.
Qed.

(* ---- the score of one iteration *)
Lemma all_finite shape (y : arr R) : countb (fun i => np_isfinite (Some (y i))) (indices shape) = size shape.
Proof. unfold size, countb. induction (indices shape) as [|a l IH]; [reflexivity|]. cbn. f_equal. exact IH. Qed.
Lemma gcv_value shape lam order s w y zp : pen_nonneg_lam shape lam -> 0 < s -> order = 1%nat \/ order = 2%nat -> (2 <= size shape)%nat -> (forall i, In i (indices shape) -> 0 <= w i <= 1) ->
  gcv shape s lam (dctNd shape (pull w y zp)) (fun i => Some (y i)) order (weights_arg shape w) =
  Ok (Some (gcv_of (total shape (fun i => w i * (y i - sm shape (pen lam order s) (pull w y zp) i) ^ 2)) (INR (size shape)) (total shape (gamma s lam order)) (INR (size shape))), gamma s lam order).
Proof.
  intros L SP O SZ W. unfold gcv. replace (Nat.eqb order 1 || Nat.eqb order 2)%bool with true by (destruct O as [-> | ->]; reflexivity).
  rewrite gcv_rss_total by (assumption || lia || lra). rewrite all_finite. pose proof (trace_below shape lam order s L SP SZ) as T. set (t := total shape (gamma s lam order)) in *. assert (N : 0 < INR (size shape)) by (apply lt_0_INR; lia).
  assert (D : 1 - t / INR (size shape) <> 0). { intros E. assert (t = INR (size shape)); [|lra]. apply (Rmult_eq_reg_r (/ INR (size shape))); [|apply Rinv_neq_0_compat; lra]. rewrite Rinv_r by lra. unfold Rdiv in E. lra. }
  unfold fdiv at 1. destruct (Req_EM_T (INR (size shape)) 0); [lra|]. cbn [obind]. unfold fdiv. destruct (Req_EM_T ((1 - t / INR (size shape)) ^ 2) 0) as [E|E]; [exfalso; apply (pow_nonzero _ 2 D), E|]. reflexivity.
Qed.
Lemma flat_map_ext_in {A B} (f g : A -> list B) l : (forall x, In x l -> f x = g x) -> flat_map f l = flat_map g l.
Proof. induction l as [|a l IH]; intros H; [reflexivity|]. cbn [flat_map]. rewrite (H a (or_introl eq_refl)), IH; [reflexivity|]. intros x X. apply H. right. exact X. Qed.
Lemma gcv_ext shape s lam c c' y order w : (forall k, In k (indices shape) -> c k = c' k) -> gcv shape s lam c y order w = gcv shape s lam c' y order w.
Proof.
  intros E. unfold gcv, gcv_rss. destruct (_ || _)%bool; [|reflexivity]. do 4 f_equal. destruct w as [w|].
  - f_equal. assert (X : forall i, In i (indices shape) -> idctNd shape (fun k => gamma s lam order k * c k) i = idctNd shape (fun k => gamma s lam order k * c' k) i) by (intros i I; apply idct_ext; [intros k K; rewrite (E k K); reflexivity|exact I]).
    apply flat_map_ext_in. intros i I. rewrite (X i I). reflexivity.
  - f_equal. apply map_ext_in. intros k K. rewrite (E k K). reflexivity.
Qed.
