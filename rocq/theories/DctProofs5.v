(* Proofs about smoothn, continued: usable arguments, complete data. *)
From Coq Require Import Lra Lia.
From Verif Require Import Base RStats RStatsProofs MetricsModel MetricsProofs DctModel DctSpec DctProofs1 DctProofs2 DctProofs3 DctProofs4.
Open Scope R_scope.

Lemma valid_dec o d i : {gap o d i} + {~ gap o d i}.
Proof.
  destruct (valid_at o d i) eqn:E; [right; apply valid_spec, E|left].
  unfold valid_at in E. unfold gap. apply andb_false_iff in E as [E|E].
  - left. destruct (o_gap o) as [g|], (d i) as [v|]; cbn in E; try reflexivity; try discriminate. destruct (Req_EM_T v g); [congruence|discriminate].
  - right. destruct (o_exclude o) as [m|]; [|discriminate]. exists m. split; [reflexivity|]. destruct (m i); [reflexivity|discriminate].
Qed.
Lemma valid_gap o d i : valid_at o d i = false <-> gap o d i.
Proof.
  pose proof (valid_spec o d i) as H. split; intros G.
  - destruct (valid_dec o d i) as [A|A]; [exact A|]. apply H in A. congruence.
  - destruct (valid_at o d i); [|reflexivity]. exfalso. apply (proj1 H eq_refl), G.
Qed.

Lemma usable_max shape d o sh w : usable shape d o -> o_weights o = Some (sh, w) -> 0 < arr_max shape w.
Proof.
  intros ((_ & SZ) & _ & _ & W & _) E. destruct (W sh w E) as (_ & _ & i & I & P). pose proof (proj1 (arr_max_spec shape w ltac:(lia)) i I). lra.
Qed.
Lemma usable_wv shape d o : usable shape d o -> forall i, In i (indices shape) ->
  (if valid_at o d i then wraw o shape i else Some 0) = Some (wv o shape d i) /\ 0 <= wv o shape d i <= 1.
Proof.
  intros U i I. unfold wv. destruct (valid_at o d i); [|split; [reflexivity|lra]]. unfold wraw. destruct (o_weights o) as [[sh w]|] eqn:E; [|split; [reflexivity|lra]].
  pose proof (usable_max _ _ _ _ _ U E) as M. destruct U as ((_ & SZ) & _ & _ & W & _). destruct (W sh w E) as (_ & P & _). pose proof (P i I) as Pi. pose proof (proj1 (arr_max_spec shape w ltac:(lia)) i I) as Mi.
  unfold fdiv. destruct (Req_EM_T (arr_max shape w) 0); [lra|]. split; [reflexivity|]. split.
  - apply Rmult_le_pos; [exact Pi|]. left. apply Rinv_0_lt_compat, M.
  - apply (Rmult_le_reg_r (arr_max shape w)); [exact M|]. unfold Rdiv. rewrite Rmult_assoc, Rinv_l by lra. lra.
Qed.
Lemma usable_weights shape d o : usable shape d o -> weights_of o shape d (wv o shape d).
Proof.
  intros U i I. split; intros G.
  - unfold wv. rewrite (proj2 (valid_gap o d i) G). reflexivity.
  - unfold wv. rewrite (proj2 (valid_spec o d i) G). unfold wraw. destruct (o_weights o) as [[sh w]|] eqn:E; [|reflexivity].
    pose proof (usable_max _ _ _ _ _ U E) as M. destruct U as ((_ & SZ) & _). destruct (arr_max_spec shape w ltac:(lia)) as (A & B). exists (arr_max shape w). split; [exact A|]. split; [exact B|].
    unfold fdiv. destruct (Req_EM_T (arr_max shape w) 0); [lra|]. field. assumption.
Qed.
(* the weights are determined by their description *)
Lemma weights_unique shape d o w : usable shape d o -> weights_of o shape d w -> forall i, In i (indices shape) -> w i = wv o shape d i.
Proof.
  intros U H i I. pose proof (usable_weights _ _ _ U) as H2. destruct (H i I) as (A & B), (H2 i I) as (A2 & B2). destruct (valid_dec o d i) as [G|G]; [rewrite A, A2 by exact G; reflexivity|].
  specialize (B G). specialize (B2 G). destruct (o_weights o) as [[sh v]|] eqn:E; [|congruence].
  destruct B as (m & M1 & (j & J & M2) & M3). destruct B2 as (m' & M1' & (j' & J' & M2') & M3').
  assert (m = m') by (pose proof (M1 j' J'); pose proof (M1' j J); lra). subst m'.
  destruct U as ((_ & SZ) & _ & _ & W & _). destruct (W sh v E) as (_ & _ & k & K & P). pose proof (M1 k K). apply (Rmult_eq_reg_r m); [congruence|lra].
Qed.
Lemma usable_yv shape d o y : usable shape d o -> values_of o shape d y -> forall i, In i (indices shape) -> ~ gap o d i -> yv o d i = y i.
Proof. intros U H i I G. unfold yv. rewrite (proj2 (valid_spec o d i) G), (H i I G). reflexivity. Qed.
Lemma usable_values shape d o : usable shape d o -> values_of o shape d (yv o d).
Proof.
  intros U i I G. unfold yv. rewrite (proj2 (valid_spec o d i) G). destruct U as (_ & _ & _ & _ & _ & NN & _). destruct (d i) eqn:E; [reflexivity|]. exfalso. apply G. apply NN; assumption.
Qed.

Lemma usable_ready shape d o : usable shape d o -> exists lam, ready o shape d lam /\ forall k, In k (indices shape) -> lam k = lamN shape k.
Proof.
  intros U. destruct (lambda_default shape) as (lam & L & LN). exists lam. split; [|exact LN]. pose proof (usable_wv _ _ _ U) as WV. pose proof U as ((DIM & SZ) & AX & OR & W & IN & NN & MI & TZ & SM).
  unfold ready. rewrite AX. repeat split; try (exact L || lia).
  - intros sh w E. apply (W sh w E).
  - intros i I E. destruct (valid_at o d i) eqn:V; [|discriminate]. apply valid_spec in V. apply V, NN; assumption.
  - intros i I. exists (wv o shape d i). split; apply (WV i I).
  - exact IN.
  - intros s E. left. apply SM, E.
Qed.

(* the smoother only looks at the array *)
Lemma sm_ext shape pn pn' q q' : (forall k, In k (indices shape) -> pn k = pn' k) -> (forall i, In i (indices shape) -> q i = q' i) ->
  forall i, In i (indices shape) -> sm shape pn q i = sm shape pn' q' i.
Proof. intros P Q i I. unfold sm. apply idct_ext; [|exact I]. intros k K. rewrite (P k K), (dct_ext shape q q' Q k K). reflexivity. Qed.
(* what it computes, without transforms *)
Definition pen_nonneg_lam (shape : list nat) (lam : arr R) := forall k, In k (indices shape) -> lam k = lamN shape k.
Lemma pen_nonneg shape lam order s : pen_nonneg_lam shape lam -> 0 <= s -> forall k, In k (indices shape) -> 0 <= pen lam order s k.
Proof. intros L H k K. unfold pen. rewrite (L k K). apply Rmult_le_pos; [exact H|]. apply pow_le, lamN_nonneg. Qed.
Lemma dct_injective shape u v : (forall k, In k (indices shape) -> dctNd shape u k = dctNd shape v k) -> forall i, In i (indices shape) -> u i = v i.
Proof. intros H i I. rewrite <- (idct_dct shape u i I), <- (idct_dct shape v i I). apply idct_ext; assumption. Qed.
Definition rough_op (order : nat) (shape : list nat) (v : arr R) : arr R :=
  if Nat.eqb order 1 then (fun i => - laplacian shape v i) else laplacian shape (laplacian shape v).
Lemma dct_rough order shape v k : order = 1%nat \/ order = 2%nat -> In k (indices shape) -> dctNd shape (rough_op order shape v) k = lamN shape k ^ order * dctNd shape v k.
Proof.
  intros [-> | ->] K; unfold rough_op; cbn [Nat.eqb].
  - transitivity (dctNd shape (fun i => (-1) * laplacian shape v i + 0 * laplacian shape v i) k); [apply dct_ext; [intros i _; ring|exact K]|].
    rewrite dct_linear by exact K. rewrite dct_laplacian by exact K. ring.
  - rewrite !dct_laplacian by exact K. ring.
Qed.
Lemma sm_solves shape lam order s q v : pen_nonneg_lam shape lam -> 0 <= s -> order = 1%nat \/ order = 2%nat ->
  (forall i, In i (indices shape) -> v i + s * rough_op order shape v i = q i) -> forall i, In i (indices shape) -> sm shape (pen lam order s) q i = v i.
Proof.
  intros L SP O H. apply dct_injective. intros k K.
  pose proof (sm_coeff shape (pen lam order s) (pen_nonneg _ _ _ _ L SP) q k K) as C.
  rewrite <- (dct_ext shape _ _ H k K) in C.
  assert (E : dctNd shape (fun i => v i + s * rough_op order shape v i) k = (1 + pen lam order s k) * dctNd shape v k).
  { transitivity (dctNd shape (fun i => 1 * v i + s * rough_op order shape v i) k); [apply dct_ext; [intros i _; ring|exact K]|].
    rewrite dct_linear by exact K. rewrite (dct_rough order shape v k O K). unfold pen. rewrite (L k K). ring. }
  rewrite E in C. pose proof (pen_nonneg _ _ order s L SP k K). apply Rmult_eq_reg_l in C; [exact C|lra].
Qed.
Lemma cost_penalised shape lam order s w y v : pen_nonneg_lam shape lam -> order = 1%nat \/ order = 2%nat ->
  cost shape (pen lam order s) w y v = penalised order shape s w y v.
Proof.
  intros L O. unfold cost, penalised. f_equal. rewrite <- (penalty_roughness order shape v O), <- total_scal. apply total_ext. intros k K. unfold pen. rewrite (L k K). ring.
Qed.
Lemma penalised_ext order shape s w y w' y' v : (forall i, In i (indices shape) -> w i = w' i) -> (forall i, In i (indices shape) -> w i <> 0 -> y i = y' i) ->
  penalised order shape s w y v = penalised order shape s w' y' v.
Proof.
  intros A B. unfold penalised. f_equal. apply total_ext. intros i I. rewrite <- (A i I). destruct (Req_dec (w i) 0) as [E|E]; [rewrite E; ring|]. rewrite (B i I E). reflexivity.
Qed.
Lemma roughness_ext order shape u v : order = 1%nat \/ order = 2%nat -> (forall i, In i (indices shape) -> u i = v i) -> roughness order shape u = roughness order shape v.
Proof.
  intros O H. rewrite <- !(penalty_roughness order shape _ O). apply total_ext. intros k K. rewrite (dct_ext shape u v H k K). reflexivity.
Qed.
Lemma penalised_ext_z order shape s w y u v : order = 1%nat \/ order = 2%nat -> (forall i, In i (indices shape) -> u i = v i) ->
  penalised order shape s w y u = penalised order shape s w y v.
Proof. intros O H. unfold penalised. rewrite (roughness_ext order shape u v O H). f_equal. apply total_ext. intros i I. rewrite (H i I). reflexivity. Qed.

(* the first coefficient is the sum *)
Definition origin (shape : list nat) : index := repeat 0%nat (List.length shape).
Lemma kernelN_origin shape : forall i, In i (indices shape) -> kernelN shape (origin shape) i = / sqrt (INR (size shape)).
Proof.
  induction shape as [|n rest IH]; intros i I.
  - apply in_indices_nil in I as ->. cbn. rewrite sqrt_1. lra.
  - apply in_indices in I as (i0 & is & -> & I0 & IS). cbn [kernelN origin List.length repeat]. change (repeat 0%nat (List.length rest)) with (origin rest). rewrite (IH is IS).
    unfold kernel. cbn [Nat.eqb]. replace (PI * INR 0 * (2 * INR i0 + 1) / (2 * INR n)) with 0 by (cbn [INR]; unfold Rdiv; ring). rewrite cos_0.
    assert (SZ : size (n :: rest) = (n * size rest)%nat).
    { unfold size. cbn [indices]. clear. assert (G : forall l : list nat, List.length (flat_map (fun i => map (cons i) (indices rest)) l) = (List.length l * List.length (indices rest))%nat).
      { induction l as [|a l IHl]; [reflexivity|]. cbn [flat_map List.length]. rewrite app_length, map_length, IHl. lia. } rewrite G, seq_length. reflexivity. }
    rewrite SZ, mult_INR. assert (0 < INR n) by (apply lt_0_INR; lia). assert (0 < INR (size rest)).
    { apply lt_0_INR. unfold size. destruct (indices rest); [destruct IS|cbn; lia]. }
    rewrite sqrt_mult by lra. rewrite Rmult_1_r. unfold Rdiv. rewrite Rmult_1_l. 
    rewrite sqrt_inv.
    rewrite Rinv_mult. reflexivity.
Qed.
Lemma origin_in shape : size shape <> 0%nat -> In (origin shape) (indices shape).
Proof.
  induction shape as [|n rest IH]; intros H; [left; reflexivity|]. apply in_indices. exists 0%nat, (origin rest). split; [reflexivity|].
  unfold size in H. cbn [indices] in H. destruct n; [cbn in H; congruence|]. split; [lia|]. apply IH. intros E. apply H. unfold size in E. destruct (indices rest); [|discriminate]. clear. induction (seq 0 (S n)); [reflexivity|exact IHl].
Qed.
Lemma dct_origin shape v : size shape <> 0%nat -> dctNd shape v (origin shape) = total shape v / sqrt (INR (size shape)).
Proof.
  intros H. rewrite dctNd_kernel by (apply origin_in, H). unfold Rdiv. rewrite Rmult_comm, <- total_scal. apply total_ext. intros i I. rewrite kernelN_origin by exact I. ring.
Qed.
Lemma lamN_origin shape : lamN shape (origin shape) = 0.
Proof. induction shape as [|n rest IH]; [reflexivity|]. cbn [lamN origin List.length repeat]. change (repeat 0%nat (List.length rest)) with (origin rest). rewrite IH. unfold lambda1. replace (PI * INR 0 / INR n) with 0 by (cbn [INR]; unfold Rdiv; ring). rewrite cos_0. ring. Qed.
Lemma sm_total shape lam order s q : pen_nonneg_lam shape lam -> 0 <= s -> order = 1%nat \/ order = 2%nat -> total shape (sm shape (pen lam order s) q) = total shape q.
Proof.
  intros L SP O. destruct (Nat.eq_dec (size shape) 0) as [Z|NZ].
  { unfold total, size in *. destruct (indices shape); [reflexivity|discriminate]. }
  pose proof (sm_coeff shape (pen lam order s) (pen_nonneg _ _ _ _ L SP) q _ (origin_in shape NZ)) as C. unfold pen in C at 1. rewrite (L _ (origin_in shape NZ)), lamN_origin, !dct_origin in C by exact NZ.
  assert (0 < sqrt (INR (size shape))) by (apply sqrt_lt_R0, lt_0_INR; lia).
  replace (1 + s * 0 ^ order) with 1 in C by (destruct O as [-> | ->]; ring). rewrite Rmult_1_l in C. unfold Rdiv in C. apply Rmult_eq_reg_r in C; [exact C|]. apply Rinv_neq_0_compat. lra.
Qed.
