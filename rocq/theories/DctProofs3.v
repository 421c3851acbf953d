(* The penalty of the transformed space is the roughness of the array. *)
From Coq Require Import Lra Lia.
From Verif Require Import Base RStats RStatsProofs DctModel DctSpec DctProofs1 DctProofs2.
Open Scope R_scope.

(* summation by parts *)
Lemma by_parts n a b : rsum (map (fun i => a i * second_diff n b i) (seq 0 n)) =
  - rsum (map (fun i => (a (S i) - a i) * (b (S i) - b i)) (seq 0 (n - 1))).
Proof.
  induction n as [|n IH]; [cbn; ring|]. destruct n as [|n].
  - cbn [seq map rsum Nat.sub]. unfold second_diff. cbn [Nat.eqb]. assert (E : Nat.ltb 1 1 = false) by reflexivity. rewrite E. ring.
  - rewrite rsum_seq_S. replace (S (S n) - 1)%nat with (S n) by lia. rewrite (rsum_seq_S (fun i => (a (S i) - a i) * (b (S i) - b i)) n).
    replace (S n - 1)%nat with n in IH by lia.
    assert (E : rsum (map (fun i => a i * second_diff (S (S n)) b i) (seq 0 (S n))) = rsum (map (fun i => a i * second_diff (S n) b i) (seq 0 (S n))) + a n * (b (S n) - b n)).
    { rewrite !rsum_seq_S, (rsum_seq_ext (fun i => a i * second_diff (S (S n)) b i) (fun i => a i * second_diff (S n) b i)).
      - unfold second_diff. rewrite (proj2 (Nat.ltb_lt (S n) (S (S n)))) by lia. rewrite (proj2 (Nat.ltb_ge (S n) (S n))) by lia. ring.
      - intros i Hi. unfold second_diff. rewrite (proj2 (Nat.ltb_lt (S i) (S (S n)))) by lia. rewrite (proj2 (Nat.ltb_lt (S i) (S n))) by lia. reflexivity. }
    rewrite E, IH. unfold second_diff. cbn [Nat.eqb]. rewrite (proj2 (Nat.ltb_ge (S (S n)) (S (S n)))) by lia.
    replace (S n - 1)%nat with n by lia. ring.
Qed.
Lemma second_diff_sym n a b : rsum (map (fun i => a i * second_diff n b i) (seq 0 n)) = rsum (map (fun i => second_diff n a i * b i) (seq 0 n)).
Proof.
  rewrite by_parts. transitivity (rsum (map (fun i => b i * second_diff n a i) (seq 0 n))); [rewrite by_parts|apply rsum_ext; intros; ring].
  f_equal. apply rsum_ext. intros. ring.
Qed.

(* the rows of the kernel are eigenvectors *)
Lemma kernel_eigen n k i : (k < n)%nat -> (i < n)%nat -> second_diff n (kernel n k) i = - lambda1 n k * kernel n k i.
Proof.
  intros K I. assert (Nn : 0 < INR n) by (apply lt_0_INR; lia). unfold lambda1. set (th := PI * INR k / INR n).
  set (f := fun x : R => cos (PI * INR k * (2 * x + 1) / (2 * INR n))). unfold second_diff, kernel.
  fold (amp n k). change (cos (PI * INR k * (2 * INR i + 1) / (2 * INR n))) with (f (INR i)).
  change (cos (PI * INR k * (2 * INR (S i) + 1) / (2 * INR n))) with (f (INR (S i))).
  change (cos (PI * INR k * (2 * INR (i - 1) + 1) / (2 * INR n))) with (f (INR (i - 1))).
  (* three-term recurrence and symmetry at the ends *)
  assert (REC : forall x, f (x - 1) + f (x + 1) = 2 * cos th * f x).
  { intros x. unfold f, th. replace (PI * INR k * (2 * (x - 1) + 1) / (2 * INR n)) with (PI * INR k * (2 * x + 1) / (2 * INR n) - PI * INR k / INR n) by (field; lra).
    replace (PI * INR k * (2 * (x + 1) + 1) / (2 * INR n)) with (PI * INR k * (2 * x + 1) / (2 * INR n) + PI * INR k / INR n) by (field; lra).
    rewrite cos_minus, cos_plus. ring. }
  assert (LEFT : f (-1) = f 0).
  { unfold f. replace (PI * INR k * (2 * -1 + 1) / (2 * INR n)) with (- (PI * INR k * (2 * 0 + 1) / (2 * INR n))) by (field; lra). apply cos_neg. }
  assert (RIGHT : f (INR n) = f (INR n - 1)).
  { unfold f. replace (PI * INR k * (2 * INR n + 1) / (2 * INR n)) with (INR k * PI + PI * INR k / (2 * INR n)) by (field; lra).
    replace (PI * INR k * (2 * (INR n - 1) + 1) / (2 * INR n)) with (INR k * PI - PI * INR k / (2 * INR n)) by (field; lra).
    rewrite cos_plus, cos_minus, sin_nat_PI. ring. }
  assert (A : (if Nat.eqb i 0 then 0 else amp n k * f (INR (i - 1)) - amp n k * f (INR i)) = amp n k * (f (INR i - 1) - f (INR i))).
  { destruct (Nat.eqb_spec i 0) as [->|NZ].
    - cbn [INR]. replace (0 - 1) with (-1) by ring. rewrite LEFT. ring.
    - rewrite minus_INR by lia. cbn [INR]. ring. }
  assert (B : (if Nat.ltb (S i) n then amp n k * f (INR (S i)) - amp n k * f (INR i) else 0) = amp n k * (f (INR i + 1) - f (INR i))).
  { destruct (Nat.ltb_spec (S i) n) as [L|L].
    - rewrite S_INR. ring.
    - assert (n = S i) as -> by lia. rewrite S_INR in RIGHT. replace (INR i + 1 - 1) with (INR i) in RIGHT by ring. rewrite RIGHT. ring. }
  rewrite A, B. pose proof (REC (INR i)). replace (f (INR i - 1)) with (2 * cos th * f (INR i) - f (INR i + 1)) by lra. ring.
Qed.
Lemma kernel_diff n k v : (k < n)%nat -> rsum (map (fun i => kernel n k i * second_diff n v i) (seq 0 n)) = - lambda1 n k * rsum (map (fun i => kernel n k i * v i) (seq 0 n)).
Proof.
  intros K. rewrite second_diff_sym, <- rsum_scal. apply rsum_seq_ext. intros i I. rewrite kernel_eigen by assumption. ring.
Qed.

(* the eigenvalues of an array *)
Fixpoint lamN (shape : list nat) (k : index) : R :=
  match shape, k with
  | n :: rest, k0 :: ks => lambda1 n k0 + lamN rest ks
  | _, _ => 0
  end.
Lemma second_diff_sum {A} n (c : A -> R) (v : A -> nat -> R) l i :
  second_diff n (fun j => rsum (map (fun a => c a * v a j) l)) i = rsum (map (fun a => c a * second_diff n (v a) i) l).
Proof.
  unfold second_diff. induction l as [|a l IH].
  - cbn [map rsum]. destruct (Nat.eqb i 0), (Nat.ltb (S i) n); ring.
  - cbn [map rsum]. rewrite <- IH. destruct (Nat.eqb i 0), (Nat.ltb (S i) n); ring.
Qed.
Lemma laplacian_sum {A} (c : A -> R) l shape : forall (v : A -> arr R) i, laplacian shape (fun j => rsum (map (fun a => c a * v a j) l)) i = rsum (map (fun a => c a * laplacian shape (v a) i) l).
Proof.
  induction shape as [|n rest IH]; intros v i.
  - cbn [laplacian]. transitivity (rsum (map (fun _ : A => 0) l)); [rewrite rsum_const; ring|apply rsum_ext; intros; ring].
  - destruct i as [|i0 is]; cbn [laplacian].
    + transitivity (rsum (map (fun _ : A => 0) l)); [rewrite rsum_const; ring|apply rsum_ext; intros; ring].
    + rewrite (second_diff_sum n c (fun a j => v a (j :: is)) l i0), (IH (fun a js => v a (i0 :: js)) is), <- rsum_plus. apply rsum_ext. intros. ring.
Qed.
Lemma dct_laplacian shape : forall v k, In k (indices shape) -> dctNd shape (laplacian shape v) k = - lamN shape k * dctNd shape v k.
Proof.
  induction shape as [|n rest IH]; intros v k K.
  - apply in_indices_nil in K as ->. cbn. ring.
  - apply in_indices in K as (k0 & ks & -> & K & KS). cbn [dctNd lamN laplacian].
    set (g := fun is => rsum (map (fun i => kernel n k0 i * v (i :: is)) (seq 0 n))).
    rewrite (dct_ext rest _ (fun is => - lambda1 n k0 * g is + 1 * laplacian rest g is)); [|intros is _|exact KS].
    + rewrite dct_linear by exact KS. rewrite (IH g ks KS). ring.
    + unfold g. rewrite <- (kernel_diff n k0 (fun j => v (j :: is)) K).
      rewrite (laplacian_sum (kernel n k0) (seq 0 n) rest (fun i js => v (i :: js)) is), Rmult_1_l, <- rsum_plus. apply rsum_ext. intros. ring.
Qed.
Lemma slopes_inner shape : forall v, total shape (fun i => laplacian shape v i * v i) = - slopes shape v.
Proof.
  induction shape as [|n rest IH]; intros v; [unfold total; cbn; ring|].
  rewrite total_cons. cbn [laplacian slopes].
  transitivity (rsum (map (fun i => total rest (fun is => second_diff n (fun j => v (j :: is)) i * v (i :: is))) (seq 0 n)) +
                rsum (map (fun i => total rest (fun is => laplacian rest (fun js => v (i :: js)) is * v (i :: is))) (seq 0 n))).
  { rewrite <- rsum_plus. apply rsum_ext. intros i _. rewrite <- total_plus. apply total_ext. intros. ring. }
  assert (A : rsum (map (fun i => total rest (fun is => second_diff n (fun j => v (j :: is)) i * v (i :: is))) (seq 0 n)) =
     - rsum (map (fun i => total rest (fun is => (v (S i :: is) - v (i :: is)) ^ 2)) (seq 0 (n - 1)))).
  { unfold total. rewrite rsum_swap. rewrite (rsum_swap (fun i is => (v (S i :: is) - v (i :: is)) ^ 2)).
    replace (- rsum (map (fun b => rsum (map (fun a => (v (S a :: b) - v (a :: b)) ^ 2) (seq 0 (n - 1)))) (indices rest)))
      with (-1 * rsum (map (fun b => rsum (map (fun a => (v (S a :: b) - v (a :: b)) ^ 2) (seq 0 (n - 1)))) (indices rest))) by ring.
    rewrite <- rsum_scal. apply rsum_ext. intros is _.
    transitivity (rsum (map (fun i => v (i :: is) * second_diff n (fun j => v (j :: is)) i) (seq 0 n))); [apply rsum_ext; intros; ring|].
    rewrite (by_parts n (fun j => v (j :: is)) (fun j => v (j :: is))).
    transitivity (-1 * rsum (map (fun i => (v (S i :: is) - v (i :: is)) * (v (S i :: is) - v (i :: is))) (seq 0 (n - 1)))); [ring|].
    f_equal. apply rsum_ext. intros. ring. }
  assert (B : rsum (map (fun i => total rest (fun is => laplacian rest (fun js => v (i :: js)) is * v (i :: is))) (seq 0 n)) = - rsum (map (fun i => slopes rest (fun js => v (i :: js))) (seq 0 n))).
  { transitivity (-1 * rsum (map (fun i => slopes rest (fun js => v (i :: js))) (seq 0 n))); [|ring]. rewrite <- rsum_scal. apply rsum_ext. intros i _. rewrite (IH (fun js => v (i :: js))). ring. }
  rewrite A, B. ring.
Qed.

(* the penalty of the transformed space *)
Lemma penalty_roughness order shape v : order = 1%nat \/ order = 2%nat ->
  total shape (fun k => lamN shape k ^ order * dctNd shape v k ^ 2) = roughness order shape v.
Proof.
  intros [-> | ->]; unfold roughness; cbn [Nat.eqb].
  - pose proof (slopes_inner shape v) as E. rewrite <- (dct_inner shape (laplacian shape v) v) in E.
    replace (slopes shape v) with (-1 * total shape (fun k => dctNd shape (laplacian shape v) k * dctNd shape v k)) by lra.
    rewrite <- total_scal. apply total_ext. intros k K. rewrite dct_laplacian by exact K. ring.
  - transitivity (total shape (fun i => laplacian shape v i * laplacian shape v i)); [|apply total_ext; intros; ring].
    rewrite <- (dct_inner shape (laplacian shape v) (laplacian shape v)). apply total_ext. intros k K. rewrite (dct_laplacian shape v k K). ring.
Qed.
Lemma lambda1_nonneg n k : 0 <= lambda1 n k.
Proof. unfold lambda1. pose proof (COS_bound (PI * INR k / INR n)). lra. Qed.
Lemma lamN_nonneg shape : forall k, 0 <= lamN shape k.
Proof. induction shape as [|n rest IH]; intros [|k0 ks]; cbn [lamN]; try lra. pose proof (lambda1_nonneg n k0). pose proof (IH ks). lra. Qed.

(* all axes: the eigenvalues of the array *)
Lemma lambda_sum_all shape m : forall p acc, (p + m = List.length shape)%nat ->
  exists l, lambda_sum shape (List.length shape) p (seq 0 (List.length shape)) (seq p m) acc = Ok l /\
    forall k, In k (indices shape) -> l k = acc k + rsum (map (fun q => lambda1 (nth q shape 0%nat) (nth q k 0%nat)) (seq p m)).
Proof.
  induction m as [|m IH]; intros p acc H.
  - exists acc. split; [reflexivity|]. intros. cbn. ring.
  - cbn [seq lambda_sum].
    assert (E : exists l, lambda_entry shape (List.length shape) p p (seq 0 (List.length shape)) = Ok l /\ forall k, In k (indices shape) -> l k = lambda1 (nth p shape 0%nat) (nth p k 0%nat)).
    { unfold lambda_entry. destruct (nth_error shape p) as [n|] eqn:NE; [|apply nth_error_None in NE; lia].
      assert (C : (countb (Nat.eqb p) (seq 0 (List.length shape)) <= 1)%nat).
      { unfold countb. clear. pose proof (seq_NoDup (List.length shape) 0) as N. induction (seq 0 (List.length shape)) as [|a l IH]; [cbn; lia|].
        inversion N as [|? ? NI N2]; subst. cbn [filter]. destruct (Nat.eqb_spec p a) as [<-|]; [|apply IH, N2]. cbn [List.length].
        assert (Z : filter (Nat.eqb p) l = []). { destruct (filter (Nat.eqb p) l) eqn:F; [reflexivity|]. exfalso. apply NI. assert (X : In n (filter (Nat.eqb p) l)) by (rewrite F; left; reflexivity). apply filter_In in X as [X1 X2]. apply Nat.eqb_eq in X2. subst. exact X1. }
        rewrite Z. cbn. lia. }
      rewrite (proj2 (Nat.ltb_ge 1 (countb (Nat.eqb p) (seq 0 (List.length shape))))) by exact C. cbn [andb].
      rewrite (proj2 (Nat.ltb_ge (List.length shape) (List.length shape))) by lia. cbv zeta.
      assert (T : (List.length shape - List.length shape + p)%nat = p) by lia. rewrite T.
      assert (NT : nth p shape 0%nat = n) by (apply nth_error_nth; exact NE). rewrite NT.
      destruct (Nat.eqb_spec n 1) as [->|N1].
      - eexists. split; [reflexivity|]. intros k K. cbn beta. f_equal.
        assert (B : (nth p k 0 < 1)%nat).
        { clear - K NE. revert p k K NE. induction shape as [|n rest IH]; intros p k K NE; [destruct p; discriminate|]. apply in_indices in K as (k0 & ks & -> & K & KS).
          destruct p as [|p]; cbn in NE |- *; [injection NE as ->; exact K|]. exact (IH p ks KS NE). }
        lia.
      - rewrite Nat.eqb_refl. eexists. split; [reflexivity|]. intros. reflexivity. }
    destruct E as (l & -> & L). cbn [bindR].
    destruct (IH (S p) (fun k => acc k + l k)) as (l2 & E2 & L2); [lia|]. exists l2. split; [exact E2|]. intros k K. rewrite (L2 k K), (L k K). cbn [map rsum]. ring.
Qed.
Lemma lamN_sum shape : forall k, In k (indices shape) -> rsum (map (fun q => lambda1 (nth q shape 0%nat) (nth q k 0%nat)) (seq 0 (List.length shape))) = lamN shape k.
Proof.
  induction shape as [|n rest IH]; intros k K; [reflexivity|]. apply in_indices in K as (k0 & ks & -> & K & KS). cbn [List.length seq map rsum nth lamN].
  rewrite <- (IH ks KS), <- seq_shift, map_map. reflexivity.
Qed.
Lemma lambda_default shape : exists lam, lambda shape None = Ok lam /\ forall k, In k (indices shape) -> lam k = lamN shape k.
Proof.
  unfold lambda. cbv zeta. rewrite seq_length. destruct (lambda_sum_all shape (List.length shape) 0 (fun _ => 0) eq_refl) as (l & E & L).
  exists l. split; [exact E|]. intros k K. rewrite (L k K), (lamN_sum shape k K). ring.
Qed.
