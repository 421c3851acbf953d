(* Orthonormal transforms of arrays of any shape; smoothing in the transformed space as penalised least squares. *)
From Coq Require Import Lra Lia.
From Verif Require Import Base RStats RStatsProofs DctModel DctProofs1.
Open Scope R_scope.

Lemma rsum_swap {A B} (f : A -> B -> R) l m :
  rsum (map (fun a => rsum (map (fun b => f a b) m)) l) = rsum (map (fun b => rsum (map (fun a => f a b) l)) m).
Proof.
  induction l as [|a l IH]; cbn [map rsum].
  - rewrite (rsum_const 0 m). ring.
  - rewrite IH, <- rsum_plus. reflexivity.
Qed.
Lemma rsum_flat {A} (f : A -> list R) l : rsum (flat_map f l) = rsum (map (fun a => rsum (f a)) l).
Proof. induction l as [|a l IH]; [reflexivity|]. cbn [flat_map map rsum]. rewrite rsum_app, IH. reflexivity. Qed.
Lemma flat_map_map {A B C} (f : B -> list C) (g : A -> B) l : flat_map f (map g l) = flat_map (fun a => f (g a)) l.
Proof. induction l as [|a l IH]; [reflexivity|]. cbn. rewrite IH. reflexivity. Qed.

Lemma total_cons n rest f : total (n :: rest) f = rsum (map (fun i => total rest (fun is => f (i :: is))) (seq 0 n)).
Proof.
  unfold total. cbn [indices]. induction (seq 0 n) as [|i l IH]; [reflexivity|].
  cbn [flat_map map]. rewrite map_app, rsum_app, IH, map_map. reflexivity.
Qed.
Lemma in_indices n rest k : In k (indices (n :: rest)) <-> exists k0 ks, k = k0 :: ks /\ (k0 < n)%nat /\ In ks (indices rest).
Proof.
  cbn [indices]. rewrite in_flat_map. split.
  - intros (i & I & H). apply in_seq in I. apply in_map_iff in H as (is & <- & H). exists i, is. repeat split; [lia|exact H].
  - intros (k0 & ks & -> & H & I). exists k0. split; [apply in_seq; lia|]. apply in_map, I.
Qed.
Lemma in_indices_nil k : In k (indices []) <-> k = [].
Proof. cbn. intuition congruence. Qed.
Lemma total_ext shape f g : (forall i, In i (indices shape) -> f i = g i) -> total shape f = total shape g.
Proof. apply rsum_ext. Qed.
Lemma total_plus shape f g : total shape (fun i => f i + g i) = total shape f + total shape g.
Proof. apply rsum_plus. Qed.
Lemma total_minus shape f g : total shape (fun i => f i - g i) = total shape f - total shape g.
Proof. apply rsum_minus. Qed.
Lemma total_scal shape c f : total shape (fun i => c * f i) = c * total shape f.
Proof. apply rsum_scal. Qed.
Lemma total_swap s1 s2 (f : index -> index -> R) : total s1 (fun a => total s2 (fun b => f a b)) = total s2 (fun b => total s1 (fun a => f a b)).
Proof. apply rsum_swap. Qed.
Lemma total_nonneg shape f : (forall i, In i (indices shape) -> 0 <= f i) -> 0 <= total shape f.
Proof. apply rsum_nonneg. Qed.
Lemma total_zero shape f : (forall i, In i (indices shape) -> 0 <= f i) -> total shape f = 0 -> forall i, In i (indices shape) -> f i = 0.
Proof. apply rsum_zero. Qed.
Lemma total_le shape f g : (forall i, In i (indices shape) -> f i <= g i) -> total shape f <= total shape g.
Proof. apply rsum_le. Qed.

(* the kernel of several axes *)
Fixpoint kernelN (shape : list nat) (k i : index) : R :=
  match shape, k, i with
  | n :: rest, k0 :: ks, i0 :: is => kernel n k0 i0 * kernelN rest ks is
  | _, _, _ => 1
  end.
Lemma dctNd_kernel shape : forall y k, In k (indices shape) -> dctNd shape y k = total shape (fun i => kernelN shape k i * y i).
Proof.
  induction shape as [|n rest IH]; intros y k H.
  - apply in_indices_nil in H as ->. unfold total. cbn. ring.
  - apply in_indices in H as (k0 & ks & -> & K & KS). cbn [dctNd]. rewrite IH by exact KS. rewrite total_cons.
    transitivity (total rest (fun is => rsum (map (fun i => kernelN (n :: rest) (k0 :: ks) (i :: is) * y (i :: is)) (seq 0 n)))).
    + apply total_ext. intros is _. rewrite <- rsum_scal. apply rsum_ext. intros i _. cbn [kernelN]. ring.
    + unfold total. rewrite rsum_swap. reflexivity.
Qed.
Lemma idctNd_kernel shape : forall c i, In i (indices shape) -> idctNd shape c i = total shape (fun k => kernelN shape k i * c k).
Proof.
  induction shape as [|n rest IH]; intros c i H.
  - apply in_indices_nil in H as ->. unfold total. cbn. ring.
  - apply in_indices in H as (i0 & is & -> & K & KS). cbn [idctNd]. rewrite IH by exact KS. rewrite total_cons.
    transitivity (total rest (fun ks => rsum (map (fun k => kernelN (n :: rest) (k :: ks) (i0 :: is) * c (k :: ks)) (seq 0 n)))).
    + apply total_ext. intros ks _. rewrite <- rsum_scal. apply rsum_ext. intros k _. cbn [kernelN]. ring.
    + unfold total. rewrite rsum_swap. reflexivity.
Qed.

Definition ieqb (k l : index) : bool := if list_eq_dec Nat.eq_dec k l then true else false.
Lemma ieqb_cons k0 l0 ks ls : (if ieqb (k0 :: ks) (l0 :: ls) then 1 else 0) = (if Nat.eqb k0 l0 then 1 else 0) * (if ieqb ks ls then 1 else 0).
Proof.
  unfold ieqb. destruct (list_eq_dec Nat.eq_dec (k0 :: ks) (l0 :: ls)) as [E|E], (Nat.eqb_spec k0 l0), (list_eq_dec Nat.eq_dec ks ls); try ring; exfalso; congruence.
Qed.
Lemma product_total n rest (f : nat -> R) (g : index -> R) :
  total (n :: rest) (fun i => match i with i0 :: is => f i0 * g is | [] => 0 end) = rsum (map f (seq 0 n)) * total rest g.
Proof.
  rewrite total_cons. transitivity (rsum (map (fun i => f i * total rest g) (seq 0 n))).
  - apply rsum_ext. intros i _. rewrite <- total_scal. reflexivity.
  - apply rsum_mul_r.
Qed.
Lemma rowsN shape : forall k l, In k (indices shape) -> In l (indices shape) ->
  total shape (fun i => kernelN shape k i * kernelN shape l i) = if ieqb k l then 1 else 0.
Proof.
  induction shape as [|n rest IH]; intros k l K L.
  - apply in_indices_nil in K as ->. apply in_indices_nil in L as ->. unfold total. cbn. ring.
  - apply in_indices in K as (k0 & ks & -> & K & KS). apply in_indices in L as (l0 & ls & -> & L & LS).
    rewrite ieqb_cons, <- (IH ks ls KS LS), <- (kernel_rows n k0 l0 K L), <- product_total.
    apply total_ext. intros i I. apply in_indices in I as (i0 & is & -> & _). cbn [kernelN]. ring.
Qed.
Lemma colsN shape : forall i j, In i (indices shape) -> In j (indices shape) ->
  total shape (fun k => kernelN shape k i * kernelN shape k j) = if ieqb i j then 1 else 0.
Proof.
  induction shape as [|n rest IH]; intros k l K L.
  - apply in_indices_nil in K as ->. apply in_indices_nil in L as ->. unfold total. cbn. ring.
  - apply in_indices in K as (k0 & ks & -> & K & KS). apply in_indices in L as (l0 & ls & -> & L & LS).
    rewrite ieqb_cons, <- (IH ks ls KS LS), <- (kernel_cols n k0 l0 K L), <- product_total.
    apply total_ext. intros i I. apply in_indices in I as (i0 & is & -> & _). cbn [kernelN]. ring.
Qed.
Lemma NoDup_indices shape : NoDup (indices shape).
Proof.
  induction shape as [|n rest IH]; [repeat constructor; intros []|]. cbn [indices].
  assert (G : forall l, NoDup l -> NoDup (flat_map (fun i : nat => map (cons i) (indices rest)) l)).
  { induction l as [|i l IHl]; intros N; [constructor|]. inversion N as [|? ? NI N2]; subst. cbn [flat_map].
    assert (D : NoDup (map (cons i) (indices rest))) by (apply FinFun.Injective_map_NoDup; [intros a b E; congruence|exact IH]).
    revert D. assert (X : forall a, In a (map (cons i) (indices rest)) -> ~ In a (flat_map (fun i : nat => map (cons i) (indices rest)) l)).
    { intros a A B. apply in_map_iff in A as (is & <- & _). apply in_flat_map in B as (j & J & B). apply in_map_iff in B as (js & E & _). injection E as -> _. contradiction. }
    generalize (map (cons i) (indices rest)) X. clear - IHl N2. intros m. induction m as [|a m IHm]; intros X D; [apply IHl, N2|].
    inversion D; subst. cbn. constructor.
    - rewrite in_app_iff. intros [H|H]; [contradiction|]. exact (X a (or_introl eq_refl) H).
    - apply IHm; [intros b B; apply X; right; exact B|assumption]. }
  apply G, seq_NoDup.
Qed.
Lemma total_pick shape f i : In i (indices shape) -> total shape (fun j => (if ieqb i j then 1 else 0) * f j) = f i.
Proof.
  unfold total. pose proof (NoDup_indices shape) as N. induction (indices shape) as [|j l IH]; intros I; [destruct I|].
  inversion N as [|? ? NI N2]; subst. cbn [map rsum]. unfold ieqb at 1. destruct (list_eq_dec Nat.eq_dec i j) as [<-|NE].
  - assert (Z : rsum (map (fun j => (if ieqb i j then 1 else 0) * f j) l) = 0).
    { transitivity (rsum (map (fun _ : index => 0) l)); [|rewrite rsum_const; ring]. apply rsum_ext. intros j J. unfold ieqb. destruct (list_eq_dec Nat.eq_dec i j) as [<-|]; [contradiction|ring]. }
    rewrite Z. ring.
  - destruct I as [<-|I]; [congruence|]. rewrite (IH N2 I). ring.
Qed.

Lemma dct_ext shape y y' : (forall i, In i (indices shape) -> y i = y' i) -> forall k, In k (indices shape) -> dctNd shape y k = dctNd shape y' k.
Proof. intros E k K. rewrite !dctNd_kernel by exact K. apply total_ext. intros i I. rewrite (E i I). reflexivity. Qed.
Lemma idct_ext shape y y' : (forall i, In i (indices shape) -> y i = y' i) -> forall k, In k (indices shape) -> idctNd shape y k = idctNd shape y' k.
Proof. intros E k K. rewrite !idctNd_kernel by exact K. apply total_ext. intros i I. rewrite (E i I). reflexivity. Qed.
Lemma dct_idct shape c k : In k (indices shape) -> dctNd shape (idctNd shape c) k = c k.
Proof.
  intros K. rewrite dctNd_kernel by exact K.
  transitivity (total shape (fun l => (if ieqb k l then 1 else 0) * c l)); [|apply total_pick, K].
  transitivity (total shape (fun i => total shape (fun l => kernelN shape k i * kernelN shape l i * c l))).
  - apply total_ext. intros i I. rewrite idctNd_kernel by exact I. rewrite <- total_scal. apply total_ext. intros. ring.
  - rewrite total_swap. apply total_ext. intros l L. rewrite <- (rowsN shape k l K L). unfold total. rewrite <- rsum_mul_r. apply rsum_ext. intros. ring.
Qed.
Lemma idct_dct shape y i : In i (indices shape) -> idctNd shape (dctNd shape y) i = y i.
Proof.
  intros K. rewrite idctNd_kernel by exact K.
  transitivity (total shape (fun l => (if ieqb i l then 1 else 0) * y l)); [|apply total_pick, K].
  transitivity (total shape (fun k => total shape (fun l => kernelN shape k i * kernelN shape k l * y l))).
  - apply total_ext. intros k I. rewrite dctNd_kernel by exact I. rewrite <- total_scal. apply total_ext. intros. ring.
  - rewrite total_swap. apply total_ext. intros l L. rewrite <- (colsN shape i l K L). unfold total. rewrite <- rsum_mul_r. apply rsum_ext. intros. ring.
Qed.
(* Parseval *)
Lemma dct_inner shape u v : total shape (fun k => dctNd shape u k * dctNd shape v k) = total shape (fun i => u i * v i).
Proof.
  transitivity (total shape (fun i => u i * idctNd shape (dctNd shape v) i)).
  - transitivity (total shape (fun k => total shape (fun i => kernelN shape k i * u i * dctNd shape v k))).
    + apply total_ext. intros k K. rewrite (dctNd_kernel shape u k K). unfold total at 1. rewrite <- rsum_mul_r. reflexivity.
    + rewrite total_swap. apply total_ext. intros i I. rewrite idctNd_kernel by exact I. rewrite <- total_scal. apply total_ext. intros. ring.
  - apply total_ext. intros i I. rewrite idct_dct by exact I. reflexivity.
Qed.
Lemma dct_linear shape a b u v k : In k (indices shape) -> dctNd shape (fun i => a * u i + b * v i) k = a * dctNd shape u k + b * dctNd shape v k.
Proof.
  intros K. rewrite !dctNd_kernel by exact K. rewrite <- !total_scal, <- total_plus. apply total_ext. intros. ring.
Qed.
Lemma idct_linear shape a b u v k : In k (indices shape) -> idctNd shape (fun i => a * u i + b * v i) k = a * idctNd shape u k + b * idctNd shape v k.
Proof.
  intros K. rewrite !idctNd_kernel by exact K. rewrite <- !total_scal, <- total_plus. apply total_ext. intros. ring.
Qed.

(* ---- penalised least squares in the transformed space *)
Section Penalty.
Variable shape : list nat.
Variable pen : arr R.      (* penalty of a coefficient *)
Hypothesis pen_nonneg : forall k, In k (indices shape) -> 0 <= pen k.
Definition sm (q : arr R) : arr R := idctNd shape (fun k => 1 / (1 + pen k) * dctNd shape q k).
Definition cost (w y zz : arr R) : R := total shape (fun i => w i * (y i - zz i) ^ 2) + total shape (fun k => pen k * dctNd shape zz k ^ 2).

Lemma sm_coeff q k : In k (indices shape) -> (1 + pen k) * dctNd shape (sm q) k = dctNd shape q k.
Proof. intros K. unfold sm. rewrite dct_idct by exact K. pose proof (pen_nonneg k K). field. lra. Qed.

(* expansion of the cost around a point *)
Lemma cost_expand w y zz d :
  cost w y (fun i => zz i + d i) = cost w y zz
    + 2 * (total shape (fun k => pen k * dctNd shape zz k * dctNd shape d k) - total shape (fun i => w i * (y i - zz i) * d i))
    + (total shape (fun i => w i * d i ^ 2) + total shape (fun k => pen k * dctNd shape d k ^ 2)).
Proof.
  unfold cost.
  assert (E1 : total shape (fun i => w i * (y i - (zz i + d i)) ^ 2) =
     total shape (fun i => w i * (y i - zz i) ^ 2) - 2 * total shape (fun i => w i * (y i - zz i) * d i) + total shape (fun i => w i * d i ^ 2)).
  { rewrite <- total_scal, <- total_minus, <- total_plus. apply total_ext. intros. ring. }
  assert (E2 : total shape (fun k => pen k * dctNd shape (fun i => zz i + d i) k ^ 2) =
     total shape (fun k => pen k * dctNd shape zz k ^ 2) + 2 * total shape (fun k => pen k * dctNd shape zz k * dctNd shape d k) + total shape (fun k => pen k * dctNd shape d k ^ 2)).
  { rewrite <- total_scal, <- !total_plus. apply total_ext. intros k K.
    assert (L : dctNd shape (fun i => zz i + d i) k = dctNd shape zz k + dctNd shape d k).
    { rewrite <- (Rmult_1_l (dctNd shape zz k)), <- (Rmult_1_l (dctNd shape d k)), <- dct_linear by exact K. apply dct_ext; [|exact K]. intros. ring. }
    rewrite L. ring. }
  rewrite E1, E2. ring.
Qed.

(* the step of the iteration: q = w * (y - z) + z, z' = rf * sm q + (1 - rf) * z *)
Definition pull (w y zz : arr R) : arr R := fun i => w i * (y i - zz i) + zz i.

Lemma cost_fixed w y zz : (forall i, In i (indices shape) -> sm (pull w y zz) i = zz i) ->
  forall z2, cost w y z2 = cost w y zz + (total shape (fun i => w i * (z2 i - zz i) ^ 2) + total shape (fun k => pen k * dctNd shape (fun i => z2 i - zz i) k ^ 2)).
Proof.
  intros F z2. set (d := fun i => z2 i - zz i).
  assert (C : cost w y z2 = cost w y (fun i => zz i + d i)).
  { unfold cost. f_equal; apply total_ext; intros i I; unfold d; [replace (zz i + (z2 i - zz i)) with (z2 i) by ring; reflexivity|].
    rewrite (dct_ext shape (fun i => zz i + (z2 i - zz i)) z2) by (try exact I; intros; ring). reflexivity. }
  rewrite C, cost_expand.
  assert (G : total shape (fun k => pen k * dctNd shape zz k * dctNd shape d k) = total shape (fun i => w i * (y i - zz i) * d i)).
  { rewrite <- (dct_inner shape (fun i => w i * (y i - zz i)) d). apply total_ext. intros k K. f_equal.
    pose proof (sm_coeff (pull w y zz) k K) as E. rewrite (dct_ext shape (sm (pull w y zz)) zz F k K) in E.
    assert (Q : dctNd shape (pull w y zz) k = dctNd shape (fun i => w i * (y i - zz i)) k + dctNd shape zz k).
    { rewrite <- (Rmult_1_l (dctNd shape zz k)), <- (Rmult_1_l (dctNd shape (fun i => w i * (y i - zz i)) k)), <- dct_linear by exact K. apply dct_ext; [|exact K]. intros. unfold pull. ring. }
    rewrite Q in E. lra. }
  rewrite G. unfold d. ring.
Qed.

Lemma cost_step w y zz rf : let z' := fun i => rf * sm (pull w y zz) i + (1 - rf) * zz i in
  cost w y z' = cost w y zz - (1 - (1 - rf) ^ 2) * total shape (fun k => (1 + pen k) * dctNd shape (fun i => zz i - sm (pull w y zz) i) k ^ 2)
     - total shape (fun i => (1 - w i) * (z' i - zz i) ^ 2).
Proof.
  intros z'. set (s := sm (pull w y zz)) in *. set (e := fun i => s i - zz i).
  assert (C : cost w y z' = cost w y (fun i => zz i + rf * e i)).
  { unfold cost. f_equal; apply total_ext; intros i I; unfold z', e; [f_equal; ring|].
    rewrite (dct_ext shape (fun i => rf * s i + (1 - rf) * zz i) (fun i => zz i + rf * (s i - zz i))) by (try exact I; intros; ring). reflexivity. }
  rewrite C, cost_expand.
  assert (De : forall k, In k (indices shape) -> dctNd shape (fun i => zz i - s i) k = - dctNd shape e k).
  { intros k K. replace (- dctNd shape e k) with (-1 * dctNd shape e k + 0 * dctNd shape e k) by ring. rewrite <- dct_linear by exact K. apply dct_ext; [|exact K]. intros. unfold e. ring. }
  assert (Ds : forall k, In k (indices shape) -> dctNd shape (fun i => rf * e i) k = rf * dctNd shape e k).
  { intros k K. replace (rf * dctNd shape e k) with (rf * dctNd shape e k + 0 * dctNd shape e k) by ring. rewrite <- dct_linear by exact K. apply dct_ext; [|exact K]. intros. ring. }
  (* the gradient: pen * z^ = (1 + pen) * z^ - z^ and (1 + pen) s^ = q^ *)
  assert (G : total shape (fun k => pen k * dctNd shape zz k * dctNd shape e k) - total shape (fun i => w i * (y i - zz i) * e i) =
     - total shape (fun k => (1 + pen k) * dctNd shape e k ^ 2)).
  { rewrite <- (dct_inner shape (fun i => w i * (y i - zz i)) e), <- total_minus.
    replace (- total shape (fun k => (1 + pen k) * dctNd shape e k ^ 2)) with (-1 * total shape (fun k => (1 + pen k) * dctNd shape e k ^ 2)) by ring.
    rewrite <- total_scal. apply total_ext. intros k K. pose proof (sm_coeff (pull w y zz) k K) as E. fold s in E.
    assert (Q : dctNd shape (pull w y zz) k = dctNd shape (fun i => w i * (y i - zz i)) k + dctNd shape zz k).
    { rewrite <- (Rmult_1_l (dctNd shape zz k)), <- (Rmult_1_l (dctNd shape (fun i => w i * (y i - zz i)) k)), <- dct_linear by exact K. apply dct_ext; [|exact K]. intros. unfold pull. ring. }
    assert (Ee : dctNd shape e k = dctNd shape s k - dctNd shape zz k).
    { replace (dctNd shape s k - dctNd shape zz k) with (1 * dctNd shape s k + -1 * dctNd shape zz k) by ring. rewrite <- dct_linear by exact K. apply dct_ext; [|exact K]. intros. unfold e. ring. }
    rewrite Q in E. rewrite Ee. set (wq := dctNd shape (fun i => w i * (y i - zz i)) k) in *. set (zk := dctNd shape zz k) in *. set (sk := dctNd shape s k) in *.
    replace wq with ((1 + pen k) * sk - zk) by lra. ring. }
  assert (G1 : total shape (fun k => pen k * dctNd shape zz k * dctNd shape (fun i => rf * e i) k) = rf * total shape (fun k => pen k * dctNd shape zz k * dctNd shape e k)).
  { rewrite <- total_scal. apply total_ext. intros k K. rewrite (Ds k K). ring. }
  assert (G2 : total shape (fun i => w i * (y i - zz i) * (rf * e i)) = rf * total shape (fun i => w i * (y i - zz i) * e i)).
  { rewrite <- total_scal. apply total_ext. intros. ring. }
  assert (G3 : total shape (fun k => pen k * dctNd shape (fun i => rf * e i) k ^ 2) = rf ^ 2 * (total shape (fun k => (1 + pen k) * dctNd shape e k ^ 2) - total shape (fun i => e i ^ 2))).
  { assert (PE : total shape (fun i => e i ^ 2) = total shape (fun k => dctNd shape e k ^ 2)).
    { transitivity (total shape (fun i => e i * e i)); [apply total_ext; intros; ring|]. rewrite <- (dct_inner shape e e). apply total_ext. intros. ring. }
    rewrite PE, <- total_minus, <- total_scal. apply total_ext. intros k K. rewrite (Ds k K). ring. }
  assert (G4 : total shape (fun i => (1 - w i) * (z' i - zz i) ^ 2) = rf ^ 2 * total shape (fun i => e i ^ 2) - rf ^ 2 * total shape (fun i => w i * e i ^ 2)).
  { rewrite <- !total_scal, <- total_minus. apply total_ext. intros. unfold z', e. ring. }
  assert (G5 : total shape (fun i => w i * (rf * e i) ^ 2) = rf ^ 2 * total shape (fun i => w i * e i ^ 2)).
  { rewrite <- total_scal. apply total_ext. intros. ring. }
  assert (G6 : total shape (fun k => (1 + pen k) * dctNd shape (fun i => zz i - s i) k ^ 2) = total shape (fun k => (1 + pen k) * dctNd shape e k ^ 2)).
  { apply total_ext. intros k K. rewrite (De k K). ring. }
  rewrite G1, G2, G3, G4, G5, G6.
  replace (rf * total shape (fun k => pen k * dctNd shape zz k * dctNd shape e k) - rf * total shape (fun i => w i * (y i - zz i) * e i))
    with (rf * (total shape (fun k => pen k * dctNd shape zz k * dctNd shape e k) - total shape (fun i => w i * (y i - zz i) * e i))) by ring.
  rewrite G. ring.
Qed.

Lemma sm_all_ones y i : In i (indices shape) -> sm (pull (fun _ => 1) y (sm y)) i = sm y i.
Proof.
  intros I. unfold sm. apply idct_ext; [|exact I]. intros k K. f_equal. apply dct_ext; [|exact K]. intros j J. unfold pull. ring.
Qed.
End Penalty.
