(* The iteration of smoothn with weights converges to the unique best fit, geometrically. *)
From Coq Require Import Lra Lia.
From Verif Require Import Base RStats RStatsProofs DctModel DctSpec DctProofs1 DctProofs2 DctProofs3 DctProofs4 DctProofs5.
Open Scope R_scope.

Lemma dct_const shape c k : In k (indices shape) -> k <> origin shape -> dctNd shape (fun _ => c) k = 0.
Proof.
  intros K NE. assert (SZ : size shape <> 0%nat) by (unfold size; destruct (indices shape); [destruct K|discriminate]).
  rewrite dctNd_kernel by exact K. pose proof (rowsN shape k (origin shape) K (origin_in shape SZ)) as RW. unfold ieqb in RW. destruct (list_eq_dec Nat.eq_dec k (origin shape)); [contradiction|].
  assert (0 < sqrt (INR (size shape))) by (apply sqrt_lt_R0, lt_0_INR; lia).
  transitivity (c * sqrt (INR (size shape)) * total shape (fun i => kernelN shape k i * kernelN shape (origin shape) i)); [|rewrite RW; ring].
  rewrite <- total_scal. apply total_ext. intros i I. rewrite kernelN_origin by exact I. field. lra.
Qed.
Lemma total_const shape c : total shape (fun _ => c) = INR (size shape) * c.
Proof. unfold total, size. induction (indices shape) as [|i l IH]; [cbn; ring|]. cbn [map rsum]. rewrite IH. change (List.length (i :: l)) with (S (List.length l)). rewrite S_INR. ring. Qed.
Lemma total_ge shape f i : (forall j, In j (indices shape) -> 0 <= f j) -> In i (indices shape) -> f i <= total shape f.
Proof.
  unfold total. induction (indices shape) as [|a l IH]; [intros _ []|]. intros P I. cbn [map rsum].
  assert (0 <= rsum (map f l)). { clear IH I. induction l as [|b l IHl]; [cbn; lra|]. cbn [map rsum]. pose proof (P b (or_intror (or_introl eq_refl))). assert (0 <= rsum (map f l)); [|lra]. apply IHl. intros j [<-|J]; apply P; [left|right; right]; auto. }
  destruct I as [<-|I]; [lra|]. pose proof (P a (or_introl eq_refl)). assert (f i <= rsum (map f l)); [|lra]. apply IH; [|exact I]. intros j J. apply P. right. exact J.
Qed.
Lemma finite_bounds (f : index -> R) l : (exists b, forall k, In k l -> f k <= b) /\ ((forall k, In k l -> 0 < f k) -> exists a, 0 < a /\ forall k, In k l -> a <= f k).
Proof.
  induction l as [|k l [(b & B) IH]].
  - split; [exists 0; intros ? []|intros _; exists 1; split; [lra|intros ? []]].
  - split.
    + exists (Rmax (f k) b). intros j [<-|J]; [apply Rmax_l|]. pose proof (B j J). pose proof (Rmax_r (f k) b). lra.
    + intros P. destruct IH as (a & A & LA); [intros j J; apply P; right; exact J|]. exists (Rmin (f k) a). split; [apply Rmin_glb_lt; [apply P; left; reflexivity|exact A]|].
      intros j [<-|J]; [apply Rmin_l|]. pose proof (LA j J). pose proof (Rmin_r (f k) a). lra.
Qed.
Lemma lambda1_pos n k : (0 < k < n)%nat -> 0 < lambda1 n k.
Proof.
  intros K. unfold lambda1. assert (0 < INR n) by (apply lt_0_INR; lia). assert (0 < INR k) by (apply lt_0_INR; lia). assert (INR k < INR n) by (apply lt_INR; lia). pose proof PI_RGT_0.
  assert (A : 0 < PI * INR k / INR n) by (apply Rmult_lt_0_compat; [apply Rmult_lt_0_compat; assumption|apply Rinv_0_lt_compat; assumption]).
  assert (B : PI * INR k / INR n <= PI).
  { apply (Rmult_le_reg_r (INR n)); [assumption|]. unfold Rdiv. rewrite Rmult_assoc, Rinv_l by lra. rewrite Rmult_1_r. apply Rmult_le_compat_l; lra. }
  pose proof (cos_decreasing_1 0 (PI * INR k / INR n) ltac:(lra) ltac:(lra) ltac:(lra) B A) as C. rewrite cos_0 in C. lra.
Qed.
Lemma lamN_pos shape : forall k, In k (indices shape) -> k <> origin shape -> 0 < lamN shape k.
Proof.
  induction shape as [|n rest IH]; intros k K NE.
  - apply in_indices_nil in K as ->. exfalso. apply NE. reflexivity.
  - apply in_indices in K as (k0 & ks & -> & K0 & KS). cbn [lamN]. pose proof (lambda1_nonneg n k0). pose proof (lamN_nonneg rest ks). destruct k0 as [|k0].
    + assert (0 < lamN rest ks); [|lra]. apply IH; [exact KS|]. intros ->. apply NE. reflexivity.
    + pose proof (lambda1_pos n (S k0) ltac:(lia)). lra.
Qed.

(* geometric sequences *)
Lemma geo_small C rho : 0 <= C -> 0 <= rho < 1 -> forall eps, 0 < eps -> exists N, forall n, (n >= N)%nat -> C * rho ^ n < eps.
Proof.
  intros CP RP eps E. destruct (pow_lt_1_zero rho ltac:(rewrite Rabs_right; lra) (eps / (C + 1)) ltac:(apply Rmult_lt_0_compat; [exact E|apply Rinv_0_lt_compat; lra])) as (N & H).
  exists N. intros n HN. specialize (H n HN). rewrite Rabs_right in H by (apply Rle_ge, pow_le; lra). pose proof (pow_le rho n ltac:(lra)).
  assert ((C + 1) * rho ^ n < eps). { apply (Rmult_lt_reg_r (/ (C + 1))); [apply Rinv_0_lt_compat; lra|]. rewrite Rmult_comm, <- Rmult_assoc, Rinv_l by lra. unfold Rdiv in H. lra. }
  lra.
Qed.
Lemma geo_zero C rho x : 0 <= C -> 0 <= rho < 1 -> (forall n, Rabs x <= C * rho ^ n) -> x = 0.
Proof.
  intros CP RP H. destruct (Req_dec x 0) as [E|E]; [exact E|]. exfalso. pose proof (Rabs_pos_lt x E) as P. destruct (geo_small C rho CP RP _ P) as (N & HN). specialize (HN N ltac:(lia)). specialize (H N). lra.
Qed.
Lemma geo_cauchy C rho (u : nat -> R) : 0 <= C -> 0 <= rho < 1 -> (forall n, Rabs (u (S n) - u n) <= C * rho ^ n) -> {l | forall n, Rabs (l - u n) <= C / (1 - rho) * rho ^ n}.
Proof.
  intros CP RP H.
  assert (P : forall n p, Rabs (u (n + p)%nat - u n) <= C / (1 - rho) * rho ^ n * (1 - rho ^ p)).
  { intros n. induction p as [|p IH]; [rewrite Nat.add_0_r; replace (u n - u n) with 0 by ring; rewrite Rabs_R0; cbn; lra|].
    rewrite Nat.add_succ_r. replace (u (S (n + p)) - u n) with ((u (S (n + p)) - u (n + p)%nat) + (u (n + p)%nat - u n)) by ring. pose proof (Rabs_triang (u (S (n + p)) - u (n + p)%nat) (u (n + p)%nat - u n)). pose proof (H (n + p)%nat) as HP.
    rewrite pow_add in HP. replace (C / (1 - rho) * rho ^ n * (1 - rho ^ S p)) with (C / (1 - rho) * rho ^ n * (1 - rho ^ p) + C * (rho ^ n * rho ^ p)) by (cbn [pow]; field; lra). lra. }
  assert (CD : 0 <= C / (1 - rho)) by (apply Rmult_le_pos; [exact CP|left; apply Rinv_0_lt_compat; lra]).
  assert (P2 : forall n p, Rabs (u (n + p)%nat - u n) <= C / (1 - rho) * rho ^ n).
  { intros n p. pose proof (P n p) as A. pose proof (pow_le rho n ltac:(lra)). pose proof (pow_le rho p ltac:(lra)). assert (0 <= C / (1 - rho) * rho ^ n) by (apply Rmult_le_pos; assumption).
    assert (C / (1 - rho) * rho ^ n * (1 - rho ^ p) <= C / (1 - rho) * rho ^ n * 1) by (apply Rmult_le_compat_l; lra). lra. }
  assert (CC : Cauchy_crit u).
  { intros eps E. destruct (geo_small (C / (1 - rho)) rho CD RP (eps / 2) ltac:(lra)) as (N & HN). exists N. intros n m Hn Hm. unfold R_dist. specialize (HN N ltac:(lia)).
    pose proof (P2 N (n - N)%nat) as A. pose proof (P2 N (m - N)%nat) as B. replace (N + (n - N))%nat with n in A by lia. replace (N + (m - N))%nat with m in B by lia.
    replace (u n - u m) with ((u n - u N) - (u m - u N)) by ring. pose proof (Rabs_triang (u n - u N) (- (u m - u N))) as T. rewrite Rabs_Ropp in T. unfold Rminus at 1. lra. }
  destruct (R_complete u CC) as (l & HL). exists l. intros n.
  destruct (Rle_dec (Rabs (l - u n)) (C / (1 - rho) * rho ^ n)) as [Q|Q]; [exact Q|]. exfalso. set (d := Rabs (l - u n) - C / (1 - rho) * rho ^ n) in *.
  destruct (HL d ltac:(unfold d; lra)) as (N & HN). specialize (HN (n + N)%nat ltac:(lia)). unfold R_dist in HN. pose proof (P2 n N) as A.
  replace (l - u n) with ((u (n + N)%nat - u n) - (u (n + N)%nat - l)) in Q by ring. pose proof (Rabs_triang (u (n + N)%nat - u n) (- (u (n + N)%nat - l))) as T. rewrite Rabs_Ropp in T.
  replace (u (n + N)%nat - u n - (u (n + N)%nat - l)) with (u (n + N)%nat - u n + - (u (n + N)%nat - l)) in Q by ring.
  assert (Rabs (l - u n) <= Rabs (u (n + N)%nat - u n) + Rabs (u (n + N)%nat - l)). { replace (l - u n) with (u (n + N)%nat - u n + - (u (n + N)%nat - l)) by ring. exact T. }
  unfold d in HN. lra.
Qed.

Section Conv.
Variables (shape : list nat) (pn w : arr R) (pmin pmax w0 rf : R) (i0 : index).
Hypothesis SZ : size shape <> 0%nat.
Hypothesis pn_origin : pn (origin shape) = 0.
Hypothesis pmin_pos : 0 < pmin.
Hypothesis pmax_pos : 0 <= pmax.
Hypothesis pn_low : forall k, In k (indices shape) -> k <> origin shape -> pmin <= pn k.
Hypothesis pn_high : forall k, In k (indices shape) -> pn k <= pmax.
Hypothesis w_range : forall i, In i (indices shape) -> 0 <= w i <= 1.
Hypothesis i0_in : In i0 (indices shape).
Hypothesis w0_pos : 0 < w0.
Hypothesis w0_le : w0 <= w i0.
Hypothesis rf_ok : 0 < 1 - (1 - rf) ^ 2.

Lemma pn_nonneg k : In k (indices shape) -> 0 <= pn k.
Proof. intros K. destruct (list_eq_dec Nat.eq_dec k (origin shape)) as [->|NE]; [rewrite pn_origin; lra|]. pose proof (pn_low k K NE). lra. Qed.
Definition energy (e : arr R) : R := cost shape pn w (fun _ => 0) e.
Definition len2 (e : arr R) : R := total shape (fun i => e i ^ 2).
Lemma energy_parts e : energy e = total shape (fun i => w i * e i ^ 2) + total shape (fun k => pn k * dctNd shape e k ^ 2).
Proof. unfold energy, cost. f_equal. apply total_ext. intros i I. ring. Qed.
Lemma parseval e : total shape (fun k => dctNd shape e k ^ 2) = len2 e.
Proof.
  unfold len2. transitivity (total shape (fun k => dctNd shape e k * dctNd shape e k)); [apply total_ext; intros; ring|]. rewrite (dct_inner shape e e). apply total_ext. intros; ring.
Qed.
Lemma parts_nonneg e : 0 <= total shape (fun i => w i * e i ^ 2) /\ 0 <= total shape (fun k => pn k * dctNd shape e k ^ 2).
Proof.
  split; apply total_nonneg; intros i I; (apply Rmult_le_pos; [|apply pow2_ge_0]); [apply w_range, I|apply pn_nonneg, I].
Qed.
Lemma energy_nonneg e : 0 <= energy e. Proof. rewrite energy_parts. pose proof (parts_nonneg e). lra. Qed.
Lemma len2_nonneg e : 0 <= len2 e. Proof. apply total_nonneg. intros. apply pow2_ge_0. Qed.

Definition KK : R := 4 * INR (size shape) * (/ w0 + / pmin) + 2 / pmin.
Lemma N_pos : 0 < INR (size shape). Proof. apply lt_0_INR. lia. Qed.
Lemma KK_pos : 0 < KK.
Proof.
  unfold KK. pose proof N_pos. pose proof (Rinv_0_lt_compat _ w0_pos). pose proof (Rinv_0_lt_compat _ pmin_pos). unfold Rdiv.
  assert (0 < 4 * INR (size shape) * (/ w0 + / pmin)) by (apply Rmult_lt_0_compat; lra). lra.
Qed.
Lemma coercive e : len2 e <= KK * energy e.
Proof.
  set (a := total shape e / INR (size shape)). set (f := fun i => e i - a). pose proof N_pos as NP.
  assert (F0 : dctNd shape f (origin shape) = 0).
  { rewrite dct_origin by exact SZ. unfold f. rewrite (total_minus shape e (fun _ => a)), total_const. unfold a. replace (total shape e - INR (size shape) * (total shape e / INR (size shape))) with 0 by (field; lra). unfold Rdiv. ring. }
  assert (FK : forall k, In k (indices shape) -> k <> origin shape -> dctNd shape f k = dctNd shape e k).
  { intros k K NE. transitivity (dctNd shape (fun i => 1 * e i + (-1) * (fun _ => a) i) k); [apply dct_ext; [intros; unfold f; ring|exact K]|]. rewrite dct_linear by exact K. rewrite (dct_const shape a k K NE). ring. }
  destruct (parts_nonneg e) as [P1 P2]. pose proof (energy_parts e) as EQ.
  assert (FL : pmin * len2 f <= energy e).
  { rewrite <- parseval, <- total_scal. assert (total shape (fun k => pmin * dctNd shape f k ^ 2) <= total shape (fun k => pn k * dctNd shape e k ^ 2)); [|lra].
    apply total_le. intros k K. destruct (list_eq_dec Nat.eq_dec k (origin shape)) as [->|NE].
    - rewrite F0, pn_origin. lra.
    - rewrite (FK k K NE). apply Rmult_le_compat_r; [apply pow2_ge_0|apply pn_low; assumption]. }
  assert (FI : f i0 ^ 2 <= len2 f) by (apply (total_ge shape (fun i => f i ^ 2)); [intros; apply pow2_ge_0|exact i0_in]).
  assert (EI : w0 * e i0 ^ 2 <= energy e).
  { assert (w i0 * e i0 ^ 2 <= total shape (fun i => w i * e i ^ 2)) by (apply (total_ge shape (fun i => w i * e i ^ 2)); [intros j J; apply Rmult_le_pos; [apply w_range, J|apply pow2_ge_0]|exact i0_in]).
    assert (w0 * e i0 ^ 2 <= w i0 * e i0 ^ 2) by (apply Rmult_le_compat_r; [apply pow2_ge_0|exact w0_le]). lra. }
  assert (LE : len2 e <= 2 * INR (size shape) * a ^ 2 + 2 * len2 f).
  { unfold len2. rewrite <- total_scal. replace (2 * INR (size shape) * a ^ 2) with (INR (size shape) * (2 * a ^ 2)) by ring. rewrite <- total_const, <- total_plus. apply total_le. intros i _. unfold f.
    pose proof (pow2_ge_0 (2 * a - e i)). replace ((2 * a - e i) ^ 2) with (4 * a ^ 2 - 4 * (a * e i) + e i ^ 2) in H by ring. replace ((e i - a) ^ 2) with (e i ^ 2 - 2 * (a * e i) + a ^ 2) by ring. lra. }
  assert (A2 : a ^ 2 <= 2 * e i0 ^ 2 + 2 * f i0 ^ 2).
  { unfold f. pose proof (pow2_ge_0 (2 * e i0 - a)). replace ((2 * e i0 - a) ^ 2) with (4 * e i0 ^ 2 - 4 * (a * e i0) + a ^ 2) in H by ring. replace ((e i0 - a) ^ 2) with (e i0 ^ 2 - 2 * (a * e i0) + a ^ 2) by ring. lra. }
  pose proof (Rinv_0_lt_compat _ w0_pos) as IW. pose proof (Rinv_0_lt_compat _ pmin_pos) as IP.
  assert (X1 : e i0 ^ 2 <= / w0 * energy e). { apply (Rmult_le_reg_l w0); [exact w0_pos|]. rewrite <- Rmult_assoc, Rinv_r by lra. lra. }
  assert (X2 : len2 f <= / pmin * energy e). { apply (Rmult_le_reg_l pmin); [exact pmin_pos|]. rewrite <- Rmult_assoc, Rinv_r by lra. lra. }
  assert (X3 : a ^ 2 <= 2 * (/ w0 + / pmin) * energy e) by lra.
  unfold KK. assert (2 * INR (size shape) * a ^ 2 <= 2 * INR (size shape) * (2 * (/ w0 + / pmin) * energy e)) by (apply Rmult_le_compat_l; lra). unfold Rdiv. lra.
Qed.
Lemma energy_high e : energy e <= (1 + pmax) * len2 e.
Proof.
  rewrite energy_parts. assert (total shape (fun i => w i * e i ^ 2) <= len2 e).
  { apply total_le. intros i I. pose proof (pow2_ge_0 (e i)). pose proof (w_range i I). assert (w i * e i ^ 2 <= 1 * e i ^ 2) by (apply Rmult_le_compat_r; lra). lra. }
  assert (total shape (fun k => pn k * dctNd shape e k ^ 2) <= pmax * len2 e).
  { rewrite <- parseval, <- total_scal. apply total_le. intros k K. apply Rmult_le_compat_r; [apply pow2_ge_0|apply pn_high, K]. }
  lra.
Qed.

(* one relaxed step *)
Definition relax (y g : arr R) : arr R := fun i => rf * sm shape pn (pull w y g) i + (1 - rf) * g i.
Definition kappa : R := (1 - (1 - rf) ^ 2) / (KK * (1 + pmax)).
Lemma kappa_pos : 0 < kappa.
Proof. unfold kappa. pose proof KK_pos. apply Rmult_lt_0_compat; [exact rf_ok|]. apply Rinv_0_lt_compat, Rmult_lt_0_compat; lra. Qed.
Lemma contraction e : energy (relax (fun _ => 0) e) <= (1 - kappa) * energy e.
Proof.
  unfold energy at 1. pose proof (cost_step shape pn pn_nonneg w (fun _ => 0) e rf) as C. cbv zeta in C. fold (relax (fun _ => 0) e) in C. rewrite C. fold (energy e).
  set (r := fun i => e i - sm shape pn (pull w (fun _ => 0) e) i).
  change (fun k => (1 + pn k) * dctNd shape (fun i => e i - sm shape pn (pull w (fun _ => 0) e) i) k ^ 2) with (fun k => (1 + pn k) * dctNd shape r k ^ 2).
  set (G := total shape (fun k => (1 + pn k) * dctNd shape r k ^ 2)).
  set (we := fun i => w i * e i).
  assert (RK : forall k, In k (indices shape) -> (1 + pn k) * dctNd shape r k = pn k * dctNd shape e k + dctNd shape we k).
  { intros k K. assert (dctNd shape r k = dctNd shape e k - dctNd shape (sm shape pn (pull w (fun _ => 0) e)) k) as ->.
    { transitivity (dctNd shape (fun i => 1 * e i + (-1) * sm shape pn (pull w (fun _ => 0) e) i) k); [apply dct_ext; [intros; unfold r; ring|exact K]|]. rewrite dct_linear by exact K. ring. }
    rewrite Rmult_minus_distr_l, (sm_coeff shape pn pn_nonneg _ k K).
    assert (dctNd shape (pull w (fun _ => 0) e) k = dctNd shape e k - dctNd shape we k) as ->.
    { transitivity (dctNd shape (fun i => 1 * e i + (-1) * we i) k); [apply dct_ext; [intros; unfold pull, we; ring|exact K]|]. rewrite dct_linear by exact K. ring. }
    ring. }
  set (gk := fun k => (1 + pn k) * dctNd shape r k).
  assert (EG : energy e = total shape (fun k => dctNd shape e k * gk k)).
  { rewrite energy_parts. rewrite (total_ext shape (fun k => dctNd shape e k * gk k) (fun k => pn k * dctNd shape e k ^ 2 + dctNd shape we k * dctNd shape e k)) by (intros k K; unfold gk; rewrite (RK k K); ring).
    rewrite total_plus, (dct_inner shape we e). rewrite Rplus_comm. f_equal. apply total_ext. intros i _. unfold we. ring. }
  pose proof KK_pos as KP.
  assert (GL : total shape (fun k => gk k ^ 2) <= (1 + pmax) * G).
  { unfold G. rewrite <- total_scal. apply total_le. intros k K. unfold gk. replace (((1 + pn k) * dctNd shape r k) ^ 2) with ((1 + pn k) * ((1 + pn k) * dctNd shape r k ^ 2)) by ring.
    apply Rmult_le_compat_r; [apply Rmult_le_pos; [pose proof (pn_nonneg k K); lra|apply pow2_ge_0]|]. pose proof (pn_high k K). lra. }
  assert (QL : energy e <= KK * total shape (fun k => gk k ^ 2)).
  { assert (H : energy e <= / (2 * KK) * len2 e + KK / 2 * total shape (fun k => gk k ^ 2)).
    { rewrite EG, <- parseval, <- !total_scal, <- total_plus. apply total_le. intros k K. set (x := dctNd shape e k). set (g := gk k).
      pose proof (pow2_ge_0 (x - KK * g)) as S1. replace ((x - KK * g) ^ 2) with (x ^ 2 - 2 * KK * (x * g) + KK ^ 2 * g ^ 2) in S1 by ring.
      apply (Rmult_le_reg_l (2 * KK)); [lra|]. replace (2 * KK * (/ (2 * KK) * x ^ 2 + KK / 2 * g ^ 2)) with (x ^ 2 + KK ^ 2 * g ^ 2) by (field; lra). lra. }
    pose proof (coercive e) as CO. assert (/ (2 * KK) * len2 e <= / 2 * energy e).
    { apply (Rmult_le_reg_l (2 * KK)); [lra|]. rewrite <- Rmult_assoc, Rinv_r by lra. lra. }
    lra. }
  assert (W2 : 0 <= total shape (fun i => (1 - w i) * (relax (fun _ => 0) e i - e i) ^ 2)) by (apply total_nonneg; intros i I; apply Rmult_le_pos; [pose proof (w_range i I); lra|apply pow2_ge_0]).
  set (W3 := total shape (fun i => (1 - w i) * (relax (fun _ => 0) e i - e i) ^ 2)) in *.
  assert (QG : energy e <= KK * (1 + pmax) * G). { assert (KK * total shape (fun k => gk k ^ 2) <= KK * ((1 + pmax) * G)) by (apply Rmult_le_compat_l; lra). lra. }
  assert (F : kappa * energy e <= (1 - (1 - rf) ^ 2) * G).
  { unfold kappa. assert (0 < KK * (1 + pmax)) by (apply Rmult_lt_0_compat; lra). apply (Rmult_le_reg_l (KK * (1 + pmax))); [assumption|].
    replace (KK * (1 + pmax) * ((1 - (1 - rf) ^ 2) / (KK * (1 + pmax)) * energy e)) with ((1 - (1 - rf) ^ 2) * energy e) by (field; lra).
    replace (KK * (1 + pmax) * ((1 - (1 - rf) ^ 2) * G)) with ((1 - (1 - rf) ^ 2) * (KK * (1 + pmax) * G)) by ring. apply Rmult_le_compat_l; lra. }
  lra.
Qed.

Lemma relax_ext y g g' : (forall i, In i (indices shape) -> g i = g' i) -> forall i, In i (indices shape) -> relax y g i = relax y g' i.
Proof.
  intros H i I. unfold relax. rewrite (H i I). f_equal. f_equal. apply sm_ext; [reflexivity| |exact I]. intros j J. unfold pull. rewrite (H j J). reflexivity.
Qed.
Lemma sm_linear a b u v i : In i (indices shape) -> sm shape pn (fun j => a * u j + b * v j) i = a * sm shape pn u i + b * sm shape pn v i.
Proof.
  intros I. unfold sm. transitivity (idctNd shape (fun k => a * (1 / (1 + pn k) * dctNd shape u k) + b * (1 / (1 + pn k) * dctNd shape v k)) i); [|apply (idct_linear shape a b (fun k => 1 / (1 + pn k) * dctNd shape u k) (fun k => 1 / (1 + pn k) * dctNd shape v k)), I].
  apply idct_ext; [|exact I]. intros k K. rewrite dct_linear by exact K. ring.
Qed.
Lemma relax_diff y g g' i : In i (indices shape) -> relax y g i - relax y g' i = relax (fun _ => 0) (fun j => g j - g' j) i.
Proof.
  intros I. unfold relax.
  assert (sm shape pn (pull w (fun _ => 0) (fun j => g j - g' j)) i = sm shape pn (pull w y g) i - sm shape pn (pull w y g') i) as ->; [|ring].
  transitivity (sm shape pn (fun j => 1 * pull w y g j + (-1) * pull w y g' j) i); [apply sm_ext; [reflexivity|intros; unfold pull; ring|exact I]|]. rewrite sm_linear by exact I. ring.
Qed.
Lemma energy_ext u v : (forall i, In i (indices shape) -> u i = v i) -> energy u = energy v.
Proof.
  intros H. rewrite !energy_parts. f_equal; apply total_ext; intros i I; [rewrite (H i I)|rewrite (dct_ext shape u v H i I)]; reflexivity.
Qed.
Definition theta : R := Rmax 0 (1 - kappa).
Lemma theta_range : 0 <= theta < 1.
Proof. unfold theta. split; [apply Rmax_l|]. apply Rmax_lub_lt; pose proof kappa_pos; lra. Qed.
Lemma contraction_theta y g g' : energy (fun i => relax y g i - relax y g' i) <= theta * energy (fun i => g i - g' i).
Proof.
  rewrite (energy_ext _ (relax (fun _ => 0) (fun j => g j - g' j))) by (intros i I; apply relax_diff, I).
  pose proof (contraction (fun j => g j - g' j)). pose proof (energy_nonneg (fun j => g j - g' j)). pose proof (Rmax_r 0 (1 - kappa)). fold theta in H1.
  assert ((1 - kappa) * energy (fun j => g j - g' j) <= theta * energy (fun j => g j - g' j)) by (apply Rmult_le_compat_r; assumption). lra.
Qed.
Definition follows (y : arr R) (gs : nat -> arr R) : Prop := forall n i, In i (indices shape) -> gs (S n) i = relax y (gs n) i.
Lemma energy_decay y gs gs' : follows y gs -> follows y gs' -> forall n, energy (fun i => gs n i - gs' n i) <= theta ^ n * energy (fun i => gs 0%nat i - gs' 0%nat i).
Proof.
  intros F F'. pose proof theta_range. induction n as [|n IH]; [cbn; lra|].
  rewrite (energy_ext _ (fun i => relax y (gs n) i - relax y (gs' n) i)) by (intros i I; rewrite (F n i I), (F' n i I); reflexivity).
  pose proof (contraction_theta y (gs n) (gs' n)). cbn [pow]. assert (theta * energy (fun i => gs n i - gs' n i) <= theta * (theta ^ n * energy (fun i => gs 0%nat i - gs' 0%nat i))) by (apply Rmult_le_compat_l; lra). lra.
Qed.
Lemma point_energy e i B : In i (indices shape) -> energy e <= B -> Rabs (e i) <= sqrt (KK * B).
Proof.
  intros I E. pose proof (coercive e) as C. pose proof KK_pos. assert (e i ^ 2 <= KK * B).
  { assert (e i ^ 2 <= len2 e) by (apply (total_ge shape (fun i => e i ^ 2)); [intros; apply pow2_ge_0|exact I]). assert (KK * energy e <= KK * B) by (apply Rmult_le_compat_l; lra). lra. }
  rewrite <- sqrt_Rsqr_abs. apply sqrt_le_1_alt. rewrite Rsqr_pow2. assumption.
Qed.
Definition rho : R := sqrt theta.
Lemma rho_range : 0 <= rho < 1.
Proof. unfold rho. pose proof theta_range. split; [apply sqrt_pos|]. rewrite <- sqrt_1. apply sqrt_lt_1_alt. lra. Qed.
Lemma rho_pow n : sqrt (theta ^ n) = rho ^ n.
Proof.
  pose proof theta_range. induction n as [|n IH]; [apply sqrt_1|]. cbn [pow]. rewrite sqrt_mult by (try apply pow_le; lra). rewrite IH. reflexivity.
Qed.
Lemma point_decay y gs gs' : follows y gs -> follows y gs' -> forall n i, In i (indices shape) ->
  Rabs (gs n i - gs' n i) <= sqrt (KK * energy (fun i => gs 0%nat i - gs' 0%nat i)) * rho ^ n.
Proof.
  intros F F' n i I. pose proof theta_range. pose proof KK_pos. pose proof (energy_nonneg (fun i => gs 0%nat i - gs' 0%nat i)).
  pose proof (point_energy (fun i => gs n i - gs' n i) i _ I (energy_decay y gs gs' F F' n)) as P. cbv beta in P.
  replace (KK * (theta ^ n * energy (fun i => gs 0%nat i - gs' 0%nat i))) with ((KK * energy (fun i => gs 0%nat i - gs' 0%nat i)) * theta ^ n) in P by ring.
  rewrite sqrt_mult in P by ((apply Rmult_le_pos; lra) || (apply pow_le; lra)). rewrite rho_pow in P. exact P.
Qed.

Fixpoint iter_relax (y g : arr R) (n : nat) : arr R := match n with O => g | S m => relax y (iter_relax y g m) end.
Lemma in_indices_dec (i : index) : {In i (indices shape)} + {~ In i (indices shape)}.
Proof. apply in_dec, (list_eq_dec Nat.eq_dec). Qed.
(* there is a fixed point *)
Lemma fixed_point_exists y : exists zz, forall i, In i (indices shape) -> relax y zz i = zz i.
Proof.
  set (gs := iter_relax y (fun _ => 0)). set (gs' := fun n => gs (S n)).
  assert (F : follows y gs) by (intros n i _; reflexivity). assert (F' : follows y gs') by (intros n i _; reflexivity).
  set (C := sqrt (KK * energy (fun i => gs' 0%nat i - gs 0%nat i))). assert (CP : 0 <= C) by apply sqrt_pos. pose proof rho_range as RP. pose proof theta_range as TR.
  assert (D : forall i, In i (indices shape) -> forall n, Rabs (gs (S n) i - gs n i) <= C * rho ^ n) by (intros i I n; apply (point_decay y gs' gs F' F n i I)).
  set (zz := fun i => match in_indices_dec i with left J => proj1_sig (geo_cauchy C rho (fun n => gs n i) CP RP (D i J)) | right _ => 0 end).
  set (C2 := C / (1 - rho)). assert (C2P : 0 <= C2) by (apply Rmult_le_pos; [exact CP|left; apply Rinv_0_lt_compat; lra]).
  assert (ZB : forall n i, In i (indices shape) -> Rabs (zz i - gs n i) <= C2 * rho ^ n).
  { intros n i I. unfold zz. destruct (in_indices_dec i) as [J|J]; [|contradiction]. destruct (geo_cauchy C rho (fun n => gs n i) CP RP (D i J)) as (l & HL). cbn [proj1_sig]. apply HL. }
  exists zz. intros i I. pose proof N_pos as NP. pose proof KK_pos as KP.
  set (M := KK * ((1 + pmax) * (INR (size shape) * C2 ^ 2))). assert (MP : 0 <= M). { unfold M. apply Rmult_le_pos; [lra|]. apply Rmult_le_pos; [lra|]. apply Rmult_le_pos; [lra|apply pow2_ge_0]. }
  assert (Z : relax y zz i - zz i = 0); [|lra].
  apply (geo_zero (sqrt M + C2) rho); [pose proof (sqrt_pos M); lra|exact RP|]. intros n.
  assert (E : energy (fun i => relax y zz i - relax y (gs n) i) <= (1 + pmax) * (INR (size shape) * (C2 * rho ^ n) ^ 2)).
  { pose proof (contraction_theta y zz (gs n)) as CT. pose proof (energy_high (fun i => zz i - gs n i)) as EH. pose proof (energy_nonneg (fun i => zz i - gs n i)) as EN.
    assert (LB : len2 (fun i => zz i - gs n i) <= INR (size shape) * (C2 * rho ^ n) ^ 2).
    { rewrite <- total_const. apply total_le. intros j J. pose proof (ZB n j J) as B. pose proof (Rabs_pos (zz j - gs n j)). rewrite <- (pow2_abs (zz j - gs n j)). apply pow_incr. lra. }
    assert (theta * energy (fun i => zz i - gs n i) <= 1 * energy (fun i => zz i - gs n i)) by (apply Rmult_le_compat_r; lra).
    assert ((1 + pmax) * len2 (fun i => zz i - gs n i) <= (1 + pmax) * (INR (size shape) * (C2 * rho ^ n) ^ 2)) by (apply Rmult_le_compat_l; lra). lra. }
  pose proof (point_energy _ i _ I E) as P. cbv beta in P.
  replace (KK * ((1 + pmax) * (INR (size shape) * (C2 * rho ^ n) ^ 2))) with (M * (rho ^ n) ^ 2) in P by (unfold M; ring).
  assert (RN : 0 <= rho ^ n) by (apply pow_le; lra).
  rewrite sqrt_mult in P by (assumption || apply pow2_ge_0). rewrite sqrt_pow2 in P by exact RN.
  pose proof (ZB (S n) i I) as B. change (gs (S n) i) with (relax y (gs n) i) in B.
  assert (C2 * rho ^ S n <= C2 * rho ^ n). { apply Rmult_le_compat_l; [exact C2P|]. cbn [pow]. assert (rho * rho ^ n <= 1 * rho ^ n) by (apply Rmult_le_compat_r; lra). lra. }
  replace (relax y zz i - zz i) with ((relax y zz i - relax y (gs n) i) + - (zz i - relax y (gs n) i)) by ring.
  pose proof (Rabs_triang (relax y zz i - relax y (gs n) i) (- (zz i - relax y (gs n) i))) as T. rewrite Rabs_Ropp in T. lra.
Qed.
(* every sequence of steps approaches a fixed point *)
Lemma approach y zz gs : (forall i, In i (indices shape) -> relax y zz i = zz i) -> follows y gs ->
  forall n i, In i (indices shape) -> Rabs (gs n i - zz i) <= sqrt (KK * energy (fun i => gs 0%nat i - zz i)) * rho ^ n.
Proof.
  intros FX F n i I. apply (point_decay y gs (fun _ => zz)); [exact F| |exact I]. intros m j J. symmetry. apply FX, J.
Qed.
(* a fixed point is the only best fit *)
Lemma fixed_energy y zz : (forall i, In i (indices shape) -> relax y zz i = zz i) -> rf <> 0 -> forall z2, cost shape pn w y z2 = cost shape pn w y zz + energy (fun i => z2 i - zz i).
Proof.
  intros FX RF z2. rewrite energy_parts. apply (cost_fixed shape pn pn_nonneg w y zz). intros i I. pose proof (FX i I) as E. unfold relax in E.
  apply (Rmult_eq_reg_l rf); [lra|exact RF].
Qed.
Lemma energy_zero e : energy e = 0 -> forall i, In i (indices shape) -> e i = 0.
Proof.
  intros E i I. pose proof (point_energy e i 0 I ltac:(lra)) as P. rewrite Rmult_0_r, sqrt_0 in P. pose proof (Rabs_pos (e i)). destruct (Req_dec (e i) 0) as [Z|Z]; [exact Z|]. pose proof (Rabs_pos_lt _ Z). lra.
Qed.
(* a minimal array is a fixed point *)
Lemma minimal_fixed y zz : (forall z2, cost shape pn w y zz <= cost shape pn w y z2) -> forall i, In i (indices shape) -> relax y zz i = zz i.
Proof.
  intros M. pose proof (cost_step shape pn pn_nonneg w y zz rf) as C. cbv zeta in C. pose proof (M (relax y zz)) as Mr. unfold relax in Mr at 1. rewrite C in Mr.
  set (r := fun i => zz i - sm shape pn (pull w y zz) i) in *.
  assert (P1 : forall k, In k (indices shape) -> 0 <= (1 + pn k) * dctNd shape r k ^ 2) by (intros k K; apply Rmult_le_pos; [pose proof (pn_nonneg k K); lra|apply pow2_ge_0]).
  assert (P2 : 0 <= total shape (fun i => (1 - w i) * ((fun i => rf * sm shape pn (pull w y zz) i + (1 - rf) * zz i) i - zz i) ^ 2)) by (apply total_nonneg; intros i I; apply Rmult_le_pos; [pose proof (w_range i I); lra|apply pow2_ge_0]).
  cbv beta in P2. pose proof (total_nonneg shape _ P1) as P3.
  assert (T0 : total shape (fun k => (1 + pn k) * dctNd shape r k ^ 2) = 0).
  { change (fun k => (1 + pn k) * dctNd shape r k ^ 2) with (fun k => (1 + pn k) * dctNd shape (fun i => zz i - sm shape pn (pull w y zz) i) k ^ 2) in *.
    set (T := total shape (fun k => (1 + pn k) * dctNd shape (fun i => zz i - sm shape pn (pull w y zz) i) k ^ 2)) in *. destruct (Rle_lt_or_eq_dec 0 T P3) as [L|L]; [|congruence]. exfalso. pose proof (Rmult_lt_0_compat _ _ rf_ok L). lra. }
  assert (RZ : forall i, In i (indices shape) -> r i = 0).
  { intros i I. apply (dct_injective shape r (fun _ => 0)); [|exact I]. intros k K. pose proof (total_zero shape _ P1 T0 k K) as E. cbv beta in E.
    apply Rmult_integral in E as [E|E]; [pose proof (pn_nonneg k K); lra|]. apply (fun e => Rsqr_0_uniq _ (eq_trans (Rsqr_pow2 _) e)) in E. rewrite E.
    transitivity (dctNd shape (fun i => 0 * zz i + 0 * zz i) k); [rewrite dct_linear by exact K; ring|apply dct_ext; [intros; ring|exact K]]. }
  intros i I. pose proof (RZ i I) as E. unfold r in E. unfold relax. replace (sm shape pn (pull w y zz) i) with (zz i) by lra. ring.
Qed.
End Conv.
