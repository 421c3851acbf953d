(* Rolling metrics: the incremental sums are the sums of the window. *)
From Coq Require Import Reals List Lra Lia Psatz ZArith.
From Verif Require Import RStats RStatsProofs MetricsModel MetricsSpec MetricsProofs MetricsProofs2 RollingModel RollingSpec.

(* ---- incremental sums ---- *)
Definition r_inv (s : rstate) (n Sx Sy Sd Sxx Syy Sxy : R) : Prop :=
  r_n s = n /\ n * r_mx s = Sx /\ n * r_my s = Sy /\ n * r_msd s = Sd /\
  r_M2x s = Sxx - n * r_mx s * r_mx s /\ r_M2y s = Syy - n * r_my s * r_my s /\ r_C s = Sxy - n * r_mx s * r_my s.

Definition sdd (d : pairs) := rsum (map (fun p => (fst p - snd p) ^ 2) d).
Definition holds (s : rstate) (l : pairs) : Prop :=
  r_inv s (rlen l) (rsum (xs l)) (rsum (ys l)) (sdd l) (sxx l) (syy l) (sxy l).

Lemma r_add_inv s n Sx Sy Sd Sxx Syy Sxy p : 0 <= n -> r_inv s n Sx Sy Sd Sxx Syy Sxy ->
  r_inv (r_add s p) (n + 1) (Sx + fst p) (Sy + snd p) (Sd + (fst p - snd p) ^ 2) (Sxx + fst p * fst p) (Syy + snd p * snd p) (Sxy + fst p * snd p).
Proof.
  intros N (E1 & E2 & E3 & E4 & E5 & E6 & E7). destruct s as [sn mx my ms a b c]; cbn in *. subst sn.
  unfold r_inv, r_add; cbn [r_n r_mx r_my r_msd r_M2x r_M2y r_C]. assert (n + 1 <> 0) by lra.
  split; [reflexivity|]. split; [rewrite <- E2; field; lra|]. split; [rewrite <- E3; field; lra|]. split; [rewrite <- E4; field; lra|].
  split; [rewrite E5; field; lra|]. split; [rewrite E6; field; lra|]. rewrite E7; field; lra.
Qed.

Lemma r_sub_inv s n Sx Sy Sd Sxx Syy Sxy p : 1 < n -> r_inv s n Sx Sy Sd Sxx Syy Sxy ->
  r_inv (r_sub s p) (n - 1) (Sx - fst p) (Sy - snd p) (Sd - (fst p - snd p) ^ 2) (Sxx - fst p * fst p) (Syy - snd p * snd p) (Sxy - fst p * snd p).
Proof.
  intros N (E1 & E2 & E3 & E4 & E5 & E6 & E7). destruct s as [sn mx my ms a b c]; cbn in *. subst sn.
  unfold r_inv, r_sub; cbn [r_n r_mx r_my r_msd r_M2x r_M2y r_C]. assert (n - 1 <> 0) by lra.
  split; [reflexivity|]. split; [rewrite <- E2; field; lra|]. split; [rewrite <- E3; field; lra|]. split; [rewrite <- E4; field; lra|].
  split; [rewrite E5; field; lra|]. split; [rewrite E6; field; lra|]. rewrite E7; field; lra.
Qed.

Lemma r_inv_eq s a b c d e f g a' b' c' d' e' f' g' : r_inv s a b c d e f g ->
  a = a' -> b = b' -> c = c' -> d = d' -> e = e' -> f = f' -> g = g' -> r_inv s a' b' c' d' e' f' g'.
Proof. intros H -> -> -> -> -> -> ->. exact H. Qed.

Lemma holds_add s l p : holds s l -> holds (r_add s p) (l ++ [p]).
Proof.
  intros H. unfold holds in *. apply r_add_inv with (p := p) in H; [|apply rlen_nonneg].
  eapply r_inv_eq; [exact H|..]; unfold rlen, xs, ys, sdd, sxx, syy, sxy; rewrite ?map_app, ?rsum_app, ?app_length, ?plus_INR; cbn; ring.
Qed.
Lemma holds_sub s p l : l <> [] -> holds s (p :: l) -> holds (r_sub s p) l.
Proof.
  intros NE H. unfold holds in *. apply r_sub_inv with (p := p) in H; [|rewrite rlen_cons; pose proof (rlen_pos l NE); lra].
  eapply r_inv_eq; [exact H|..]; rewrite ?rlen_cons; unfold xs, ys, sdd, sxx, syy, sxy; cbn [map rsum]; ring.
Qed.
Lemma holds_add_list s l m : holds s l -> holds (fold_left r_add m s) (l ++ m).
Proof.
  revert s l. induction m as [|p m IH]; intros s l H; cbn [fold_left]; [rewrite app_nil_r; exact H|].
  replace (l ++ p :: m) with ((l ++ [p]) ++ m) by (rewrite <- app_assoc; reflexivity). apply IH, holds_add, H.
Qed.
Lemma holds_sub_list s m l : l <> [] -> holds s (m ++ l) -> holds (fold_left r_sub m s) l.
Proof.
  intros NE. revert s. induction m as [|p m IH]; intros s H; cbn [fold_left]; [exact H|].
  apply IH. apply holds_sub; [|exact H]. destruct m; cbn; [exact NE|discriminate].
Qed.

(* ---- slices ---- *)
Definition slice {A} (a b : nat) (l : list A) : list A := firstn (b - a) (skipn a l).

Lemma firstn_plus {A} (n m : nat) (l : list A) : firstn (n + m) l = firstn n l ++ firstn m (skipn n l).
Proof. revert l. induction n as [|n IH]; intros [|x l]; cbn; [reflexivity|reflexivity|rewrite firstn_nil; reflexivity|]. rewrite IH. reflexivity. Qed.
Lemma skipn_plus' {A} (n m : nat) (l : list A) : skipn (n + m) l = skipn m (skipn n l).
Proof. revert l. induction n as [|n IH]; intros [|x l]; cbn; [reflexivity|reflexivity|rewrite skipn_nil; reflexivity|]. apply IH. Qed.

Lemma slice_app {A} a b c (l : list A) : (a <= b)%nat -> (b <= c)%nat -> slice a c l = slice a b l ++ slice b c l.
Proof.
  intros AB BC. unfold slice. replace (c - a)%nat with ((b - a) + (c - b))%nat by lia. rewrite firstn_plus. f_equal.
  rewrite <- skipn_plus'. do 2 f_equal. lia.
Qed.
Lemma slice_nil {A} a (l : list A) : slice a a l = [].
Proof. unfold slice. rewrite Nat.sub_diag. reflexivity. Qed.
Lemma slice_length {A} a b (l : list A) : (b <= List.length l)%nat -> List.length (slice a b l) = (b - a)%nat.
Proof. intros B. unfold slice. rewrite firstn_length, skipn_length. lia. Qed.

Lemma map_nth_slice {A} (x : A) a b l : (a <= b)%nat -> (b <= List.length l)%nat -> map (fun i => nth i l x) (from_to a b) = slice a b l.
Proof.
  intros AB B. unfold from_to, slice. remember (b - a)%nat as n eqn:E. assert (L : (a + n <= List.length l)%nat) by lia. clear E AB B.
  revert a L. induction n as [|n IH]; intros a L; [reflexivity|]. cbn [seq map]. rewrite IH by lia.
  assert (SK : skipn a l = nth a l x :: skipn (S a) l).
  { clear IH. revert l L. induction a as [|a IHa]; intros [|y l] L; cbn in L; try lia; [reflexivity|]. cbn [skipn nth]. rewrite IHa by (cbn; lia). reflexivity. }
  rewrite SK. reflexivity.
Qed.

Lemma slice_filter {A} (f : A -> bool) (x : A) a b l : (a <= b)%nat -> (b <= List.length l)%nat ->
  (forall i, (i < List.length l)%nat -> f (nth i l x) = andb (Nat.leb a i) (Nat.ltb i b)) -> filter f l = slice a b l.
Proof.
  intros AB B H. revert a b AB B H. induction l as [|y l IH]; intros a b AB B H.
  - cbn in B. assert (a = 0%nat) by lia. assert (b = 0%nat) by lia. subst. reflexivity.
  - cbn [filter]. pose proof (H 0%nat ltac:(cbn; lia)) as H0. cbn [nth] in H0. rewrite H0. destruct a as [|a].
    + destruct b as [|b].
      * cbn. rewrite (IH 0%nat 0%nat); [reflexivity|lia|lia|]. intros i I. specialize (H (S i) ltac:(cbn; lia)). cbn [nth] in H. rewrite H. reflexivity.
      * cbn [andb Nat.leb Nat.ltb]. cbn in B. unfold slice. cbn. f_equal. rewrite (IH 0%nat b); [unfold slice; rewrite Nat.sub_0_r; reflexivity|lia|lia|].
        intros i I. specialize (H (S i) ltac:(cbn; lia)). cbn [nth] in H. rewrite H. reflexivity.
    + cbn [Nat.leb andb]. destruct b as [|b]; [lia|]. cbn in B. rewrite (IH a b); [reflexivity|lia|lia|].
      intros i I. specialize (H (S i) ltac:(cbn; lia)). cbn [nth] in H. rewrite H. reflexivity.
Qed.

Lemma slice_map {A B} (f : A -> B) a b l : slice a b (map f l) = map f (slice a b l).
Proof. unfold slice. rewrite <- firstn_map. f_equal. apply skipn_map. Qed.

(* ---- the scan loop ---- *)
Lemma scan_spec stop len : forall a v, (exists j, (a <= j < a + len)%nat /\ stop j = true) ->
  let r := scan stop (seq a len) v in (a <= r < a + len)%nat /\ stop r = true /\ forall j, (a <= j < r)%nat -> stop j = false.
Proof.
  induction len as [|len IH]; intros a v (j & J & SJ); [lia|]. cbn [seq scan]. destruct (stop a) eqn:SA; cbn zeta.
  - split; [lia|]. split; [exact SA|]. lia.
  - destruct (IH (S a) a) as (R1 & R2 & R3).
    + exists j. split; [|exact SJ]. assert (j <> a) by (intros ->; congruence). lia.
    + split; [lia|]. split; [exact R2|]. intros i I. destruct (Nat.eq_dec i a) as [->|]; [exact SA|apply R3; lia].
Qed.

Lemma rltb_true a b : rltb a b = true <-> a < b.
Proof. unfold rltb. destruct (Rlt_dec a b); split; intros; try assumption; try reflexivity; try discriminate; contradiction. Qed.
Lemma rltb_false a b : rltb a b = false <-> b <= a.
Proof. unfold rltb. destruct (Rlt_dec a b); split; intros; try reflexivity; try discriminate; lra. Qed.
Lemma rleb_true a b : rleb a b = true <-> a <= b.
Proof. unfold rleb. destruct (Rle_dec a b); split; intros; try assumption; try reflexivity; try discriminate; contradiction. Qed.
Lemma rleb_false a b : rleb a b = false <-> b < a.
Proof. unfold rleb. destruct (Rle_dec a b); split; intros; try reflexivity; try discriminate; lra. Qed.

(* scaling all moments by n does not change the correlation *)
Lemma pearson_moments_scale betainc vx vy c n k : 0 < k -> 0 <= vx -> 0 <= vy ->
  pearsonr_from_moments betainc (k * vx) (k * vy) (k * c) n = pearsonr_from_moments betainc vx vy c n.
Proof.
  intros K VX VY. unfold pearsonr_from_moments.
  destruct (Req_EM_T (k * vx) 0) as [E|E], (Req_EM_T vx 0) as [E'|E']; try reflexivity; try (exfalso; nra).
  destruct (Req_EM_T (k * vy) 0) as [F|F], (Req_EM_T vy 0) as [F'|F']; try reflexivity; try (exfalso; nra).
  assert (P : 0 < vx * vy) by (assert (0 < vx) by lra; assert (0 < vy) by lra; nra).
  replace (k * vx * (k * vy)) with (k² * (vx * vy)) by (unfold Rsqr; ring).
  rewrite sqrt_mult by (try apply Rle_0_sqr; lra). rewrite sqrt_Rsqr by lra.
  pose proof (sqrt_lt_R0 _ P) as SP. replace (k * c / (k * sqrt (vx * vy))) with (c / sqrt (vx * vy)) by (field; lra). reflexivity.
Qed.

Section Roll.
Variable betainc : R -> R -> R -> R.
Variable ts : list R.
Variable d : pairs.
Variable w : R.
Variable center : bool.
Variable mp : Z.
Hypothesis LEN : List.length ts = List.length d.
Hypothesis CH : chronological ts.
Hypothesis W : 0 < w \/ (center = true /\ 0 <= w).

Notation n := (List.length ts).
Notation t := (t_at ts).

(* sample j is not before / not after the window of sample i *)
Definition starts (i j : nat) : bool := if center then rleb (t i - w) (t j) else rltb (t i - w) (t j).
Definition ends (i j : nat) : bool := if center then rleb (t j) (t i + w) else Nat.leb j i.

Definition lower_ok (i a : nat) : Prop := (a <= i)%nat /\ starts i a = true /\ forall j, (j < a)%nat -> starts i j = false.
Definition hi_ok (i b : nat) : Prop := (i < b)%nat /\ (b <= n)%nat /\ (forall j, (j < b)%nat -> ends i j = true) /\ (forall j, (b <= j < n)%nat -> ends i j = false).

Lemma tmono i j : (i <= j)%nat -> (j < n)%nat -> t i <= t j.
Proof. intros. apply CH; assumption. Qed.

Lemma starts_mono i i' j : (i <= i')%nat -> (i' < n)%nat -> starts i j = false -> starts i' j = false.
Proof.
  intros L I. pose proof (tmono i i' L I). unfold starts. destruct center; [rewrite !rleb_false|rewrite !rltb_false]; lra.
Qed.
Lemma ends_mono i i' j : (i <= i')%nat -> (i' < n)%nat -> ends i j = true -> ends i' j = true.
Proof.
  intros L I. pose proof (tmono i i' L I). unfold ends. destruct center; [rewrite !rleb_true; lra|rewrite !Nat.leb_le; lia].
Qed.
Lemma starts_self i : starts i i = true.
Proof. unfold starts. destruct center; [apply rleb_true|apply rltb_true]; destruct W as [?|[? ?]]; try discriminate; lra. Qed.
Lemma ends_self i : ends i i = true.
Proof. unfold ends. destruct center; [apply rleb_true|apply Nat.leb_le; lia]; destruct W as [?|[? ?]]; lra. Qed.
Lemma starts_up i j j' : (j <= j')%nat -> (j' < n)%nat -> starts i j = true -> starts i j' = true.
Proof. intros L I. pose proof (tmono j j' L I). unfold starts. destruct center; [rewrite !rleb_true|rewrite !rltb_true]; lra. Qed.

Lemma find_lower_ok i a : (i < n)%nat -> (a <= i)%nat -> (forall j, (j < a)%nat -> starts i j = false) ->
  lower_ok i (find_lower ts w center i a) /\ (a <= find_lower ts w center i a)%nat.
Proof.
  intros I A F. assert (E : find_lower ts w center i a = scan (starts i) (from_to a n) a).
  { unfold find_lower, starts, n_ts. destruct center; reflexivity. }
  rewrite E. unfold from_to. destruct (scan_spec (starts i) (n - a) a a) as (R1 & R2 & R3).
  - exists i. split; [lia|apply starts_self].
  - set (r := scan _ _ _) in *. split; [|lia]. split.
    + destruct (Nat.le_gt_cases r i) as [X|X]; [exact X|]. pose proof (R3 i ltac:(lia)) as X'. rewrite starts_self in X'. discriminate.
    + split; [exact R2|]. intros j J. destruct (Nat.lt_ge_cases j a); [apply F; assumption|apply R3; lia].
Qed.

Lemma find_hi_ok i b : (i < n)%nat -> (b = 0%nat /\ i = 0%nat \/ (0 < i)%nat /\ (0 < b <= n)%nat /\ forall j, (j < b)%nat -> ends i j = true) ->
  hi_ok i (find_hi ts w center i b) /\ (b <= find_hi ts w center i b)%nat.
Proof.
  intros I B. unfold find_hi, n_ts. destruct center eqn:EC.
  - assert (W0 : 0 <= w) by (destruct W as [X|[_ X]]; lra).
    destruct (rltb (t i + w) (t (n - 1))) eqn:EL.
    + apply rltb_true in EL. set (stop := fun j => rltb (t i + w) (t j)).
      set (b' := if Nat.eqb i 0 then 2%nat else b).
      assert (NE : i <> (n - 1)%nat) by (intros ->; lra).
      assert (B' : (1 <= b' /\ b' - 1 < n)%nat). { unfold b'. destruct (Nat.eqb_spec i 0); [lia|]. destruct B as [[_ X]|(_ & X & _)]; [contradiction|lia]. }
      assert (BE : forall j, (j < b' - 1)%nat -> stop j = false).
      { intros j J. unfold stop. apply rltb_false. unfold b' in J. destruct (Nat.eqb_spec i 0) as [Z|Z].
        - assert (j = 0)%nat by lia. subst j i. lra.
        - destruct B as [[_ X]|(_ & _ & X)]; [contradiction|]. pose proof (X j ltac:(lia)) as Y. unfold ends in Y. rewrite EC in Y. apply rleb_true in Y. exact Y. }
      unfold from_to. destruct (scan_spec stop (n - (b' - 1)) (b' - 1) b') as (R1 & R2 & R3).
      * exists (n - 1)%nat. split; [lia|]. unfold stop. apply rltb_true, EL.
      * set (r := scan stop _ _) in *. assert (RF : forall j, (j < r)%nat -> stop j = false).
        { intros j J. destruct (Nat.lt_ge_cases j (b' - 1)); [apply BE; assumption|apply R3; lia]. }
        assert (IR : (i < r)%nat).
        { destruct (Nat.lt_ge_cases i r) as [X|X]; [exact X|]. unfold stop in R2. apply rltb_true in R2. pose proof (tmono r i X I). lra. }
        split.
        -- split; [exact IR|]. split; [lia|]. split.
           ++ intros j J. unfold ends. rewrite EC. apply rleb_true. pose proof (RF j J) as X. unfold stop in X. apply rltb_false in X. exact X.
           ++ intros j J. unfold ends. rewrite EC. apply rleb_false. unfold stop in R2. apply rltb_true in R2. pose proof (tmono r j ltac:(lia) ltac:(lia)). lra.
        -- destruct B as [[-> _]|(_ & Bn & Be)]; [lia|]. destruct (Nat.le_gt_cases b r) as [X|X]; [exact X|].
           pose proof (Be r X) as Y. unfold ends in Y. rewrite EC in Y. apply rleb_true in Y. unfold stop in R2. apply rltb_true in R2. lra.
    + apply rltb_false in EL. split; [|destruct B as [[-> _]|(_ & ? & _)]; lia]. split; [lia|]. split; [lia|]. split; [|lia].
      intros j J. unfold ends. rewrite EC. apply rleb_true. pose proof (tmono j (n - 1) ltac:(lia) ltac:(lia)). lra.
  - split.
    + split; [lia|]. split; [lia|]. unfold ends. rewrite EC. split; intros j J; [apply Nat.leb_le|apply Nat.leb_gt]; lia.
    + destruct B as [[-> _]|(_ & Bn & Be)]; [lia|]. destruct (Nat.le_gt_cases b (S i)) as [X|X]; [exact X|].
      pose proof (Be (S i) X) as Y. unfold ends in Y. rewrite EC in Y. apply Nat.leb_le in Y. lia.
Qed.

(* the window of sample i as a list of pairs *)
Definition the_window (i : nat) : pairs := if center then centred_window ts d w (t i) else trailing_window ts d w i.

Lemma window_slice i a b : (i < n)%nat -> lower_ok i a -> hi_ok i b -> the_window i = slice a b d.
Proof.
  intros I (A1 & A2 & A3) (B1 & B2 & B3 & B4). unfold the_window.
  assert (LC : List.length (combine ts d) = n) by (rewrite combine_length, <- LEN; apply Nat.min_id).
  assert (MS : slice a b d = map snd (slice a b (combine ts d))).
  { rewrite <- slice_map. f_equal. clear - LEN. revert d LEN. induction ts as [|x l IH]; intros [|y m] L; cbn in *; try discriminate; [reflexivity|]. f_equal. apply IH. lia. }
  rewrite MS. 
  assert (NF : forall j, (j < n)%nat -> fst (nth j (combine ts d) (0, (0, 0))) = t j).
  { intros j J. rewrite combine_nth by exact LEN. reflexivity. }
  assert (S1 : forall j, (j < n)%nat -> starts i j = Nat.leb a j).
  { intros j J. destruct (Nat.leb_spec a j); [apply (starts_up i a j); assumption|apply A3; assumption]. }
  assert (E1 : forall j, (j < n)%nat -> ends i j = Nat.ltb j b).
  { intros j J. destruct (Nat.ltb_spec j b); [apply B3; assumption|apply B4; lia]. }
  destruct center eqn:EC.
  - unfold centred_window. f_equal. apply (slice_filter _ (0, (0, 0))); [lia|lia|]. intros j J. rewrite LC in J. rewrite NF by exact J.
    rewrite <- S1, <- E1 by exact J. unfold starts, ends. rewrite EC. unfold rleb.
    destruct (Rle_dec (Rabs (t j - t i)) w) as [X|X], (Rle_dec (t i - w) (t j)) as [Y|Y], (Rle_dec (t j) (t i + w)) as [Z|Z]; try reflexivity; exfalso;
      unfold Rabs in X; destruct (Rcase_abs (t j - t i)); lra.
  - assert (EB : b = S i). { pose proof (B4 (S i)) as X. pose proof (B3 (b - 1)%nat ltac:(lia)) as Y. unfold ends in X, Y. rewrite EC in X, Y. apply Nat.leb_le in Y.
      lia. }
    unfold trailing_window. f_equal.
    assert (SF : slice a b (combine ts d) = slice a b (firstn (S i) (combine ts d))).
    { unfold slice. rewrite EB. rewrite skipn_firstn_comm, firstn_firstn. f_equal. lia. }
    rewrite SF. apply (slice_filter _ (0, (0, 0))); [lia|rewrite firstn_length, LC; lia|].
    intros j J. rewrite firstn_length, LC in J. assert (JN : (j < n)%nat) by lia.
    assert (NN : nth j (firstn (S i) (combine ts d)) (0, (0, 0)) = nth j (combine ts d) (0, (0, 0))).
    { rewrite <- (firstn_skipn (S i) (combine ts d)) at 2. rewrite app_nth1; [reflexivity|]. rewrite firstn_length, LC. lia. }
    rewrite NN, NF by exact JN. rewrite <- S1 by exact JN. unfold starts. rewrite EC. fold (t i).
    assert (TB : Nat.ltb j b = true) by (apply Nat.ltb_lt; lia). rewrite TB, Bool.andb_true_r. reflexivity.
Qed.

Definition expected (i : nat) : rout :=
  let win := the_window i in
  if Z.ltb (Z.of_nat (List.length win)) mp then (None, None) else (pearson_of betainc win, rmsd win 0).

Lemma holds_out s win : win <> [] -> holds s win ->
  pearsonr_from_moments betainc (r_M2x s) (r_M2y s) (r_C s) (rlen win) = pearson_of betainc win /\ np_sqrt (r_msd s) = rmsd win 0.
Proof.
  intros NE (E1 & E2 & E3 & E4 & E5 & E6 & E7). pose proof (rlen_pos win NE) as N. split.
  - assert (MX : r_mx s = rmean (xs win)). { unfold rmean. rewrite rlen_xs, <- E2. field. lra. }
    assert (MY : r_my s = rmean (ys win)). { unfold rmean. rewrite rlen_ys, <- E3. field. lra. }
    rewrite E5, E6, E7, MX, MY. rewrite <- cov_sums, <- varx_sums, <- vary_sums by exact NE.
    unfold pearson_of. rewrite welford_correct by exact NE. cbn [obind m_vx m_vy m_cov].
    apply pearson_moments_scale; [exact N|apply var_nonneg|apply var_nonneg].
  - rewrite rmsd_correct by exact NE. assert (EM : r_msd s = mean_square_diff win).
    { apply (Rmult_eq_reg_l (rlen win)); [|lra]. rewrite E4, Rmult_comm, msdiff_RSS, RSS_sum by exact NE. apply rsum_ext. intros; ring. }
    rewrite EM. apply np_sqrt_some, msdiff_nonneg.
Qed.

(* the state before iteration i *)
Definition ready (s : loop) (i : nat) : Prop :=
  match i with
  | 0%nat => l_lower s = 0%nat /\ l_hi s = 0%nat
  | S i' => lower_ok i' (l_lower s) /\ hi_ok i' (l_hi s)
  end /\ holds (l_sums s) (slice (l_lower s) (l_hi s) d).

Lemma step_ok s i : (i < n)%nat -> ready s i ->
  ready (fst (roll_step betainc ts d w center mp s i)) (S i) /\ snd (roll_step betainc ts d w center mp s i) = expected i.
Proof.
  intros I (RB & RH). unfold roll_step. cbn zeta. cbn [fst snd l_lower l_hi l_sums].
  set (a := l_lower s) in *. set (b := l_hi s) in *.
  assert (LA : (a <= i)%nat /\ forall j, (j < a)%nat -> starts i j = false).
  { destruct i as [|i']; [destruct RB as [-> _]; split; [lia|]; lia|]. destruct RB as [(A1 & A2 & A3) _]. split; [lia|].
    intros j J. apply (starts_mono i' (S i')); [lia|lia|apply A3; exact J]. }
  destruct (find_lower_ok i a I (proj1 LA) (proj2 LA)) as [LO LM]. set (a' := find_lower ts w center i a) in *.
  assert (HB : b = 0%nat /\ i = 0%nat \/ (0 < i)%nat /\ (0 < b <= n)%nat /\ forall j, (j < b)%nat -> ends i j = true).
  { destruct i as [|i']; [left; tauto|]. right. destruct RB as [_ (B1 & B2 & B3 & B4)]. split; [lia|]. split; [lia|].
    intros j J. apply (ends_mono i' (S i')); [lia|lia|apply B3; exact J]. }
  destruct (find_hi_ok i b I HB) as [HO HM]. set (b' := find_hi ts w center i b) in *.
  assert (AB : (a <= b)%nat). { destruct i as [|i']; [lia|]. destruct RB as [(A1 & _) (B1 & _)]. lia. }
  pose proof LO as (A1 & _). pose proof HO as (B1 & B2 & _).
  assert (ED : map (d_at d) (from_to b b') = slice b b' d) by (apply map_nth_slice; [exact HM|rewrite <- LEN; exact B2]).
  assert (ES : map (d_at d) (from_to a a') = slice a a' d) by (apply map_nth_slice; [exact LM|rewrite <- LEN; lia]).
  rewrite ED, ES. set (sums := fold_left r_sub _ _).
  assert (SN : slice a' b' d <> []). { intros E. apply (f_equal (@List.length _)) in E. rewrite slice_length in E by (rewrite <- LEN; exact B2). cbn in E. lia. }
  assert (HS : holds sums (slice a' b' d)).
  { unfold sums. apply holds_sub_list; [exact SN|]. rewrite <- slice_app by lia. rewrite (slice_app a b b') by lia. apply holds_add_list, RH. }
  split; [split; [split; assumption|exact HS]|].
  pose proof (window_slice i a' b' I LO HO) as WS. unfold expected. rewrite WS.
  rewrite slice_length by (rewrite <- LEN; exact B2).
  replace (Z.of_nat b' - Z.of_nat a')%Z with (Z.of_nat (b' - a')) by lia.
  destruct (Z.eqb_spec (Z.of_nat (b' - a')) 0) as [Z0|Z0]; [lia|]. cbn [orb].
  destruct (Z.ltb_spec (Z.of_nat (b' - a')) mp); [reflexivity|].
  destruct (holds_out sums (slice a' b' d) SN HS) as [P Q]. unfold rlen in P. rewrite slice_length in P by (rewrite <- LEN; exact B2).
  rewrite <- INR_IZR_INZ, P, Q. reflexivity.
Qed.

Lemma loop_ok k i s : (i + k <= n)%nat -> ready s i -> roll_loop betainc ts d w center mp (seq i k) s = map expected (seq i k).
Proof.
  revert i s. induction k as [|k IH]; intros i s L Rd; [reflexivity|]. cbn [seq roll_loop map].
  destruct (step_ok s i ltac:(lia) Rd) as [R1 R2]. destruct (roll_step betainc ts d w center mp s i) as [s' o]. cbn [fst snd] in *.
  rewrite R2. f_equal. apply IH; [lia|exact R1].
Qed.

Lemma rolling_ok : rolling_pr_rmsd betainc ts d w center mp = map expected (seq 0 n).
Proof.
  unfold rolling_pr_rmsd, n_ts. apply loop_ok; [lia|]. split; [split; reflexivity|].
  unfold holds, loop0, slice; cbn. unfold r_inv, rlen, sdd, sxx, syy, sxy; cbn. repeat split; ring.
Qed.
End Roll.
