(* Extended collocation: exact recovery, the three dataset case, and the classical quadratic estimators. *)
From Coq Require Import Reals List Lra Lia Psatz ClassicalEpsilon.
From Verif Require Import Base.
From Verif Require Import RStats RStatsProofs MetricsModel MetricsSpec MetricsProofs TcolModel TcolSpec TcolProofs.
Open Scope R_scope.

Lemma biased_false combs co : check_if_biased combs co = false <-> forall a b, In (a, b) combs -> uncorrelated co a b.
Proof.
  unfold check_if_biased, uncorrelated. split.
  - intros H a b I. assert (N : forall corr, In corr co -> orb (pair_eqb (a, b) corr) (pair_eqb (a, b) (snd corr, fst corr)) = false).
    { intros corr IC. destruct (orb _ _) eqn:E; [|reflexivity]. exfalso.
      assert (T : existsb (fun corr => existsb (fun comb => orb (pair_eqb comb corr) (pair_eqb comb (snd corr, fst corr))) combs) co = true).
      { apply existsb_exists. exists corr. split; [exact IC|]. apply existsb_exists. exists (a, b). split; assumption. }
      rewrite T in H. discriminate. }
    split; intros I'; specialize (N _ I'); unfold pair_eqb in N; cbn [fst snd] in N; rewrite !Nat.eqb_refl in N; cbn in N; try discriminate; rewrite Bool.orb_true_r in N; discriminate.
  - intros H. destruct (existsb _ co) eqn:E; [|reflexivity]. exfalso. apply existsb_exists in E as ([c d] & IC & E). apply existsb_exists in E as ([a b] & I & E).
    destruct (H a b I) as [H1 H2]. apply Bool.orb_true_iff in E as [E|E]; apply andb_prop in E as [E1 E2]; apply Nat.eqb_eq in E1, E2; cbn in E1, E2; subst; [exact (H1 IC)|exact (H2 IC)].
Qed.

Lemma comb2_in l x y : In (x, y) (comb2 l) -> In x l /\ In y l.
Proof.
  induction l as [|a l IH]; [contradiction|]. cbn. intros I. apply in_app_or in I as [I|I].
  - apply in_map_iff in I as (z & E & I). injection E as -> ->. split; [left; reflexivity|right; exact I].
  - destruct (IH I). split; right; assumption.
Qed.
Lemma comb2_ne l x y : NoDup l -> In (x, y) (comb2 l) -> x <> y.
Proof.
  induction l as [|a l IH]; [contradiction|]. intros ND I. apply NoDup_cons_iff in ND as [N1 N2]. cbn in I. apply in_app_or in I as [I|I]; [|exact (IH N2 I)].
  apply in_map_iff in I as (z & E & I). injection E as -> ->. intros ->. contradiction.
Qed.
Lemma comb2_all l x y : In x l -> In y l -> x <> y -> In (x, y) (comb2 l) \/ In (y, x) (comb2 l).
Proof.
  induction l as [|a l IH]; [contradiction|]. intros Ix Iy NE. cbn. destruct Ix as [->|Ix], Iy as [E|Iy].
  - contradiction.
  - left. apply in_or_app. left. apply in_map. exact Iy.
  - subst a. right. apply in_or_app. left. apply in_map. exact Ix.
  - destruct (IH Ix Iy NE) as [I|I]; [left|right]; apply in_or_app; right; exact I.
Qed.
Lemma perm2_in l x y : In (x, y) (perm2 l) <-> In x l /\ In y l /\ x <> y.
Proof.
  unfold perm2. split.
  - intros I. apply in_flat_map in I as (a & Ia & I). apply in_map_iff in I as (b & E & I). injection E as -> ->. apply filter_In in I as [Ib N].
    apply Bool.negb_true_iff, Nat.eqb_neq in N. tauto.
  - intros (Ix & Iy & N). apply in_flat_map. exists x. split; [exact Ix|]. apply in_map, filter_In. split; [exact Iy|]. apply Bool.negb_true_iff, Nat.eqb_neq, N.
Qed.

Definition others1 (n c : nat) := filter (fun k => negb (Nat.eqb k c)) (seq 0 n).
Lemma others1_in n c k : In k (others1 n c) <-> (k < n)%nat /\ k <> c.
Proof.
  unfold others1. split.
  - intros I. apply filter_In in I as [I N]. apply in_seq in I. apply Bool.negb_true_iff, Nat.eqb_neq in N. lia.
  - intros [L N]. apply filter_In. split; [apply in_seq; lia|apply Bool.negb_true_iff, Nat.eqb_neq, N].
Qed.
Lemma others1_nodup n c : NoDup (others1 n c).
Proof. apply NoDup_filter, seq_NoDup. Qed.
Definition others2 (n : nat) (p : nat * nat) := filter (fun k => andb (negb (Nat.eqb k (fst p))) (negb (Nat.eqb k (snd p)))) (seq 0 n).
Lemma others2_in n p k : In k (others2 n p) <-> (k < n)%nat /\ k <> fst p /\ k <> snd p.
Proof.
  unfold others2. split.
  - intros I. apply filter_In in I as [I N]. apply in_seq in I. apply andb_prop in N as [N1 N2]. apply Bool.negb_true_iff, Nat.eqb_neq in N1, N2. lia.
  - intros (L & N1 & N2). apply filter_In. split; [apply in_seq; lia|]. apply Nat.eqb_neq in N1, N2. rewrite N1, N2. reflexivity.
Qed.

Lemma uncorrelated_sym co a b : uncorrelated co a b -> uncorrelated co b a.
Proof. unfold uncorrelated. tauto. Qed.

Lemma signal_obs_in n C co c o : In o (signal_obs n C co c) -> exists a b, (a < n)%nat /\ (b < n)%nat /\ a <> c /\ b <> c /\ a <> b /\
   uncorrelated co c a /\ uncorrelated co c b /\ uncorrelated co a b /\ o = (c, C c a * C c b / C a b).
Proof.
  unfold signal_obs. fold (others1 n c). intros I. apply in_map_iff in I as ([a b] & <- & I). apply filter_In in I as [I N].
  pose proof (comb2_ne _ _ _ (others1_nodup n c) I). apply comb2_in in I as [Ia Ib]. apply others1_in in Ia, Ib.
  apply Bool.negb_true_iff in N. cbn [fst snd] in N. rewrite biased_false in N. exists a, b. cbn [fst snd].
  repeat (split; [first [lia|apply N; cbn; tauto]|]). reflexivity.
Qed.
Lemma cross_obs_in n C co i p o : In o (cross_obs n C co i p) -> exists a b, (a < n)%nat /\ (b < n)%nat /\ a <> fst p /\ a <> snd p /\ b <> fst p /\ b <> snd p /\ a <> b /\
   uncorrelated co (fst p) a /\ uncorrelated co (snd p) b /\ uncorrelated co a b /\ o = ((n + i)%nat, C (fst p) a * C (snd p) b / C a b).
Proof.
  unfold cross_obs. fold (others2 n p). intros I. apply in_map_iff in I as ([a b] & <- & I). apply filter_In in I as [I N].
  apply perm2_in in I as (Ia & Ib & NE). apply others2_in in Ia, Ib.
  apply Bool.negb_true_iff in N. cbn [fst snd] in N. rewrite biased_false in N. exists a, b. cbn [fst snd].
  repeat (split; [first [lia|apply N; cbn; tauto]|]). reflexivity.
Qed.

Lemma identifiable_estimable n co : identifiable n co -> estimable n co.
Proof.
  intros [I1 I2]. split.
  - intros C c Hc. destruct (I1 c Hc) as (a & b & La & Lb & Na & Nb & NE & Ua & Ub & U). unfold signal_obs. fold (others1 n c). apply map_ne. intros E0.
    assert (Ia : In a (others1 n c)) by (apply others1_in; tauto). assert (Ib : In b (others1 n c)) by (apply others1_in; tauto).
    assert (K : forall x y, In (x, y) (comb2 (others1 n c)) -> uncorrelated co c x -> uncorrelated co c y -> uncorrelated co x y -> False).
    { intros x y I Ux Uy Uxy. assert (F : In (x, y) (filter (fun ab => negb (check_if_biased [(c, fst ab); (c, snd ab); ab] co)) (comb2 (others1 n c)))).
      { apply filter_In. split; [exact I|]. apply Bool.negb_true_iff. apply biased_false. cbn. intros u v [E|[E|[E|[]]]]; injection E as <- <-; assumption. }
      rewrite E0 in F. contradiction. }
    destruct (comb2_all _ a b Ia Ib NE) as [I|I]; [exact (K _ _ I Ua Ub U)|exact (K _ _ I Ub Ua (uncorrelated_sym _ _ _ U))].
  - intros C i Hi. set (p := nth i co (0, 0)%nat). assert (IP : In p co) by (apply nth_In, Hi). destruct (I2 p IP) as (_ & _ & _ & a & b & La & Lb & N1 & N2 & N3 & N4 & NE & Ua & Ub & U).
    unfold cross_obs. fold (others2 n p). apply map_ne. intros E0.
    assert (F : In (a, b) (filter (fun ab => negb (check_if_biased [(fst p, fst ab); (snd p, snd ab); ab] co)) (perm2 (others2 n p)))).
    { apply filter_In. split; [apply perm2_in; rewrite !others2_in; tauto|]. apply Bool.negb_true_iff. apply biased_false. cbn. intros u v [E|[E|[E|[]]]]; injection E as <- <-; assumption. }
    rewrite E0 in F. contradiction.
Qed.

Lemma rmean_all_eq l v : l <> [] -> (forall x, In x l -> x = v) -> rmean l = v.
Proof.
  intros N H. assert (E : l = map (fun _ => v) l). { clear N. induction l as [|a l IH]; [reflexivity|]. cbn. rewrite <- IH by (intros; apply H; right; assumption). f_equal. apply H. left; reflexivity. }
  unfold rmean. rewrite E, rsum_const, rlen_map. field. apply rlen_ne, N.
Qed.

Section Recover.
Variables (n : nat) (C : matrix) (s : R) (b e : nat -> R) (eps : nat -> nat -> R) (co : list (nat * nat)).
Hypothesis EM : correlated_error_model n C s b e eps co.
Hypothesis S0 : s <> 0.
Hypothesis B0 : forall i, (i < n)%nat -> b i <> 0.
Hypothesis ID : identifiable n co.

Lemma C_unc i j : (i < n)%nat -> (j < n)%nat -> i <> j -> uncorrelated co i j -> C i j = b i * b j * s.
Proof. intros Hi Hj NE [U1 U2]. destruct EM as (_ & E2 & E3). rewrite E2 by assumption. rewrite E3 by assumption. ring. Qed.

Lemma sig_est_exact c : (c < n)%nat -> sig_est n C co c = b c * b c * s.
Proof.
  intros Hc. unfold sig_est. apply rmean_all_eq; [apply map_ne, (identifiable_estimable n co ID), Hc|].
  intros v I. apply in_map_iff in I as (o & <- & I). apply signal_obs_in in I as (x & y & Lx & Ly & Nx & Ny & NE & Ux & Uy & U & ->). cbn [snd].
  rewrite !C_unc by (assumption || lia). field. repeat split; try assumption; apply B0; assumption.
Qed.
Lemma cross_est_exact i : (i < List.length co)%nat -> cross_est n C co i = b (fst (nth i co (0, 0)%nat)) * b (snd (nth i co (0, 0)%nat)) * s.
Proof.
  intros Hi. unfold cross_est. set (p := nth i co (0, 0)%nat). assert (IP : In p co) by (apply nth_In, Hi). destruct (proj2 ID p IP) as (L1 & L2 & _).
  apply rmean_all_eq; [apply map_ne, (identifiable_estimable n co ID), Hi|].
  intros v I. apply in_map_iff in I as (o & <- & I). apply cross_obs_in in I as (x & y & Lx & Ly & N1 & N2 & N3 & N4 & NE & Ux & Uy & U & ->). cbn [snd].
  rewrite !C_unc by (assumption || lia). field. repeat split; try assumption; apply B0; assumption.
Qed.
End Recover.

Lemma nth_error_list {A} (l : list A) d : l = map (fun i => nth i l d) (seq 0 (List.length l)).
Proof. induction l as [|x l IH]; [reflexivity|]. cbn [List.length seq map nth]. f_equal. rewrite <- seq_shift, map_map. exact IH. Qed.

Lemma ecol_recovers_lemma lstsq n C0 ec s b e eps co ae : least_squares lstsq ->
  correlated_error_model n (subtract C0 ec) s b e eps co -> 0 < s -> (forall i, (i < n)%nat -> b i <> 0 /\ 0 < e i) -> identifiable n co ->
  exists r, ecol_from_cov lstsq n C0 co ec ae = Ok r /\
    e_sig r = map (fun i => b i * b i * s) (seq 0 n) /\
    e_err r = map e (seq 0 n) /\
    e_cov r = map (fun p => eps (fst p) (snd p)) co /\
    e_snr r = map (fun i => Some (dB (b i * b i * s / e i))) (seq 0 n).
Proof.
  intros LS EM S0 BE ID. assert (SN : s <> 0) by lra. assert (B0 : forall i, (i < n)%nat -> b i <> 0) by (intros i Hi; apply BE, Hi).
  destruct (ecol_value lstsq LS n C0 co ec ae (identifiable_estimable n co ID)) as (r & ER & ES & EE & EC & EN). set (C := subtract C0 ec) in *.
  pose proof (sig_est_exact n C s b e eps co EM SN B0 ID) as SE.
  assert (V : forall i, (i < n)%nat -> abs_if ae (sig_est n C co i) = b i * b i * s /\ abs_if ae (C i i - sig_est n C co i) = e i).
  { intros i Hi. rewrite SE by exact Hi. destruct EM as (E1 & _). rewrite E1 by exact Hi. destruct (BE i Hi) as [Bi Ei].
    assert (0 < b i * b i) by nra. assert (0 < b i * b i * s) by nra. replace (b i * b i * s + e i - b i * b i * s) with (e i) by ring.
    unfold abs_if. destruct ae; [|split; reflexivity]. rewrite !Rabs_pos_eq by lra. split; reflexivity. }
  exists r. split; [exact ER|]. split; [|split; [|split]].
  - rewrite ES. apply map_ext_in. intros i Hi. apply in_seq in Hi. apply V. lia.
  - rewrite EE. apply map_ext_in. intros i Hi. apply in_seq in Hi. apply V. lia.
  - rewrite EC. transitivity (map (fun i => (fun p => eps (fst p) (snd p)) (nth i co (0, 0)%nat)) (seq 0 (List.length co))).
    + apply map_ext_in. intros i Hi. apply in_seq in Hi. rewrite (cross_est_exact n C s b e eps co EM SN B0 ID) by lia.
      assert (IP : In (nth i co (0, 0)%nat) co) by (apply nth_In; lia). destruct (proj2 ID _ IP) as (L1 & L2 & NE & _). destruct EM as (_ & E2 & _). rewrite E2 by assumption. ring.
    + refine (eq_trans _ (f_equal (map (fun p => eps (fst p) (snd p))) (eq_sym (nth_error_list co (0, 0)%nat)))). rewrite map_map. reflexivity.
  - rewrite EN. apply map_ext_in. intros i Hi. apply in_seq in Hi. destruct (V i ltac:(lia)) as [-> ->]. destruct (BE i ltac:(lia)) as [Bi Ei].
    assert (0 < b i * b i) by nra. assert (0 < b i * b i * s) by nra. rewrite fdiv_some by lra. cbn [obind]. unfold np_log10.
    destruct (Rlt_dec 0 (b i * b i * s / e i)) as [L|N]; [reflexivity|]. exfalso. apply N. apply Rmult_lt_0_compat; [lra|apply Rinv_0_lt_compat; lra].
Qed.

Lemma identifiable_nil n : (3 <= n)%nat -> identifiable n [].
Proof.
  intros N. assert (U : forall a b, uncorrelated [] a b) by (intros a b; split; intros []). split; [|intros p []].
  intros c Hc. destruct c as [|[|c]]; [exists 1%nat, 2%nat|exists 0%nat, 2%nat|exists 0%nat, 1%nat]; repeat (split; [lia|]); auto.
Qed.

Lemma filter_unbiased {A} (f : A -> bool) l : (forall x, In x l -> f x = true) -> filter f l = l.
Proof. induction l as [|x l IH]; intros H; [reflexivity|]. cbn. rewrite (H x (or_introl eq_refl)), IH by (intros; apply H; right; assumption). reflexivity. Qed.

Lemma sig_est_nil n C c : sig_est n C [] c = rmean (map (fun ab => C c (fst ab) * C c (snd ab) / C (fst ab) (snd ab)) (comb2 (others1 n c))).
Proof. unfold sig_est, signal_obs. rewrite filter_unbiased by reflexivity. rewrite map_map. reflexivity. Qed.

Lemma least_squares_exists : exists lstsq, least_squares lstsq.
Proof.
  exists (fun A y nx => match excluded_middle_informative (exists x, normal_equations A y nx x) with
                        | left H => Some (proj1_sig (constructive_indefinite_description _ H)) | right _ => None end).
  split.
  - intros A y nx x. destruct (excluded_middle_informative _) as [H|]; [|discriminate]. intros E. injection E as <-. exact (proj2_sig (constructive_indefinite_description _ H)).
  - intros A y nx _ H. destruct (excluded_middle_informative _) as [H'|N]; [eexists; reflexivity|contradiction].
Qed.

(* ---- tcol_error: errors that are orthogonal to each other ---- *)
Lemma tc_product_orth rows (t : (nat -> R) -> R) (a : nat -> (nat -> R) -> R) i j k : rows <> [] ->
  (forall r m, In r rows -> In m [i; j; k] -> r m = t r + a m r) ->
  rsum (map (fun r => a i r * a j r) rows) = 0 -> rsum (map (fun r => a i r * a k r) rows) = 0 -> rsum (map (fun r => a j r * a k r) rows) = 0 ->
  tc_product rows i j k = Some (sqrt (rmean (map (fun r => a i r * a i r) rows))).
Proof.
  intros NE H O1 O2 O3. unfold tc_product. rewrite np_mean_some by (apply map_ne, NE). cbn [omap]. f_equal.
  assert (E : rmean (map (fun r => (r i - r j) * (r i - r k)) rows) = rmean (map (fun r => a i r * a i r) rows)).
  { unfold rmean. rewrite !rlen_map. f_equal. rewrite (rsum_ext _ (fun r => (a i r * a i r - a i r * a k r) - (a i r * a j r - a j r * a k r))).
    - rewrite !rsum_minus. rewrite O1, O2, O3. ring.
    - intros r I. rewrite (H r i I) by (cbn; tauto). rewrite (H r j I) by (cbn; tauto). rewrite (H r k I) by (cbn; tauto). ring. }
  rewrite E. rewrite Rabs_pos_eq; [reflexivity|]. unfold rmean. apply Rmult_le_pos; [|left; apply Rinv_0_lt_compat; rewrite rlen_map; apply rlen_pos, NE].
  apply rsum_nonneg. intros r _. nra.
Qed.

(* noise-free data: every column is a linear function of the same signal *)
Lemma cov1_linear rows (t : (nat -> R) -> R) (g o : nat -> R) j k : (2 <= List.length rows)%nat ->
  (forall r, In r rows -> r j = o j + g j * t r /\ r k = o k + g k * t r) ->
  cov1 rows j k = g j * g k * (rsum (map (fun r => (t r - rmean (map t rows)) * (t r - rmean (map t rows))) rows) / (rlen rows - 1)).
Proof.
  intros L H. assert (NE : rows <> []) by (intros ->; cbn in L; lia). pose proof (rlen_ne rows NE) as N0.
  assert (MJ : forall m, (forall r, In r rows -> r m = o m + g m * t r) -> rmean (map (fun r => r m) rows) = o m + g m * rmean (map t rows)).
  { intros m Hm. unfold rmean. rewrite !rlen_map. rewrite (rsum_ext _ (fun r => o m + g m * t r) rows Hm). rewrite rsum_plus, rsum_const, rsum_scal. field. exact N0. }
  unfold cov1. rewrite (MJ j), (MJ k) by (intros r I; apply H, I). set (mt := rmean (map t rows)).
  rewrite (rsum_ext _ (fun r => (g j * g k) * ((t r - mt) * (t r - mt)))).
  - rewrite rsum_scal. unfold Rdiv. ring.
  - intros r I. destruct (H r I) as [-> ->]. ring.
Qed.
