(* The one-pass covariance matrix of _fast.pyx. *)
From Coq Require Import Reals List Lra Lia Psatz.
From Verif Require Import RStats RStatsProofs MetricsModel MetricsSpec MetricsProofs.

Lemma upd_same f j v : upd f j v j = v.
Proof. unfold upd. rewrite Nat.eqb_refl. reflexivity. Qed.
Lemma upd_other f j v i : i <> j -> upd f j v i = f i.
Proof. intros H. unfold upd. apply Nat.eqb_neq in H. rewrite H. reflexivity. Qed.
Lemma upd2_same f j k v : upd2 f j k v j k = v.
Proof. unfold upd2. rewrite !Nat.eqb_refl. reflexivity. Qed.
Lemma upd2_other f j k v a b : (a, b) <> (j, k) -> upd2 f j k v a b = f a b.
Proof.
  intros H. unfold upd2. destruct (Nat.eqb a j) eqn:A, (Nat.eqb b k) eqn:B; try reflexivity.
  apply Nat.eqb_eq in A, B. congruence.
Qed.

(* the inner loop changes exactly row j from column j on *)
Lemma nd_inner_eq x m j len s C a b : 
  fold_left (fun C k => upd2 C j k (C j k + (x j - m j) * (x k - m k))) (seq s len) C a b =
  if andb (Nat.eqb a j) (andb (Nat.leb s b) (Nat.ltb b (s + len))) then C a b + (x j - m j) * (x b - m b) else C a b.
Proof.
  revert s C. induction len as [|len IH]; intros s C; cbn [seq fold_left].
  - destruct (Nat.eqb a j); [|reflexivity]. cbn [andb]. destruct (Nat.leb s b) eqn:L; [|reflexivity]. apply Nat.leb_le in L.
    destruct (Nat.ltb b (s + 0)) eqn:G; [apply Nat.ltb_lt in G; lia|reflexivity].
  - rewrite IH. destruct (Nat.eqb a j) eqn:A; cbn [andb].
    + apply Nat.eqb_eq in A. subst a. destruct (Nat.eq_dec b s) as [->|NB].
      * rewrite upd2_same. assert (L1 : Nat.leb (S s) s = false) by (apply Nat.leb_gt; lia). assert (L2 : Nat.leb s s = true) by (apply Nat.leb_le; lia).
        assert (L3 : Nat.ltb s (s + S len) = true) by (apply Nat.ltb_lt; lia). rewrite L1, L2, L3. reflexivity.
      * rewrite upd2_other by congruence.
        assert (L1 : Nat.leb (S s) b = Nat.leb s b) by (destruct (Nat.leb_spec (S s) b), (Nat.leb_spec s b); reflexivity || lia).
        assert (L2 : Nat.ltb b (S s + len) = Nat.ltb b (s + S len)) by (f_equal; lia). rewrite L1, L2. reflexivity.
    + apply Nat.eqb_neq in A. apply upd2_other. congruence.
Qed.

(* the new mean of a column and the second factor used for entry (j, k) *)
Definition newm (x m : nat -> R) (nobs : R) (j : nat) : R := m j + (x j - m j) / nobs.

Lemma nd_outer_eq x nobs d c m C : (c <= d)%nat ->
  let r := fold_left (fun mC j => let mean := upd (fst mC) j (fst mC j + (x j - fst mC j) / nobs) in
                        (mean, nd_inner x mean j d (snd mC))) (seq 0 c) (m, C) in
  (forall j, fst r j = if Nat.ltb j c then newm x m nobs j else m j) /\
  (forall j k, (j <= k)%nat -> (k < d)%nat -> snd r j k = if Nat.ltb j c
     then C j k + (x j - newm x m nobs j) * (x k - (if Nat.eqb k j then newm x m nobs k else m k)) else C j k).
Proof.
  induction c as [|c IH]; intros L; cbn zeta.
  - split; reflexivity.
  - rewrite seq_S, fold_left_app. cbn [plus fold_left]. set (r := fold_left _ (seq 0 c) (m, C)).
    destruct (IH ltac:(lia)) as [IM IC]. fold r in IM, IC. cbn [fst snd]. 
    assert (MC : fst r c = m c). { rewrite IM. destruct (Nat.ltb_spec c c); [lia|reflexivity]. }
    split.
    + intros j. destruct (Nat.eq_dec j c) as [->|NE].
      * rewrite upd_same, MC. destruct (Nat.ltb_spec c (S c)); [reflexivity|lia].
      * rewrite upd_other, IM by exact NE. destruct (Nat.ltb_spec j c), (Nat.ltb_spec j (S c)); reflexivity || lia.
    + intros j k JK K. unfold nd_inner. rewrite nd_inner_eq, upd_same, MC. rewrite IC by assumption.
      destruct (Nat.eqb_spec j c) as [->|NE]; cbn [andb].
      * destruct (Nat.leb_spec c k); [|lia]. destruct (Nat.ltb_spec k (c + (d - c))); [|lia]. cbn [andb].
        destruct (Nat.ltb_spec c c); [lia|]. destruct (Nat.ltb_spec c (S c)); [|lia]. fold (newm x m nobs c).
        destruct (Nat.eqb_spec k c) as [->|NK]; [rewrite upd_same; reflexivity|]. rewrite upd_other, IM by exact NK.
        destruct (Nat.ltb_spec k c); [lia|reflexivity].
      * destruct (Nat.ltb_spec j c), (Nat.ltb_spec j (S c)); reflexivity || lia.
Qed.

Lemma nd_step_mean d s x j : (j < d)%nat -> nd_mean (nd_step d s x) j = newm x (nd_mean s) (nd_n s + 1) j.
Proof.
  intros J. unfold nd_step; cbn [nd_mean]. destruct (nd_outer_eq x (nd_n s + 1) d d (nd_mean s) (nd_C s) (le_n d)) as [M _].
  unfold nd_outer. rewrite M. destruct (Nat.ltb_spec j d); [reflexivity|lia].
Qed.
Lemma nd_step_C d s x j k : (j <= k)%nat -> (k < d)%nat -> nd_C (nd_step d s x) j k =
  nd_C s j k + (x j - newm x (nd_mean s) (nd_n s + 1) j) * (x k - (if Nat.eqb k j then newm x (nd_mean s) (nd_n s + 1) k else nd_mean s k)).
Proof.
  intros JK K. unfold nd_step; cbn [nd_C]. destruct (nd_outer_eq x (nd_n s + 1) d d (nd_mean s) (nd_C s) (le_n d)) as [_ C].
  unfold nd_outer. rewrite C by assumption. destruct (Nat.ltb_spec j d); [reflexivity|lia].
Qed.

(* simulation by the pairwise one-pass moments of columns j and k *)
Definition sim (j k : nat) (s : ndstate) (w : wstate) : Prop :=
  nd_n s = w_n w /\ nd_mean s j = w_mx w /\ nd_mean s k = w_my w.

Lemma nd_sim d j k rows s w : (j < d)%nat -> (k < d)%nat -> sim j k s w ->
  sim j k (fold_left (nd_step d) rows s) (fold_left w_step (columns j k rows) w) /\
  ((j < k)%nat -> nd_C s j k = w_C w -> nd_C (fold_left (nd_step d) rows s) j k = w_C (fold_left w_step (columns j k rows) w)).
Proof.
  intros J K. revert s w. induction rows as [|x rows IH]; intros s w (E1 & E2 & E3); [split; [repeat split; assumption|intros _ E; exact E]|].
  unfold columns in *; cbn [map fold_left]. apply (IH (nd_step d s x) (w_step w (x j, x k))) || idtac.
  assert (S1 : sim j k (nd_step d s x) (w_step w (x j, x k))).
  { unfold sim. rewrite !nd_step_mean by assumption. unfold newm, w_step; cbn. rewrite E1, E2, E3. repeat split; reflexivity. }
  destruct (IH _ _ S1) as [A B]. split; [exact A|]. intros JK EC. apply B; [exact JK|].
  rewrite nd_step_C by lia. unfold newm. assert (NE : Nat.eqb k j = false) by (apply Nat.eqb_neq; lia). rewrite NE.
  unfold w_step; cbn. rewrite E1, E2, E3, EC. reflexivity.
Qed.

(* the diagonal accumulates (x - new mean)^2 instead of (x - new mean)(x - old mean) *)
Definition dg_inv (n D M : R) : Prop := 0 <= n /\ D <= M /\ (D = M -> M = 0) /\ 0 <= M.

Lemma dg_step n D M x m : dg_inv n D M -> let m' := m + (x - m) / (n + 1) in
  dg_inv (n + 1) (D + (x - m') * (x - m')) (M + (x - m') * (x - m)).
Proof.
  intros (N & L & Z & P) m'. assert (NZ : n + 1 <> 0) by lra. assert (IP : 0 < / (n + 1)) by (apply Rinv_0_lt_compat; lra).
  assert (A : x - m' = n * (/ (n + 1) * (x - m))) by (unfold m'; field; exact NZ).
  set (e := / (n + 1) * (x - m)) in *. assert (E : x - m = (n + 1) * e) by (unfold e; field; exact NZ).
  rewrite A, E. assert (Q : 0 <= n * (e * e)) by (pose proof (sq_nonneg e); nra).
  replace (n * e * (n * e)) with (n * (n * (e * e))) by ring. replace (n * e * ((n + 1) * e)) with (n * (n * (e * e)) + n * (e * e)) by ring.
  set (q := n * (e * e)) in *. assert (0 <= n * q) by nra.
  split; [lra|]. split; [lra|]. split; [|lra]. intros EQ. assert (q = 0) by lra. assert (D = M) as DM by lra. specialize (Z DM). nra.
Qed.

Lemma nd_diag d j rows s w : (j < d)%nat -> sim j j s w -> dg_inv (w_n w) (nd_C s j j) (w_M2x w) ->
  let s' := fold_left (nd_step d) rows s in let w' := fold_left w_step (columns j j rows) w in
  sim j j s' w' /\ dg_inv (w_n w') (nd_C s' j j) (w_M2x w').
Proof.
  intros J. revert s w. induction rows as [|x rows IH]; intros s w S0 D; cbn zeta; [split; assumption|].
  unfold columns in *; cbn [map fold_left]. destruct S0 as (E1 & E2 & E3). apply IH.
  - unfold sim. rewrite nd_step_mean by assumption. unfold newm, w_step; cbn. rewrite E1, E2, <- E3, E2. repeat split; reflexivity.
  - rewrite nd_step_C by lia. rewrite Nat.eqb_refl. unfold newm. unfold w_step; cbn. rewrite E1, E2. apply dg_step. exact D.
Qed.

(* ---- the final loops ---- *)
Lemma finish_row_eq nobs j len s C a b : (j <= s)%nat ->
  fold_left (fun C k => let C := upd2 C j k (C j k / nobs) in if Nat.eqb k j then C else upd2 C k j (C j k)) (seq s len) C a b =
  if andb (Nat.eqb a j) (andb (Nat.leb s b) (Nat.ltb b (s + len))) then C j b / nobs
  else if andb (Nat.eqb b j) (andb (Nat.leb s a) (Nat.ltb a (s + len))) then C j a / nobs else C a b.
Proof.
  revert s C. induction len as [|len IH]; intros s C JS; cbn [seq fold_left].
  - assert (F : forall q, andb (Nat.leb s q) (Nat.ltb q (s + 0)) = false).
    { intros q. destruct (Nat.leb_spec s q), (Nat.ltb_spec q (s + 0)); reflexivity || lia. }
    rewrite !F, !Bool.andb_false_r. reflexivity.
  - rewrite IH by lia. set (C1 := upd2 C j s (C j s / nobs)). cbn zeta.
    assert (FB : forall q, q <> s -> andb (Nat.leb (S s) q) (Nat.ltb q (S s + len)) = andb (Nat.leb s q) (Nat.ltb q (s + S len))).
    { intros q NQ. destruct (Nat.leb_spec (S s) q), (Nat.leb_spec s q), (Nat.ltb_spec q (S s + len)), (Nat.ltb_spec q (s + S len)); reflexivity || lia. }
    assert (FT : andb (Nat.leb s s) (Nat.ltb s (s + S len)) = true) by (rewrite Nat.leb_refl; apply Nat.ltb_lt; lia).
    assert (FF : andb (Nat.leb (S s) s) (Nat.ltb s (S s + len)) = false) by (destruct (Nat.leb_spec (S s) s); [lia|reflexivity]).
    set (C2 := if Nat.eqb s j then C1 else upd2 C1 s j (C1 j s)).
    assert (F1 : C2 j s = C j s / nobs).
    { unfold C2, C1. destruct (Nat.eqb_spec s j); [rewrite upd2_same; reflexivity|]. rewrite upd2_other by congruence. rewrite upd2_same. reflexivity. }
    assert (F2 : s <> j -> C2 s j = C j s / nobs).
    { intros NE. unfold C2, C1. destruct (Nat.eqb_spec s j); [contradiction|]. rewrite upd2_same, upd2_same. reflexivity. }
    assert (F3 : forall u v, (u, v) <> (j, s) -> (u, v) <> (s, j) -> C2 u v = C u v).
    { intros u v A B. unfold C2, C1. destruct (Nat.eqb_spec s j); rewrite ?upd2_other by congruence; reflexivity. }
    clearbody C2. clear C1 IH.
    destruct (Nat.eq_dec a j) as [EA|NA]; destruct (Nat.eq_dec b j) as [EB|NB];
      rewrite ?(proj2 (Nat.eqb_eq a j)), ?(proj2 (Nat.eqb_neq a j)), ?(proj2 (Nat.eqb_eq b j)), ?(proj2 (Nat.eqb_neq b j)) by assumption; cbn [andb].
    + destruct (Nat.eq_dec b s) as [ES|NS].
      * rewrite ES in *. assert (AS : a = s) by congruence. rewrite AS in *. rewrite FT, FF. rewrite EA in F1 |- *. exact F1.
      * assert (AS : a <> s) by congruence. rewrite (FB b NS), (FB a AS). subst a b. rewrite !F3 by congruence. reflexivity.
    + destruct (Nat.eq_dec b s) as [ES|NS].
      * rewrite ES, FT, FF, EA. exact F1.
      * rewrite (FB b NS). clear FT FF. match goal with |- (if ?c then _ else _) = _ => destruct c end; rewrite F3 by congruence; reflexivity.
    + destruct (Nat.eq_dec a s) as [ES|NS].
      * rewrite ES, FT, FF, EB. apply F2. congruence.
      * rewrite (FB a NS). clear FT FF. match goal with |- (if ?c then _ else _) = _ => destruct c end; rewrite F3 by congruence; reflexivity.
    + apply F3; congruence.
Qed.

Lemma nd_finish_eq nobs d c C a b : (c <= d)%nat -> (a < d)%nat -> (b < d)%nat ->
  fold_left (fun C j => nd_finish_row nobs j d C) (seq 0 c) C a b =
  if Nat.ltb (Nat.min a b) c then C (Nat.min a b) (Nat.max a b) / nobs else C a b.
Proof.
  intros L A B. revert L. revert a b A B. induction c as [|c IH]; intros a b A B L; [cbn; reflexivity|].
  rewrite seq_S, fold_left_app. cbn [plus fold_left]. unfold nd_finish_row at 1. rewrite finish_row_eq by lia.
  replace (c + (d - c))%nat with d by lia.
  assert (FR : forall q, (q < d)%nat -> andb (Nat.leb c q) (Nat.ltb q d) = Nat.leb c q).
  { intros q Q. destruct (Nat.ltb_spec q d); [apply Bool.andb_true_r|lia]. }
  rewrite (FR a A), (FR b B). rewrite !IH by lia.
  destruct (Nat.eqb_spec a c) as [->|NA]; cbn [andb].
  - destruct (Nat.leb_spec c b) as [CB|CB]; cbn [andb].
    + rewrite (Nat.min_l c b), (Nat.max_r c b) by lia. destruct (Nat.ltb_spec c c); [lia|]. destruct (Nat.ltb_spec c (S c)); [reflexivity|lia].
    + rewrite (Nat.min_r c b), (Nat.max_l c b) by lia. destruct (Nat.eqb_spec b c); [lia|]. cbn [andb].
      destruct (Nat.ltb_spec b c); [|lia]. destruct (Nat.ltb_spec b (S c)); [reflexivity|lia].
  - destruct (Nat.eqb_spec b c) as [->|NB]; cbn [andb].
    + destruct (Nat.leb_spec c a) as [CA|CA].
      * rewrite (Nat.min_l c a), (Nat.min_r a c), (Nat.max_l a c) by lia. destruct (Nat.ltb_spec c c); [lia|]. destruct (Nat.ltb_spec c (S c)); [reflexivity|lia].
      * rewrite (Nat.min_l a c), (Nat.max_r a c) by lia. destruct (Nat.ltb_spec a c); [|lia]. destruct (Nat.ltb_spec a (S c)); [reflexivity|lia].
    + destruct (Nat.ltb_spec (Nat.min a b) c), (Nat.ltb_spec (Nat.min a b) (S c)); reflexivity || lia.
Qed.

Lemma rlen_columns j k rows : rlen (columns j k rows) = rlen rows.
Proof. apply rlen_map. Qed.
Lemma columns_ne j k rows : rows <> [] -> columns j k rows <> [].
Proof. apply map_ne. Qed.
Lemma xs_columns j k rows : xs (columns j k rows) = column j rows.
Proof. unfold xs, columns, column. rewrite map_map. reflexivity. Qed.
Lemma ys_columns j k rows : ys (columns j k rows) = column k rows.
Proof. unfold ys, columns, column. rewrite map_map. reflexivity. Qed.
Lemma columns_swap j k rows : columns k j rows = swap (columns j k rows).
Proof. unfold columns, swap. rewrite map_map. reflexivity. Qed.

Lemma nd_n_rlen d rows s : nd_n (fold_left (nd_step d) rows s) = nd_n s + rlen rows.
Proof.
  revert s. induction rows as [|x rows IH]; intros s; [unfold rlen; cbn; ring|]. cbn [fold_left]. rewrite IH, rlen_cons. cbn. ring.
Qed.

Lemma nd_correct d rows : rows <> [] -> exists mean C, moments_welford_nd d rows = Some (mean, C) /\
  (forall j, (j < d)%nat -> mean j = rmean (column j rows)) /\
  (forall j k, (j < d)%nat -> (k < d)%nat -> j <> k -> C j k = cov (columns j k rows)) /\
  (forall j, (j < d)%nat -> C j j <= var (column j rows) /\ (C j j = var (column j rows) <-> constant (column j rows))).
Proof.
  intros H. unfold moments_welford_nd. destruct rows as [|x0 rows0] eqn:ER; [congruence|]. rewrite <- ER in *. clear ER x0 rows0.
  set (s := fold_left (nd_step d) rows nd_init). exists (nd_mean s), (nd_finish (nd_n s) d (nd_C s)).
  assert (NS : nd_n s = rlen rows) by (unfold s; rewrite nd_n_rlen; cbn; ring).
  pose proof (rlen_ne rows H) as N. pose proof (rlen_pos rows H) as NP.
  assert (SIM0 : forall j k, sim j k nd_init w_init) by (intros; repeat split).
  assert (OFF : forall j k, (j < k)%nat -> (k < d)%nat -> nd_C s j k / nd_n s = cov (columns j k rows)).
  { intros j k JK K. destruct (nd_sim d j k rows nd_init w_init ltac:(lia) K (SIM0 j k)) as [_ B]. fold s in B.
    rewrite (B JK eq_refl), NS. destruct (welford_inv (columns j k rows)) as (_ & E2 & E3 & _ & _ & E6).
    pose proof (cov_sums _ (columns_ne j k rows H)) as CS. rewrite rlen_columns in *.
    assert (MX : w_mx (fold_left w_step (columns j k rows) w_init) = rmean (xs (columns j k rows))).
    { unfold rmean. rewrite <- E2. unfold xs. rewrite rlen_map, rlen_columns. field. exact N. }
    assert (MY : w_my (fold_left w_step (columns j k rows) w_init) = rmean (ys (columns j k rows))).
    { unfold rmean. rewrite <- E3. unfold ys. rewrite rlen_map, rlen_columns. field. exact N. }
    rewrite E6, MX, MY, <- CS. field. exact N. }
  split; [reflexivity|]. split; [|split].
  - intros j J. destruct (nd_sim d j j rows nd_init w_init J J (SIM0 j j)) as [(_ & E & _) _]. fold s in E. rewrite E.
    destruct (welford_inv (columns j j rows)) as (_ & E2 & _). rewrite rlen_columns in E2. rewrite xs_columns in E2.
    unfold rmean. rewrite <- E2. unfold column. rewrite rlen_map. field. exact N.
  - intros j k J K NE. unfold nd_finish. rewrite nd_finish_eq by lia. destruct (Nat.ltb_spec (Nat.min j k) d); [|lia].
    destruct (Nat.lt_ge_cases j k).
    + rewrite Nat.min_l, Nat.max_r by lia. apply OFF; lia.
    + rewrite Nat.min_r, Nat.max_l by lia. rewrite OFF by lia. rewrite (columns_swap j k). apply cov_swap.
  - intros j J. unfold nd_finish. rewrite nd_finish_eq by lia. rewrite Nat.min_id, Nat.max_id. destruct (Nat.ltb_spec j d); [|lia].
    destruct (nd_diag d j rows nd_init w_init J (SIM0 j j)) as [_ (_ & L & Z & P)]; [unfold dg_inv; cbn; repeat split; lra|].
    fold s in L, Z. rewrite NS.
    assert (V : var (column j rows) = w_M2x (fold_left w_step (columns j j rows) w_init) / rlen rows).
    { pose proof (welford_correct _ (columns_ne j j rows H)) as WC. unfold moments_welford in WC. rewrite rlen_columns in WC.
      rewrite !fdiv_some in WC by exact N. cbn [obind] in WC. rewrite xs_columns in WC. assert (W2 := f_equal (fun o => match o with Some m => m_vx m | None => 0 end) WC). cbn in W2. symmetry; exact W2. }
    set (D := nd_C s j j) in *. set (M := w_M2x _) in *. pose proof (Rinv_0_lt_compat _ NP) as IP.
    rewrite <- (var_zero (column j rows)) by (apply map_ne, H). rewrite V. split; [unfold Rdiv; nra|]. split.
    + intros E. assert (DM : D = M) by (apply (Rmult_eq_reg_r (/ rlen rows)); [exact E|lra]). rewrite (Z DM). unfold Rdiv. ring.
    + intros E. assert (M0 : M = 0). { unfold Rdiv in E. apply Rmult_integral in E. lra. }
      rewrite M0 in *. (* the accumulated diagonal is a sum of squares *)
      assert (D0 : 0 <= D).
      { unfold D, s. assert (G : forall s0, 0 <= nd_C s0 j j -> 0 <= nd_C (fold_left (nd_step d) rows s0) j j).
        - clear - J. induction rows as [|x rows IH]; intros s0 P0; [exact P0|]. cbn [fold_left]. apply IH. rewrite nd_step_C by lia. rewrite Nat.eqb_refl.
          match goal with |- 0 <= _ + ?q * ?q => pose proof (sq_nonneg q) end. lra.
        - apply G. cbn. lra. }
      assert (D = 0) as -> by lra. reflexivity.
Qed.
