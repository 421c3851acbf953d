(* Confidence intervals at different levels, in other units and for exchanged series. *)
From Coq Require Import Reals List Lra Lia Psatz Permutation Sorted.
From Verif Require Import Base BaseProofs RStats RStatsProofs MetricsModel MetricsSpec MetricsProofs MetricsProofs2
  TcolModel ConfintModel ConfintSpec ConfintProofs ConfintProofs2 ConfNestSpec.
Open Scope R_scope.

(* ---- correlations ---- *)
Lemma upper_quantile ppf alpha : symmetric_quantiles ppf -> 0 < alpha < 1 -> 0 <= ppf (1 - alpha / 2).
Proof. intros [M Z] A. rewrite <- Z. apply M; lra. Qed.
Lemma upper_quantile_mono ppf alpha' alpha : symmetric_quantiles ppf -> 0 < alpha' -> alpha' <= alpha -> alpha < 1 -> ppf (1 - alpha / 2) <= ppf (1 - alpha' / 2).
Proof. intros [M Z] A B C. apply M; lra. Qed.
Lemma fisher_nested r q q' n : -1 < r < 1 -> 0 <= q <= q' -> (3 < n)%nat -> within (fisher_ci r q n) (fisher_ci r q' n).
Proof.
  intros H Q N. rewrite !fisher_fin by assumption. unfold within, fisher. cbn [fst snd bound_le].
  assert (S : 0 < sqrt (INR n - 3)) by (apply sqrt_lt_R0; pose proof (n_gt3 n N); lra).
  assert (D : q / sqrt (INR n - 3) <= q' / sqrt (INR n - 3)) by (apply Rmult_le_compat_r; [left; apply Rinv_0_lt_compat, S|apply Q]).
  split; apply tanh_le; lra.
Qed.
Lemma e_arctanh_opp r : e_arctanh (- r) = e_opp (e_arctanh r).
Proof.
  unfold e_arctanh. rewrite Rabs_Ropp. destruct (Req_EM_T r 1) as [E|E].
  { subst r. destruct (Req_EM_T (- (1)) 1); [lra|]. destruct (Req_EM_T (- (1)) (-1)); [reflexivity|lra]. }
  destruct (Req_EM_T r (-1)) as [F|F].
  { subst r. destruct (Req_EM_T (- (-1)) 1); [reflexivity|lra]. }
  destruct (Req_EM_T (- r) 1); [lra|]. destruct (Req_EM_T (- r) (-1)); [lra|]. destruct (Rlt_dec (Rabs r) 1) as [L|L]; [|reflexivity].
  cbn [e_opp]. f_equal. unfold arctanh. apply Rabs_def2 in L. replace ((1 + - r) / (1 - - r)) with (/ ((1 + r) / (1 - r))) by (field; split; lra).
  rewrite ln_Rinv; [lra|]. apply Rmult_lt_0_compat; [lra|apply Rinv_0_lt_compat; lra].
Qed.
Lemma e_tanh_opp a : e_tanh (e_opp a) = omap Ropp (e_tanh a).
Proof.
  destruct a; cbn; try reflexivity; f_equal; [|ring]. unfold tanh. rewrite sinh_antisym || (unfold sinh; rewrite Ropp_involutive).
  unfold cosh, sinh. rewrite ?Ropp_involutive. pose proof (exp_pos r). pose proof (exp_pos (- r)). field. lra.
Qed.
Lemma e_opp_add a b : e_opp (e_add a b) = e_add (e_opp a) (e_opp b).
Proof. destruct a, b; cbn; try reflexivity. f_equal. ring. Qed.
Lemma e_opp_opp a : e_opp (e_opp a) = a.
Proof. destruct a; cbn; try reflexivity. f_equal. ring. Qed.
Lemma fisher_opp r q n : fisher_ci (- r) q n = (omap Ropp (snd (fisher_ci r q n)), omap Ropp (fst (fisher_ci r q n))).
Proof.
  unfold fisher_ci. cbn [fst snd]. unfold e_sub. rewrite e_arctanh_opp, <- !e_tanh_opp, !e_opp_add, e_opp_opp. reflexivity.
Qed.

(* ---- bias ---- *)
Lemma within_half b w w' : w <= w' -> within (Some (b - w), Some (b + w)) (Some (b - w'), Some (b + w')).
Proof. intros H. split; cbn [fst snd bound_le]; lra. Qed.

(* ---- quantiles on another scale ---- *)
Lemma sorted_map_up (g : R -> R) s : (forall u v, u <= v -> g u <= g v) -> StronglySorted Rle s -> StronglySorted Rle (map g s).
Proof.
  intros G. induction 1 as [|a s S IH F]; [constructor|]. cbn [map]. constructor; [exact IH|]. apply Forall_forall. intros b I. apply in_map_iff in I as (x & <- & I). apply G. rewrite Forall_forall in F. apply F, I.
Qed.
Lemma sorted_snoc s b : StronglySorted Rle s -> Forall (fun a => a <= b) s -> StronglySorted Rle (s ++ [b]).
Proof.
  induction 1 as [|a s S IH F]; intros B; [repeat constructor|]. apply Forall_cons_iff in B as [B1 B2]. cbn [app]. constructor; [apply IH, B2|]. apply Forall_app. split; [exact F|constructor; [exact B1|constructor]].
Qed.
Lemma sorted_map_down (g : R -> R) s : (forall u v, u <= v -> g v <= g u) -> StronglySorted Rle s -> StronglySorted Rle (rev (map g s)).
Proof.
  intros G. induction 1 as [|a s S IH F]; [constructor|]. cbn [map rev]. apply sorted_snoc; [exact IH|]. apply Forall_forall. intros b I. apply in_rev in I. apply in_map_iff in I as (x & <- & I). apply G. rewrite Forall_forall in F. apply F, I.
Qed.
Lemma order_up g k l a : (forall u v, u <= v -> g u <= g v) -> order_statistic k l a -> order_statistic k (map g l) (g a).
Proof. intros G (s & P & S & N). exists (map g s). split; [apply Permutation_map, P|]. split; [apply sorted_map_up; assumption|]. apply map_nth_error, N. Qed.
Lemma order_lt k l a : order_statistic k l a -> (k < List.length l)%nat.
Proof. intros (s & P & _ & N). rewrite (Permutation_length P). apply nth_error_Some. congruence. Qed.
Lemma order_down g k l a : (forall u v, u <= v -> g v <= g u) -> order_statistic k l a -> order_statistic (List.length l - 1 - k) (map g l) (g a).
Proof.
  intros G H. pose proof (order_lt _ _ _ H) as L. destruct H as (s & P & S & N). pose proof (Permutation_length P) as LL.
  exists (rev (map g s)). split; [apply Permutation_trans with (map g s); [apply Permutation_map, P|apply Permutation_rev]|]. split; [apply sorted_map_down; assumption|].
  rewrite (nth_error_nth' _ (g 0)) by (rewrite rev_length, map_length; lia). rewrite rev_nth by (rewrite map_length; lia). rewrite map_length. f_equal.
  replace (List.length s - Datatypes.S (List.length l - 1 - k))%nat with k by lia. rewrite map_nth. f_equal. apply nth_error_nth, N.
Qed.
Lemma rlen_len {A} (l : list A) : rlen l = INR (List.length l).
Proof. reflexivity. Qed.
Lemma quantile_up k c l q : 0 < k -> linear_quantile l q (quantile l q) -> linear_quantile (map (fun v => k * v + c) l) q (k * quantile l q + c).
Proof.
  intros K (j & a & b & HA & HB & HH & V). set (g := fun v => k * v + c). assert (G : forall u v, u <= v -> g u <= g v) by (intros u v H; unfold g; nra).
  exists j, (g a), (g b). split; [apply order_up; assumption|]. split.
  - destruct HB as [HB|[HB ->]]; [left; apply order_up; assumption|right; rewrite map_length; split; [exact HB|reflexivity]].
  - rewrite rlen_map. split; [exact HH|]. rewrite V at 1. unfold g. ring.
Qed.
Lemma order_some l j : (j < List.length l)%nat -> exists v, order_statistic j l v.
Proof.
  intros H. exists (nth j (r_sort l) 0). exists (r_sort l). split; [apply r_sort_perm|]. split; [apply r_sort_sorted|]. apply nth_error_nth'. rewrite r_sort_length. exact H.
Qed.
Lemma quantile_down k c l q : k < 0 -> q <= 1 -> linear_quantile l q (quantile l q) -> linear_quantile (map (fun v => k * v + c) l) (1 - q) (k * quantile l q + c).
Proof.
  intros K Q (j & a & b & HA & HB & HH & V). set (g := fun v => k * v + c). assert (G : forall u v, u <= v -> g v <= g u) by (intros u v H; unfold g; nra).
  pose proof (order_lt _ _ _ HA) as LJ. set (n := List.length l) in *. set (h := q * (rlen l - 1)) in *.
  assert (RN : rlen l = INR n) by reflexivity. assert (HJ : INR (n - 1 - j) = rlen l - 1 - INR j) by (rewrite RN, !minus_INR by lia; cbn; ring).
  destruct (Req_dec h (INR j)) as [E|E].
  - (* on an order statistic *)
    exists (n - 1 - j)%nat, (g a). destruct (Nat.eq_dec (S (n - 1 - j)) n) as [L|L].
    + exists (g a). split; [apply order_down; assumption|]. split; [right; rewrite map_length; split; [exact L|reflexivity]|]. rewrite rlen_map. cbn zeta. rewrite HJ.
      replace ((1 - q) * (rlen l - 1)) with (rlen l - 1 - h) by (unfold h; ring). split; [lra|]. rewrite V, E. unfold g. ring.
    + destruct (order_some (map g l) (S (n - 1 - j))) as (b' & HB'); [rewrite map_length; fold n; lia|]. exists b'. split; [apply order_down; assumption|]. split; [left; exact HB'|]. rewrite rlen_map. cbn zeta. rewrite HJ.
      replace ((1 - q) * (rlen l - 1)) with (rlen l - 1 - h) by (unfold h; ring). split; [lra|]. rewrite V, E. unfold g. ring.
  - destruct HB as [HB|[HB EB]].
    2:{ exfalso. cbn zeta in HH. assert (INR j = rlen l - 1) by (rewrite RN, <- HB, S_INR; ring).
        apply E.
        assert (h <= rlen l - 1) by (unfold h; assert (0 <= rlen l - 1) by (rewrite <- H; apply pos_INR); nra). lra. }
    pose proof (order_lt _ _ _ HB) as LB. fold n in LB. exists (n - 1 - S j)%nat, (g b), (g a). split; [apply order_down; assumption|]. split.
    + left. replace (S (n - 1 - S j)) with (n - 1 - j)%nat by lia. apply order_down; assumption.
    + rewrite rlen_map. cbn zeta. assert (HS : INR (n - 1 - S j) = rlen l - 1 - INR j - 1) by (replace (n - 1 - j)%nat with (S (n - 1 - S j)) in HJ by lia; rewrite S_INR in HJ; lra).
      rewrite HS. replace ((1 - q) * (rlen l - 1)) with (rlen l - 1 - h) by (unfold h; ring). split; [lra|]. rewrite V. unfold g. ring.
Qed.
