(* C129: data in which every observation is repeated the same number of times. *)
From Coq Require Import Reals Lra Permutation List Lia.
From Verif Require Import RStats MetricsModel MetricsSpec RStatsProofs MetricsProofs MetricsProps PiecesProofs PiecesProps.
Import ListNotations.
Open Scope R_scope.
Open Scope list_scope.

Section Repeated.
Context {A : Type} (d : list A) (k : nat) (e : list A).
Hypothesis N : d <> [].
Hypothesis K : (1 <= k)%nat.
Hypothesis P : Permutation e (List.concat (repeat d k)).
Lemma rep_ne : e <> [].
Proof.
  intros ->. apply Permutation_nil in P. destruct k as [|j]; [lia|]. cbn in P. apply app_eq_nil in P. apply N, P.
Qed.
Lemma rsum_repeat (w : R) j : rsum (map (fun p : list A => w) (repeat d j)) = INR j * w.
Proof. induction j as [|j IH]; [cbn; lra|]. cbn [repeat map rsum]. rewrite IH, S_INR. ring. Qed.
Lemma rep_rsum (f : A -> R) : rsum (map f e) = INR k * rsum (map f d).
Proof.
  rewrite (rsum_split f e (repeat d k) P). rewrite <- (rsum_repeat (rsum (map f d)) k). apply rsum_ext.
  intros p I. apply repeat_spec in I. subst p. reflexivity.
Qed.
Lemma rep_rlen : rlen e = INR k * rlen d.
Proof.
  rewrite (rlen_split e (repeat d k) P). rewrite <- (rsum_repeat (rlen d) k). apply rsum_ext.
  intros p I. apply repeat_spec in I. subst p. reflexivity.
Qed.
Lemma rep_rmean (f : A -> R) : rmean (map f e) = rmean (map f d).
Proof.
  assert (L : 0 < rlen d) by (apply rlen_pos, N). assert (L' : 0 < INR k) by (apply lt_0_INR; lia).
  unfold rmean. unfold rlen. rewrite !map_length. fold (rlen e). fold (rlen d). rewrite rep_rsum, rep_rlen. field. lra.
Qed.
Lemma rep_in a : In a e <-> In a d.
Proof.
  split; intros I.
  - apply (Permutation_in _ P) in I. apply in_concat in I as (p & J & I). apply repeat_spec in J. subst p. exact I.
  - apply (Permutation_in _ (Permutation_sym P)). apply in_concat. exists d. split; [|exact I]. destruct k as [|j]; [lia|]. left. reflexivity.
Qed.
End Repeated.

(* counting every observation k times changes neither bias, MSD, RMSD, ubRMSD and mean absolute
   difference nor the correlation, whatever the order; RSS is k times as large *)
Theorem C129_repeated (d e : pairs) (k : nat) : d <> [] -> (1 <= k)%nat -> Permutation e (List.concat (repeat d k)) ->
  bias e = bias d /\ msd e = msd d /\ rmsd e 0 = rmsd d 0 /\ ubrmsd e 0 = ubrmsd d 0 /\ aad e = aad d /\ RSS e = INR k * RSS d
  /\ forall betainc, option_map fst (pearson_of betainc e) = option_map fst (pearson_of betainc d).
Proof.
  intros N K P. pose proof (rep_ne d k e N K P) as NE.
  pose proof (rep_rmean d k e N K P) as M.
  assert (X : rmean (xs e) = rmean (xs d)) by apply M. assert (Y : rmean (ys e) = rmean (ys d)) by apply M.
  assert (B : bias e = bias d) by (rewrite !bias_mean by assumption; f_equal; apply M).
  assert (E : rmsd e 0 = rmsd d 0) by (rewrite !rmsd_correct by assumption; f_equal; f_equal; apply M).
  assert (Q : msd e = msd d) by (rewrite !msd_correct by assumption; f_equal; apply M).
  split; [exact B|]. split; [exact Q|]. split; [exact E|]. split.
  { destruct (C48_pythagoras e NE) as (e1 & u1 & b1 & E1 & U1 & B1 & S1). destruct (C48_pythagoras d N) as (e2 & u2 & b2 & E2 & U2 & B2 & S2).
    assert (e1 = e2) by congruence. assert (b1 = b2) by congruence. subst e2 b2.
    rewrite ubrmsd_correct in U1 by exact NE. rewrite ubrmsd_correct in U2 by exact N. rewrite !ubrmsd_correct by assumption. f_equal.
    assert (A1 : 0 <= u1) by (injection U1 as <-; apply sqrt_pos). assert (A2 : 0 <= u2) by (injection U2 as <-; apply sqrt_pos).
    assert (u1 = u2) by nra. congruence. }
  split; [rewrite !aad_correct by assumption; f_equal; apply M|].
  split; [rewrite !rss_sum; apply (rep_rsum d k e P)|].
  intros betainc.
  assert (C : forall f : R * R -> R, constant (map f e) <-> constant (map f d)).
  { intros f. unfold constant. split; intros H u v Iu Iv; apply H; rewrite in_map_iff in *;
      [destruct Iu as (a & <- & Ia); exists a|destruct Iv as (a & <- & Ia); exists a|destruct Iu as (a & <- & Ia); exists a|destruct Iv as (a & <- & Ia); exists a];
      (split; [reflexivity|]); apply (rep_in d k e K P); exact Ia. }
  assert (CC : correlation e = correlation d).
  { assert (C1 : cov e = cov d) by (unfold cov; rewrite X, Y; apply M).
    assert (S1 : std (xs e) = std (xs d)) by (unfold std, var; rewrite X; unfold xs; rewrite !map_map; f_equal; apply M).
    assert (S2 : std (ys e) = std (ys d)) by (unfold std, var; rewrite Y; unfold ys; rewrite !map_map; f_equal; apply M).
    unfold correlation. rewrite C1, S1, S2. reflexivity. }
  destruct (pearson_of betainc d) as [[r p]|] eqn:E0.
  - assert (ND : ~ (d = [] \/ constant (xs d) \/ constant (ys d))) by (rewrite <- (C47_undefined betainc d), E0; discriminate).
    assert (CX : ~ constant (xs d)) by tauto. assert (CY : ~ constant (ys d)) by tauto.
    destruct (C47_value betainc d N CX CY) as (p1 & E1 & _).
    destruct (C47_value betainc e NE) as (p2 & E2 & _); [intros H; apply CX, (C fst), H|intros H; apply CY, (C snd), H|].
    rewrite E2. cbn. rewrite CC. congruence.
  - apply C47_undefined in E0. assert (U : pearson_of betainc e = None).
    { apply C47_undefined. right. destruct E0 as [E0|[E0|E0]]; [contradiction|left; apply (C fst), E0|right; apply (C snd), E0]. }
    rewrite U. reflexivity.
Qed.
Example C129_repeated_case : let d := [(0, 10); (1, 11); (5, 7)] in let e := [(0, 10); (0, 10); (1, 11); (1, 11); (5, 7); (5, 7)] in
  d <> [] /\ Permutation e (List.concat (repeat d 2)).
Proof.
  cbv zeta. split; [discriminate|]. cbn. apply perm_skip.
  apply Permutation_trans with [(1, 11); (5, 7); (0, 10); (1, 11); (5, 7)]; [|apply Permutation_refl].
  apply Permutation_sym. apply (Permutation_cons_app [(0, 10)] _ _). cbn. apply Permutation_sym. 
  apply Permutation_trans with [(0, 10); (5, 7); (1, 11); (5, 7)]; [apply perm_skip, perm_swap|apply perm_swap].
Qed.
Print Assumptions C129_repeated.
