(* Metrics that do not depend on the order of their two arguments. *)
From Verif Require Import BaseProofs DfMetricsModel DfMetricsSpec MetricsModel MetricsSpec MetricsProofs MetricsProofs2 TcolModel DfWrapModel.
From Coq Require Import Reals Qreals Lra.
Open Scope R_scope.

Lemma fold_swap {A} (g h : A -> R * R -> A) d : (forall a p, g a (snd p, fst p) = h a p) -> forall a, fold_left g (swap d) a = fold_left h d a.
Proof. intros E. induction d as [|p d IH]; intros a; cbn; [reflexivity|]. rewrite E. apply IH. Qed.
Lemma RSS_swap d : RSS (swap d) = RSS d.
Proof. unfold RSS. apply fold_swap. intros a p. cbn [fst snd]. ring. Qed.
Lemma msd_swap d : msd (swap d) = msd d.
Proof. unfold msd. rewrite RSS_swap, rlen_swap. reflexivity. Qed.
Lemma rmsd_swap d k : rmsd (swap d) k = rmsd d k.
Proof. unfold rmsd. rewrite msd_swap, RSS_swap, rlen_swap. reflexivity. Qed.
Lemma r_max_spec l : forall x, (forall y, In y (x :: l) -> y <= r_max x l) /\ In (r_max x l) (x :: l).
Proof.
  induction l as [|z l IH]; intros x; cbn [r_max].
  - split; [intros y [->|[]]; lra|left; reflexivity].
  - destruct (IH (Rmax x z)) as [H1 H2]. split.
    + intros y [->|[->|I1]]; [|apply Rle_trans with (Rmax x y); [apply Rmax_r|apply H1; left; reflexivity]|apply H1; right; exact I1]. apply Rle_trans with (Rmax y z); [apply Rmax_l|apply H1; left; reflexivity].
    + destruct H2 as [H2|H2]; [|right; right; exact H2]. rewrite <- H2. unfold Rmax. destruct (Rle_dec x z); [right; left|left]; reflexivity.
Qed.
Lemma r_min_spec l : forall x, (forall y, In y (x :: l) -> r_min x l <= y) /\ In (r_min x l) (x :: l).
Proof.
  induction l as [|z l IH]; intros x; cbn [r_min].
  - split; [intros y [->|[]]; lra|left; reflexivity].
  - destruct (IH (Rmin x z)) as [H1 H2]. split.
    + intros y [->|[->|I1]]; [|apply Rle_trans with (Rmin x y); [apply H1; left; reflexivity|apply Rmin_r]|apply H1; right; exact I1]. apply Rle_trans with (Rmin y z); [apply H1; left; reflexivity|apply Rmin_l].
    + destruct H2 as [H2|H2]; [|right; right; exact H2]. rewrite <- H2. unfold Rmin. destruct (Rle_dec x z); [left|right; left]; reflexivity.
Qed.
Lemma nrmsd_swap d k : nrmsd (swap d) k = nrmsd d k.
Proof.
  unfold nrmsd. rewrite xs_swap, ys_swap. assert (P : forall x, In x (ys d ++ xs d) <-> In x (xs d ++ ys d)) by (intros x; rewrite !in_app_iff; tauto).
  destruct (ys d ++ xs d) as [|v r] eqn:E1, (xs d ++ ys d) as [|w q] eqn:E2; [reflexivity| | |].
  - destruct (proj2 (P w) (or_introl eq_refl)).
  - destruct (proj1 (P v) (or_introl eq_refl)).
  - rewrite rmsd_swap. destruct (r_max_spec r v) as [A1 A2], (r_max_spec q w) as [B1 B2], (r_min_spec r v) as [C1 C2], (r_min_spec q w) as [D1 D2].
    replace (r_max v r) with (r_max w q) by (apply Rle_antisym; [apply A1, P, B2|apply B1, P, A2]).
    replace (r_min v r) with (r_min w q) by (apply Rle_antisym; [apply D1, P, C2|apply C1, P, D2]). reflexivity.
Qed.
Lemma ubrmsd_swap d k : ubrmsd (swap d) k = ubrmsd d k.
Proof.
  unfold ubrmsd. destruct (Req_EM_T k 0).
  - unfold c_ubrmsd. rewrite rlen_swap. rewrite (fold_swap (fun s p => s + fst p) (fun s p => s + snd p)), (fold_swap (fun s p => s + snd p) (fun s p => s + fst p)) by reflexivity.
    destruct (fdiv (fold_left (fun s p => s + snd p) d 0) (rlen d)) as [my|]; cbn [obind]; [|destruct (fdiv (fold_left _ d 0) (rlen d)); reflexivity].
    destruct (fdiv (fold_left (fun s p => s + fst p) d 0) (rlen d)) as [mx|]; cbn [obind]; [|reflexivity].
    f_equal. f_equal. apply fold_swap. intros a p. cbn [fst snd]. ring.
  - rewrite xs_swap, ys_swap, rlen_swap. destruct (np_mean (ys d)) as [my|]; cbn [obind]; [|destruct (np_mean (xs d)); reflexivity].
    destruct (np_mean (xs d)) as [mx|]; cbn [obind]; [|reflexivity].
    replace (map (fun p => (fst p - my, snd p - mx)) (swap d)) with (swap (map (fun p => (fst p - mx, snd p - my)) d)) by (unfold swap; rewrite !map_map; reflexivity).
    rewrite RSS_swap. reflexivity.
Qed.
Definition flip (m : moments) : moments := Moments (m_y m) (m_x m) (m_vy m) (m_vx m) (m_cov m).
Lemma moments_swap d : moments_welford (swap d) = omap flip (moments_welford d).
Proof.
  destruct d as [|p d].
  - unfold moments_welford. cbn. unfold rlen. cbn. unfold fdiv. destruct (Req_EM_T 0 0); [reflexivity|lra].
  - assert (N : p :: d <> []) by discriminate. rewrite (welford_correct _ N), (welford_correct _ (swap_ne _ N)). cbn [omap flip m_x m_y m_vx m_vy m_cov]. rewrite xs_swap, ys_swap, cov_swap. reflexivity.
Qed.
Lemma mse_corr_swap d : mse_corr (swap d) = mse_corr d.
Proof. unfold mse_corr. rewrite moments_swap. destruct (moments_welford d); [|reflexivity]. cbn [omap]. f_equal. unfold mse_corr_from_moments. cbn. f_equal. ring. Qed.
Lemma mse_var_swap d : mse_var (swap d) = mse_var d.
Proof. unfold mse_var. rewrite moments_swap. destruct (moments_welford d); [|reflexivity]. cbn [omap]. f_equal. unfold mse_var_from_moments. cbn. ring. Qed.
Lemma mse_bias_swap d : mse_bias (swap d) = mse_bias d.
Proof.
  destruct d as [|p d]; [reflexivity|]. assert (N : p :: d <> []) by discriminate. unfold mse_bias. rewrite (bias_correct _ N), (bias_correct _ (swap_ne _ N)), xs_swap, ys_swap. cbn [omap]. f_equal. ring.
Qed.
Lemma decomposition_swap d : mse_decomposition (swap d) = mse_decomposition d.
Proof.
  unfold mse_decomposition. rewrite moments_swap. destruct (moments_welford d) as [m|]; [|reflexivity]. cbn [omap]. f_equal. unfold mse_corr_from_moments, mse_var_from_moments, mse_bias_from_moments. cbn [flip m_x m_y m_vx m_vy m_cov].
  replace (2 * sqrt (m_vy m) * sqrt (m_vx m)) with (2 * sqrt (m_vx m) * sqrt (m_vy m)) by ring. f_equal; [|ring]. f_equal; [|ring]. f_equal. ring.
Qed.

(* ---- the three columns of a triple collocation in another order ---- *)
Section Order.
Variable p : nat -> nat.
Hypothesis P : exists a b c, p 0%nat = a /\ p 1%nat = b /\ p 2%nat = c /\ In [a; b; c] [[0; 1; 2]; [0; 2; 1]; [1; 0; 2]; [1; 2; 0]; [2; 0; 1]; [2; 1; 0]]%nat.
Ltac six := destruct P as (a & b & c & P0 & P1 & P2 & [E|[E|[E|[E|[E|[E|[]]]]]]]); injection E as <- <- <-.
Variable C : matrix.
Hypothesis SYM : forall a b, C a b = C b a.
Let D : matrix := fun i j => C (p i) (p j).
Lemma snr_order i : (i < 3)%nat -> tc_snr D i = tc_snr C (p i).
Proof.
  intros H. unfold tc_snr, D. six; (destruct i as [|[|[|]]]; [| | |lia]); cbn [cyc nth Nat.add]; rewrite ?P0, ?P1, ?P2; cbn [cyc nth Nat.add];
  try reflexivity; f_equal; match goal with |- fdiv ?a ?b = fdiv ?c ?d => replace a with c by (first [reflexivity|rewrite (SYM 1 0), (SYM 2 0), (SYM 2 1); ring|rewrite (SYM 1 0), (SYM 2 0); ring|rewrite (SYM 2 1); ring| rewrite (SYM 1 2); ring |rewrite (SYM 2 0);ring|rewrite (SYM 0 2);ring|rewrite (SYM 1 0);ring|rewrite (SYM 0 1); ring]); replace b with d by (first [ring]); reflexivity end.
Qed.
Lemma err_order i : (i < 3)%nat -> tc_err_var D i = tc_err_var C (p i).
Proof.
  intros H. unfold tc_err_var, D. six; (destruct i as [|[|[|]]]; [| | |lia]); cbn [cyc nth Nat.add]; rewrite ?P0, ?P1, ?P2; cbn [cyc nth Nat.add];
  try reflexivity; f_equal; match goal with |- fdiv ?a ?b = fdiv ?c ?d => replace b with d by (first [reflexivity|apply SYM]); replace a with c by ring; reflexivity end.
Qed.
Lemma beta_order r i : (r < 3)%nat -> (i < 3)%nat -> tc_beta D r i = tc_beta C (p r) (p i).
Proof.
  intros R H. unfold tc_beta, D. six; (destruct i as [|[|[|]]]; [| | |lia]); (destruct r as [|[|[|]]]; [| | |lia]); rewrite ?P0, ?P1, ?P2; cbn [Nat.eqb third filter negb hd]; rewrite ?P0, ?P1, ?P2; reflexivity.
Qed.
End Order.
