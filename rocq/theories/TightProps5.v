(* The error correlation of extended collocation (C64) and the levels of the BCa interval (C65). *)
From Coq Require Import Reals List Lra Lia.
From Verif Require Import Base RStats RStatsProofs MetricsModel MetricsProofs RollingModel TcolModel TcolSpec TcolProofs TcolProofs2 TcolProps ConfintModel ConfintProofs ConfintProps.
Import ListNotations.
Open Scope R_scope.

(* ---- C64 ---- *)
Lemma ecol_corr lstsq n C co ec ae r : ecol_from_cov lstsq n C co ec ae = Ok r ->
  (forall p, In p co -> (fst p < n)%nat /\ (snd p < n)%nat) ->
  exists r0, ecol_from_cov lstsq n C co ec false = Ok r0 /\ e_cov r0 = e_cov r /\
    e_corr r = map (fun pv => obind (np_sqrt (nth (fst (fst pv)) (e_err r0) 0 * nth (snd (fst pv)) (e_err r0) 0)) (fun s => fdiv (snd pv) s)) (combine co (e_cov r)).
Proof.
  unfold ecol_from_cov. cbn zeta. destruct (lstsq _ _ _) as [x|]; [|discriminate]. intros H B. injection H as <-. eexists. split; [reflexivity|]. cbn [e_cov e_corr e_err]. split; [reflexivity|].
  apply map_ext_in. intros [p v] I. apply in_combine_l in I. destruct (B p I) as [B1 B2]. cbn [fst snd].
  assert (E : forall i, (i < n)%nat -> nth i (map (fun i => x (n + List.length co + i)%nat) (seq 0 n)) 0 = x (n + List.length co + i)%nat).
  { intros i Hi. set (f := fun i => x (n + List.length co + i)%nat). rewrite (nth_indep _ 0 (f 0%nat)) by (rewrite map_length, seq_length; exact Hi). rewrite map_nth, seq_nth by exact Hi. reflexivity. }
  rewrite !E by assumption. reflexivity.
Qed.

(* the error correlation is the error covariance over the product of the two error standard deviations,
   and under the error model it is recovered exactly *)
Theorem C64_correlation lstsq n C s b e eps co ae : least_squares lstsq -> correlated_error_model n C s b e eps co -> 0 < s ->
  (forall i, (i < n)%nat -> b i <> 0 /\ 0 < e i) -> identifiable n co ->
  exists r, ecol_from_cov lstsq n C co None ae = Ok r /\
    e_corr r = map (fun p => Some (eps (fst p) (snd p) / (sqrt (e (fst p)) * sqrt (e (snd p))))) co.
Proof.
  intros LS EM S0 BE ID. destruct (C64_recovers lstsq n C s b e eps co ae LS EM S0 BE ID) as (r & ER & _ & _ & EC & _).
  exists r. split; [exact ER|]. assert (B : forall p, In p co -> (fst p < n)%nat /\ (snd p < n)%nat) by (intros p I; destruct (proj2 ID p I) as (L1 & L2 & _); auto).
  destruct (ecol_corr _ _ _ _ _ _ _ ER B) as (r0 & E0 & C0 & CO). destruct (C64_recovers lstsq n C s b e eps co false LS EM S0 BE ID) as (r1 & ER1 & _ & EE & _).
  assert (r1 = r0) by congruence. subst r1. rewrite CO, EC, EE.
  assert (N : forall i, (i < n)%nat -> nth i (map e (seq 0 n)) 0 = e i).
  { intros i Hi. rewrite (nth_indep _ 0 (e 0%nat)) by (rewrite map_length, seq_length; exact Hi). rewrite map_nth, seq_nth by exact Hi. reflexivity. }
  clear - B N BE. induction co as [|p co IH]; [reflexivity|]. cbn [combine map fst snd]. destruct (B p (or_introl eq_refl)) as [B1 B2]. f_equal; [|apply IH; intros q I; apply B; right; exact I].
  rewrite !N by assumption. destruct (BE _ B1) as [_ P1]. destruct (BE _ B2) as [_ P2].
  unfold np_sqrt. destruct (Rlt_dec _ 0) as [L|_]; [exfalso; pose proof (Rmult_lt_0_compat _ _ P1 P2); lra|]. cbn [obind].
  rewrite sqrt_mult by lra. apply fdiv_some. pose proof (sqrt_lt_R0 _ P1). pose proof (sqrt_lt_R0 _ P2). nra.
Qed.
Example C64_ex_correlation : exists lstsq r, least_squares lstsq /\ ecol_from_cov lstsq 4 C4 [(0, 1)]%nat None true = Ok r /\
  e_corr r = [Some (1 / 2 / (sqrt 1 * sqrt 2))].
Proof.
  destruct solver_exists as (lstsq & LS). destruct C4_model as (EM & BE & ID).
  destruct (C64_correlation lstsq 4 C4 2 b4 e4 eps4 [(0, 1)]%nat true LS EM ltac:(lra) BE ID) as (r & ER & EC).
  exists lstsq, r. split; [exact LS|]. split; [exact ER|]. rewrite EC. cbn [map fst snd]. unfold eps4, e4. cbn [Nat.eqb andb orb INR].
  repeat f_equal; lra.
Qed.
Print Assumptions C64_correlation.

(* ---- C65: the two levels of the BCa interval, written out ---- *)
Theorem C65_levels ppf cdf bs (m : R) alpha jk p z0 a lo up :
  share_not_above bs (Some m) = Some p -> ppf p = Some z0 -> acceleration jk = Some a ->
  ppf alpha = Some lo -> ppf (1 - alpha) = Some up ->
  1 - a * (z0 + lo) <> 0 -> 1 - a * (z0 + up) <> 0 -> vals bs <> [] -> (forall z, 0 <= cdf z <= 1) ->
  BCa_bs_ci ppf cdf bs (Some m) alpha jk =
  Ok (Some (quantile (vals bs) (cdf (z0 + (z0 + lo) / (1 - a * (z0 + lo))))),
      Some (quantile (vals bs) (cdf (z0 + (z0 + up) / (1 - a * (z0 + up)))))).
Proof.
  intros S0 Z0 A LO UP D1 D2 V RNG. unfold BCa_bs_ci. rewrite S0, A, LO, UP. cbn [obind omap]. rewrite Z0. cbn [obind omap]. unfold adjusted.
  destruct (Req_EM_T (1 - a * (z0 + lo)) 0); [contradiction|]. destruct (Req_EM_T (1 - a * (z0 + up)) 0); [contradiction|].
  assert (NQ : forall z, nanquantile bs (Some (cdf z)) = Ok (Some (quantile (vals bs) (cdf z)))).
  { intros z. specialize (RNG z). unfold nanquantile. destruct (Rlt_dec (cdf z) 0); [exfalso; lra|]. destruct (Rlt_dec 1 (cdf z)); [exfalso; lra|].
    destruct (vals bs); [contradiction|reflexivity]. }
  rewrite !NQ. reflexivity.
Qed.
(* the share of bootstrapped values that are not above the estimate is 1/2, the acceleration vanishes *)
Example C65_ex_levels : share_not_above [Some 0; Some 1] (Some (1 / 2)) = Some (1 / 2) /\ acceleration [Some 1; Some 0] = Some 0 /\
  exists ppf cdf, normal_like ppf cdf /\ (forall z, 0 <= cdf z <= 1) /\ ppf (1 / 2) = Some 0 /\ exists lo up, ppf (1 / 4) = Some lo /\ ppf (1 - 1 / 4) = Some up /\ 1 - 0 * (0 + lo) <> 0.
Proof.
  split; [exact ex_share|]. split; [apply ex_accel; lra|]. destruct normal_like_exists as (ppf & cdf & I & M & MO & RN).
  exists ppf, cdf. split; [exact (conj I (conj M (conj MO RN)))|]. split; [intros z; specialize (RN z); lra|]. split; [exact M|].
  destruct (I (1 / 4) ltac:(lra)) as (lo & E1 & _). destruct (I (1 - 1 / 4) ltac:(lra)) as (up & E2 & _). exists lo, up. repeat split; try assumption. lra.
Qed.
Print Assumptions C65_levels.
