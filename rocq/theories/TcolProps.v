(* C51: triple collocation recovers the parameters of its error model.
   C64: extended collocation. *)
From Coq Require Import Reals List Lra Lia Psatz.
From Verif Require Import Base.
From Verif Require Import RStats RStatsProofs MetricsModel MetricsSpec MetricsProofs TcolModel TcolSpec TcolProofs TcolProofs2.
Open Scope R_scope.

(* ---- C51 ---- *)
Theorem C51_recovers C s b e ref : error_model 3 C s b e -> 0 < s -> (forall i, (i < 3)%nat -> b i <> 0 /\ 0 < e i) -> (ref < 3)%nat ->
  tcol_metrics_from_cov C ref =
  Ok (map (fun i => Some (dB (b i * b i * s / e i))) [0; 1; 2]%nat,
      map (fun i => Some (sqrt (e i) * (b ref / b i))) [0; 1; 2]%nat,
      map (fun i => Some (b ref / b i)) [0; 1; 2]%nat).
Proof.
  intros EM SP BE Hr. unfold tcol_metrics_from_cov. apply Nat.ltb_lt in Hr as Hb. rewrite Hb.
  assert (B0 : forall i, (i < 3)%nat -> b i <> 0) by (intros i Hi; apply BE, Hi). assert (S0 : s <> 0) by lra.
  assert (I3 : forall i, In i [0; 1; 2]%nat -> (i < 3)%nat) by (cbn; lia).
  f_equal. f_equal; [f_equal|]; apply map_ext_in; intros i Hi; apply I3 in Hi.
  - apply (tc_snr_model C s b e EM S0 B0); [exact SP|apply BE, Hi|exact Hi].
  - apply (tc_err_std_model C s b e EM S0 B0); [left; apply BE, Hi|exact Hr|exact Hi].
  - apply (tc_beta_model C s b e EM S0 B0); assumption.
Qed.

(* the same for data: the sample covariances of the three columns follow the error model *)
Theorem C51_recovers_data rows s b e ref : (2 <= List.length rows)%nat -> error_model 3 (cov1 rows) s b e -> 0 < s ->
  (forall i, (i < 3)%nat -> b i <> 0 /\ 0 < e i) -> (ref < 3)%nat ->
  tcol_metrics rows ref =
  Ok (map (fun i => Some (dB (b i * b i * s / e i))) [0; 1; 2]%nat,
      map (fun i => Some (sqrt (e i) * (b ref / b i))) [0; 1; 2]%nat,
      map (fun i => Some (b ref / b i)) [0; 1; 2]%nat).
Proof. intros L EM SP BE Hr. unfold tcol_metrics. rewrite np_cov_some by exact L. apply C51_recovers; assumption. Qed.

(* the squared error standard deviation is the error variance expressed in units of the reference *)
Theorem C51_error_variance C s b e ref i : error_model 3 C s b e -> s <> 0 -> (forall i, (i < 3)%nat -> b i <> 0 /\ 0 <= e i) -> (ref < 3)%nat -> (i < 3)%nat ->
  exists v, tc_err_std C ref i = Some v /\ v * v = e i * (b ref / b i * (b ref / b i)).
Proof.
  intros EM S0 BE Hr Hi. assert (B0 : forall i, (i < 3)%nat -> b i <> 0) by (intros j Hj; apply BE, Hj).
  destruct (BE i Hi) as [_ EP]. eexists. split; [apply (tc_err_std_model C s b e EM S0 B0); assumption|].
  transitivity (sqrt (e i) * sqrt (e i) * (b ref / b i * (b ref / b i))); [ring|]. rewrite sqrt_sqrt by exact EP. reflexivity.
Qed.

(* noise-free columns, all linear functions of one non-constant signal: no error, and the scaling
   coefficients are the ratios of the gains *)
Theorem C51_noise_free rows (t : (nat -> R) -> R) (g o : nat -> R) ref i : (2 <= List.length rows)%nat ->
  (forall r j, In r rows -> (j < 3)%nat -> r j = o j + g j * t r) -> (forall j, (j < 3)%nat -> g j <> 0) ->
  rsum (map (fun r => (t r - rmean (map t rows)) * (t r - rmean (map t rows))) rows) <> 0 -> (ref < 3)%nat -> (i < 3)%nat ->
  tc_err_std (cov1 rows) ref i = Some 0 /\ tc_beta (cov1 rows) ref i = Some (g ref / g i).
Proof.
  intros L H G V Hr Hi. set (s := rsum (map (fun r => (t r - rmean (map t rows)) * (t r - rmean (map t rows))) rows) / (rlen rows - 1)).
  assert (N1 : rlen rows - 1 <> 0) by (unfold rlen; apply le_INR in L; cbn in L; lra).
  assert (S0 : s <> 0). { unfold s, Rdiv. apply prod_ne; [exact V|apply Rinv_neq_0_compat, N1]. }
  assert (CE : forall j k, (j < 3)%nat -> (k < 3)%nat -> cov1 rows j k = g j * g k * s) by (intros j k Hj Hk; apply (cov1_linear rows t g o); [exact L|intros r I; split; apply H; assumption]).
  assert (EM : error_model 3 (cov1 rows) s g (fun _ => 0)) by (split; [intros j Hj; rewrite CE by exact Hj; ring|intros j k Hj Hk _; apply CE; assumption]).
  split; [|apply (tc_beta_model _ s g (fun _ => 0) EM S0 G); assumption].
  rewrite (tc_err_std_model _ s g (fun _ => 0) EM S0 G) by (lra || assumption). rewrite sqrt_0, Rmult_0_l. reflexivity.
Qed.

(* for every covariance matrix: multiplying the columns by nonzero factors leaves the SNR unchanged,
   scales beta by g_ref/g_i and the error by the factor of the reference (up to sign) *)
Theorem C51_rescaling g C ref i : (forall j, (j < 3)%nat -> g j <> 0) -> (ref < 3)%nat -> (i < 3)%nat ->
  let C' := fun j k => g j * g k * C j k in
  tc_snr C' i = tc_snr C i /\
  tc_beta C' ref i = omap (fun v => g ref / g i * v) (tc_beta C ref i) /\
  (0 < g i -> tc_err_std C' ref i = omap (fun v => g ref * v) (tc_err_std C ref i)).
Proof.
  intros G Hr Hi. change (fun j k => g j * g k * C j k) with (rescaled g C). cbn zeta.
  split; [apply snr_rescaled; assumption|]. split; [apply beta_rescaled; assumption|]. intros GP.
  unfold tc_err_std. rewrite err_var_rescaled, beta_rescaled by assumption. destruct (tc_err_var C i) as [v|]; [cbn [omap obind]|reflexivity].
  unfold np_sqrt. assert (GG : 0 < g i * g i) by nra. destruct (Rlt_dec v 0) as [N|N], (Rlt_dec (g i * g i * v) 0) as [N'|N']; try reflexivity; try (exfalso; nra). cbn [obind].
  rewrite sqrt_mult by nra. rewrite sqrt_square by lra. destruct (tc_beta C ref i) as [bt|]; cbn; [|reflexivity]. f_equal. field. apply Rgt_not_eq, GP.
Qed.

(* a reference index outside the three datasets raises an error *)
Theorem C51_reference_range C ref : (3 <= ref)%nat -> tcol_metrics_from_cov C ref = Err EIndex.
Proof. intros H. unfold tcol_metrics_from_cov. destruct (Nat.ltb_spec ref 3); [lia|reflexivity]. Qed.

(* the deprecated tcol_snr agrees under the error model *)
Theorem C51_deprecated C s b e i : error_model 3 C s b e -> 0 < s -> (forall i, (i < 3)%nat -> b i <> 0 /\ 0 < e i) -> (i < 3)%nat ->
  old_snr C i = tc_snr C i.
Proof.
  intros EM SP BE Hi. assert (B0 : forall i, (i < 3)%nat -> b i <> 0) by (intros j Hj; apply BE, Hj). assert (S0 : s <> 0) by lra.
  rewrite (old_snr_model C s b e EM S0 B0), (tc_snr_model C s b e EM S0 B0); try assumption; try reflexivity; apply BE, Hi.
Qed.

(* tcol_error: three series with a common signal and pairwise orthogonal errors give the rms of the errors *)
Theorem C51_tcol_error rows (t : (nat -> R) -> R) (a : nat -> (nat -> R) -> R) : rows <> [] ->
  (forall r m, In r rows -> (m < 3)%nat -> r m = t r + a m r) ->
  (forall i j, (i < 3)%nat -> (j < 3)%nat -> i <> j -> rsum (map (fun r => a i r * a j r) rows) = 0) ->
  tcol_error rows = (Some (sqrt (rmean (map (fun r => a 0%nat r * a 0%nat r) rows))),
                     Some (sqrt (rmean (map (fun r => a 1%nat r * a 1%nat r) rows))),
                     Some (sqrt (rmean (map (fun r => a 2%nat r * a 2%nat r) rows)))).
Proof.
  intros NE H O. unfold tcol_error. f_equal; [f_equal|]; apply (tc_product_orth rows t a); try exact NE; try (apply O; lia);
    intros r m I M; apply H; try exact I; cbn in M; lia.
Qed.

(* what fails: for gains of opposite sign the "error standard deviation" is negative *)
Theorem C51_error_sign_refuted : exists C s b e v, error_model 3 C s b e /\ 0 < s /\ (forall i, (i < 3)%nat -> b i <> 0 /\ 0 < e i) /\
  tc_err_std C 0 1 = Some v /\ v < 0.
Proof.
  pose (b := fun i : nat => if Nat.eqb i 1 then -1 else 1). pose (e := fun _ : nat => 1).
  exists (fun i j => b i * b j * 1 + (if Nat.eqb i j then 1 else 0)), 1, b, e, (-1).
  assert (EM : error_model 3 (fun i j => b i * b j * 1 + (if Nat.eqb i j then 1 else 0)) 1 b e).
  { split; [intros i Hi; rewrite Nat.eqb_refl; reflexivity|intros i j Hi Hj NE; apply Nat.eqb_neq in NE; rewrite NE; ring]. }
  assert (B0 : forall i, (i < 3)%nat -> b i <> 0) by (intros i Hi; unfold b; destruct (Nat.eqb i 1); lra).
  split; [exact EM|]. split; [lra|]. split; [intros i Hi; split; [apply B0, Hi|unfold e; lra]|]. split; [|lra].
  rewrite (tc_err_std_model _ 1 b e EM ltac:(lra) B0) by (unfold e; lra || lia). unfold e, b. cbn [Nat.eqb]. rewrite sqrt_1. f_equal. field.
Qed.

(* what fails: a valid covariance matrix can have a negative estimated error variance: the error is NaN
   while the SNR is reported as a finite number *)
Theorem C51_error_defined_refuted : exists C : matrix, (forall i j, C i j = C j i) /\
  (forall v : nat -> R, 0 <= rsum (map (fun i => rsum (map (fun j => v i * v j * C i j) [0; 1; 2]%nat)) [0; 1; 2]%nat)) /\
  tc_err_std C 0 0 = None /\ exists snr, tc_snr C 0 = Some snr.
Proof.
  exists (fun i j => if Nat.eqb i j then 1 else if Nat.eqb (i + j) 3 then 45 / 100 else 7 / 10). split; [|split; [|split]].
  - intros i j. rewrite (Nat.eqb_sym i j), (Nat.add_comm i j). reflexivity.
  - intros v. cbn. set (x := v 0%nat). set (y := v 1%nat). set (z := v 2%nat).
    pose proof (sq_nonneg (x + 7 / 10 * y + 7 / 10 * z)). pose proof (sq_nonneg (y - z)). pose proof (sq_nonneg y). pose proof (sq_nonneg z). nra.
  - unfold tc_err_std, tc_err_var, cyc. cbn [plus nth Nat.eqb]. rewrite fdiv_some by lra. cbn [omap obind]. unfold np_sqrt. destruct (Rlt_dec _ 0); [reflexivity|exfalso; lra].
  - unfold tc_snr, cyc. cbn [plus nth Nat.eqb]. rewrite fdiv_some by lra. cbn [obind].
    replace (1 * (45 / 100) / (7 / 10 * (7 / 10))) with (45 / 49) by field. rewrite (Rabs_pos_eq (45 / 49)) by lra. rewrite Rabs_left by lra.
    rewrite fdiv_some by lra. cbn [obind]. unfold np_log10. destruct (Rlt_dec 0 _) as [L|N]; [eexists; reflexivity|].
    exfalso. apply N. apply Rmult_lt_0_compat; [lra|apply Rinv_0_lt_compat; lra].
Qed.

(* eight rows of a factorial design: signal t, errors a, b and c = t a b, columns t + a, 2 t + b, 3 c - t *)
Definition row3 (t a b : R) : nat -> R := fun i => match i with 0%nat => t + a | 1%nat => 2 * t + b | _ => 3 * (t * a * b) - t end.
Definition rows8 : list (nat -> R) :=
  [row3 1 1 1; row3 1 1 (-1); row3 1 (-1) 1; row3 1 (-1) (-1); row3 (-1) 1 1; row3 (-1) 1 (-1); row3 (-1) (-1) 1; row3 (-1) (-1) (-1)].
Definition gains3 : nat -> R := fun i => match i with 0%nat => 1 | 1%nat => 2 | _ => -1 end.
Definition errors3 : nat -> R := fun i => match i with 2%nat => 72 / 7 | _ => 8 / 7 end.
Example rows8_model : error_model 3 (cov1 rows8) (8 / 7) gains3 errors3 /\ (forall i, (i < 3)%nat -> gains3 i <> 0 /\ 0 < errors3 i).
Proof.
  assert (L : forall i, (i < 3)%nat -> i = 0%nat \/ i = 1%nat \/ i = 2%nat) by (intros; lia).
  split; [split|].
  - intros i Hi. destruct (L i Hi) as [->|[->| ->]]; unfold cov1, rmean, rlen, rows8, row3, gains3, errors3; cbn; field.
  - intros i j Hi Hj NE. destruct (L i Hi) as [->|[->| ->]], (L j Hj) as [->|[->| ->]]; try (exfalso; apply NE; reflexivity);
      unfold cov1, rmean, rlen, rows8, row3, gains3, errors3; cbn; field.
  - intros i Hi. destruct (L i Hi) as [->|[->| ->]]; unfold gains3, errors3; cbn; lra.
Qed.
Example rows8_tcol : exists snr err, tcol_metrics rows8 1 = Ok (snr, err, [Some 2; Some 1; Some (-2)]).
Proof.
  destruct rows8_model as [EM BE]. rewrite (C51_recovers_data rows8 (8 / 7) gains3 errors3 1) by (assumption || lra || (cbn; lia)).
  eexists. eexists. f_equal. f_equal. cbn. repeat f_equal; field.
Qed.

(* ---- C64 ---- *)

(* three datasets without correlated errors: the classical signal and error variances *)
Theorem C64_three_datasets lstsq C ae : least_squares lstsq -> (forall i j, C i j = C j i) -> (forall i j, i <> j -> C i j <> 0) ->
  exists r, ecol_from_cov lstsq 3 C [] None ae = Ok r /\
    let a v := if ae then Rabs v else v in
    e_sig r = [a (C 0%nat 1%nat * C 0%nat 2%nat / C 1%nat 2%nat); a (C 1%nat 0%nat * C 1%nat 2%nat / C 0%nat 2%nat); a (C 2%nat 0%nat * C 2%nat 1%nat / C 0%nat 1%nat)] /\
    map Some (e_err r) = map (fun i => omap a (tc_err_var C i)) [0; 1; 2]%nat.
Proof.
  intros LS SY NZ. destruct (ecol_value lstsq LS 3 C [] None ae (identifiable_estimable 3 [] (identifiable_nil 3 (le_n 3)))) as (r & ER & ES & EE & _).
  exists r. split; [exact ER|]. rewrite ES, EE. cbn [subtract seq map].
  assert (S0 : sig_est 3 C [] 0 = C 0%nat 1%nat * C 0%nat 2%nat / C 1%nat 2%nat) by (rewrite sig_est_nil; unfold rmean, rlen; cbn; field; apply NZ; discriminate).
  assert (S1 : sig_est 3 C [] 1 = C 1%nat 0%nat * C 1%nat 2%nat / C 0%nat 2%nat) by (rewrite sig_est_nil; unfold rmean, rlen; cbn; field; apply NZ; discriminate).
  assert (S2 : sig_est 3 C [] 2 = C 2%nat 0%nat * C 2%nat 1%nat / C 0%nat 1%nat) by (rewrite sig_est_nil; unfold rmean, rlen; cbn; field; apply NZ; discriminate).
  rewrite S0, S1, S2. split; [reflexivity|].
  unfold tc_err_var, cyc. cbn [plus nth]. rewrite !fdiv_some by (apply NZ; discriminate). cbn [omap].
  rewrite (SY 2%nat 0%nat). unfold abs_if. rewrite (Rmult_comm (C 1%nat 2%nat) (C 1%nat 0%nat)). reflexivity.
Qed.

(* n >= 3 datasets without correlated errors: the signal variance is the average of all triplet estimates *)
Theorem C64_average lstsq n C : least_squares lstsq -> (3 <= n)%nat ->
  exists r, ecol_from_cov lstsq n C [] None false = Ok r /\
    e_sig r = map (fun i => rmean (map (fun ab => C i (fst ab) * C i (snd ab) / C (fst ab) (snd ab)) (comb2 (filter (fun k => negb (Nat.eqb k i)) (seq 0 n))))) (seq 0 n).
Proof.
  intros LS N. destruct (ecol_value lstsq LS n C [] None false (identifiable_estimable n [] (identifiable_nil n N))) as (r & ER & ES & _).
  exists r. split; [exact ER|]. rewrite ES. apply map_ext. intros i. unfold abs_if. rewrite sig_est_nil. reflexivity.
Qed.

(* signal plus error variance is the total variance (without abs_est) *)
Theorem C64_total_variance lstsq n C co : least_squares lstsq -> identifiable n co ->
  exists r, ecol_from_cov lstsq n C co None false = Ok r /\
    map (fun se => fst se + snd se) (combine (e_sig r) (e_err r)) = map (fun i => C i i) (seq 0 n).
Proof.
  intros LS ID. destruct (ecol_value lstsq LS n C co None false (identifiable_estimable n co ID)) as (r & ER & ES & EE & _).
  exists r. split; [exact ER|]. rewrite ES, EE, combine_map', map_map. apply map_ext. intros i. unfold abs_if. cbn [fst snd subtract]. ring.
Qed.

(* error model with correlated errors: everything is recovered exactly *)
Theorem C64_recovers lstsq n C s b e eps co ae : least_squares lstsq -> correlated_error_model n C s b e eps co -> 0 < s ->
  (forall i, (i < n)%nat -> b i <> 0 /\ 0 < e i) -> identifiable n co ->
  exists r, ecol_from_cov lstsq n C co None ae = Ok r /\
    e_sig r = map (fun i => b i * b i * s) (seq 0 n) /\
    e_err r = map e (seq 0 n) /\
    e_cov r = map (fun p => eps (fst p) (snd p)) co /\
    e_snr r = map (fun i => Some (dB (b i * b i * s / e i))) (seq 0 n).
Proof. intros LS EM. exact (ecol_recovers_lemma lstsq n C None s b e eps co ae LS EM). Qed.

(* a known error covariance v of the datasets p and q may be given instead of listing the pair *)
Theorem C64_known_covariance lstsq n C s b e eps co ae p q v : least_squares lstsq -> p <> q -> eps p q = v -> eps q p = v ->
  (forall i, (i < n)%nat -> C i i = b i * b i * s + e i) ->
  (forall i j, (i < n)%nat -> (j < n)%nat -> i <> j -> C i j = b i * b j * s + eps i j) ->
  (forall i j, uncorrelated ((p, q) :: co) i j -> eps i j = 0) ->
  uncorrelated co p q -> 0 < s -> (forall i, (i < n)%nat -> b i <> 0 /\ 0 < e i) -> identifiable n co ->
  exists r, ecol_from_cov lstsq n C co (Some (p, q, v)) ae = Ok r /\
    e_sig r = map (fun i => b i * b i * s) (seq 0 n) /\
    e_err r = map e (seq 0 n) /\
    e_cov r = map (fun p => eps (fst p) (snd p)) co.
Proof.
  intros LS NE E1 E2 CD CO EP [U1 U2] SP BE ID.
  set (k := fun i j => orb (andb (Nat.eqb i p) (Nat.eqb j q)) (andb (Nat.eqb i q) (Nat.eqb j p))).
  set (eps' := fun i j => if k i j then 0 else eps i j).
  assert (KT : forall i j, k i j = true -> (i = p /\ j = q) \/ (i = q /\ j = p)).
  { intros i j H. unfold k in H. apply Bool.orb_true_iff in H as [H|H]; apply andb_prop in H as [H1 H2]; apply Nat.eqb_eq in H1, H2; tauto. }
  assert (KF : forall i j, k i j = false -> ~ (i = p /\ j = q) /\ ~ (i = q /\ j = p)).
  { intros i j H. unfold k in H. split; intros [-> ->]; rewrite !Nat.eqb_refl in H; cbn in H; [discriminate|rewrite Bool.orb_true_r in H; discriminate]. }
  assert (SU : forall i j, subtract C (Some (p, q, v)) i j = if k i j then C i j - v else C i j).
  { intros i j. cbn [subtract]. unfold k. destruct (Nat.eqb_spec i p), (Nat.eqb_spec j q), (Nat.eqb_spec i q), (Nat.eqb_spec j p); subst; cbn; try reflexivity; exfalso; apply NE; congruence. }
  assert (EM : correlated_error_model n (subtract C (Some (p, q, v))) s b e eps' co).
  { split; [|split].
    - intros i Hi. rewrite SU. destruct (k i i) eqn:K; [|apply CD, Hi]. apply KT in K. exfalso. destruct K as [[-> K]|[-> K]]; congruence.
    - intros i j Hi Hj N. rewrite SU. unfold eps'. rewrite CO by assumption. destruct (k i j) eqn:K; [|reflexivity].
      apply KT in K as [[-> ->]|[-> ->]]; [rewrite E1|rewrite E2]; ring.
    - intros i j N1 N2. unfold eps'. destruct (k i j) eqn:K; [reflexivity|]. apply KF in K as [K1 K2]. apply EP. split; intros [E|I]; try contradiction; injection E as <- <-; tauto. }
  destruct (ecol_recovers_lemma lstsq n C (Some (p, q, v)) s b e eps' co ae LS EM SP BE ID) as (r & ER & ES & EE & EC & _).
  exists r. split; [exact ER|]. split; [exact ES|]. split; [exact EE|]. rewrite EC. apply map_ext_in. intros [x y] I. unfold eps'. cbn [fst snd].
  destruct (k x y) eqn:K; [|reflexivity]. exfalso. apply KT in K as [[-> ->]|[-> ->]]; contradiction.
Qed.

(* with two datasets the system is singular: the signal variance cannot be determined *)
Theorem C64_two_datasets C : ~ full_rank (design 2 (all_obs 2 C [])) 4.
Proof.
  intros F. specialize (F (fun c => if Nat.eqb c 0 then 1 else if Nat.eqb c 2 then -1 else 0)). cbn [Nat.eqb] in F.
  assert (E : 1 = 0); [|lra]. apply (F ltac:(cbn; intros r [<-|[<-|[]]]; unfold dot, top_line; cbn; ring) 0%nat ltac:(lia)).
Qed.

(* what fails with abs_est=True (the default): an impossible estimate is hidden, the reported variances do
   not add up to the total variance although C is a valid covariance matrix *)
Theorem C64_abs_est_refuted : forall lstsq, least_squares lstsq -> exists C r, (forall i j, C i j = C j i) /\
  (forall v : nat -> R, 0 <= rsum (map (fun i => rsum (map (fun j => v i * v j * C i j) [0; 1; 2]%nat)) [0; 1; 2]%nat)) /\
  ecol_from_cov lstsq 3 C [] None true = Ok r /\ nth 0 (e_sig r) 0 + nth 0 (e_err r) 0 > C 0%nat 0%nat.
Proof.
  intros lstsq LS. set (C := fun i j => if Nat.eqb i j then 1 else if Nat.eqb (i + j) 3 then 45 / 100 else 7 / 10).
  assert (SY : forall i j, C i j = C j i) by (intros i j; unfold C; rewrite (Nat.eqb_sym i j), (Nat.add_comm i j); reflexivity).
  destruct (ecol_value lstsq LS 3 C [] None true (identifiable_estimable 3 [] (identifiable_nil 3 (le_n 3)))) as (r & ER & ES & EE & _).
  exists C, r. split; [exact SY|]. split; [|split; [exact ER|]].
  - intros v. unfold C. cbn. set (x := v 0%nat). set (y := v 1%nat). set (z := v 2%nat).
    pose proof (sq_nonneg (x + 7 / 10 * y + 7 / 10 * z)). pose proof (sq_nonneg (y - z)). pose proof (sq_nonneg y). pose proof (sq_nonneg z). nra.
  - rewrite ES, EE. cbn [subtract seq map nth]. assert (E : sig_est 3 C [] 0 = 49 / 45) by (rewrite sig_est_nil; unfold C, rmean, rlen; cbn; field).
    rewrite E. unfold abs_if, C. cbn [Nat.eqb]. rewrite (Rabs_pos_eq (49 / 45)) by lra. rewrite Rabs_left by lra. lra.
Qed.

(* concrete: four datasets, the first two with correlated errors *)
Definition b4 : nat -> R := fun i => match i with 0%nat => 1 | 1%nat => 2 | 2%nat => 1 | _ => -3 end.
Definition e4 : nat -> R := fun i => INR i + 1.
Definition eps4 : nat -> nat -> R := fun i j => if orb (andb (Nat.eqb i 0) (Nat.eqb j 1)) (andb (Nat.eqb i 1) (Nat.eqb j 0)) then 1 / 2 else 0.
Definition C4 : matrix := fun i j => if Nat.eqb i j then b4 i * b4 i * 2 + e4 i else b4 i * b4 j * 2 + eps4 i j.
Example C4_model : correlated_error_model 4 C4 2 b4 e4 eps4 [(0, 1)]%nat /\ (forall i, (i < 4)%nat -> b4 i <> 0 /\ 0 < e4 i) /\ identifiable 4 [(0, 1)]%nat.
Proof.
  split; [split; [|split]|split; [|split]].
  - intros i _. unfold C4. rewrite Nat.eqb_refl. reflexivity.
  - intros i j _ _ N. unfold C4. apply Nat.eqb_neq in N. rewrite N. reflexivity.
  - intros i j N1 N2. unfold eps4. destruct (Nat.eqb_spec i 0), (Nat.eqb_spec j 1), (Nat.eqb_spec i 1), (Nat.eqb_spec j 0); subst; cbn in *; try reflexivity; exfalso; tauto.
  - intros i _. unfold b4, e4. split; [destruct i as [|[|[|i]]]; lra|pose proof (pos_INR i); lra].
  - assert (U : forall a b, (2 <= a)%nat \/ (2 <= b)%nat -> uncorrelated [(0, 1)]%nat a b).
    { intros a b H. split; intros [E|[]]; injection E; lia. }
    intros c Hc. destruct c as [|[|[|[|c]]]]; [exists 2%nat, 3%nat|exists 2%nat, 3%nat|exists 0%nat, 3%nat|exists 0%nat, 2%nat|lia]; repeat (split; [first [lia|apply U; lia]|]); apply U; lia.
  - assert (U : forall a b, (2 <= a)%nat \/ (2 <= b)%nat -> uncorrelated [(0, 1)]%nat a b).
    { intros a b H. split; intros [E|[]]; injection E; lia. }
    intros p [<-|[]]. cbn [fst snd]. repeat (split; [lia|]). exists 2%nat, 3%nat. repeat (split; [first [lia|apply U; lia]|]); apply U; lia.
Qed.
(* a solver with the assumed property exists *)
Example solver_exists : exists lstsq, least_squares lstsq.
Proof. exact least_squares_exists. Qed.

Print Assumptions C51_recovers_data.
Print Assumptions C51_noise_free.
Print Assumptions C51_rescaling.
Print Assumptions C51_tcol_error.
Print Assumptions C51_error_sign_refuted.
Print Assumptions C51_error_defined_refuted.
Print Assumptions C64_three_datasets.
Print Assumptions C64_average.
Print Assumptions C64_total_variance.
Print Assumptions C64_recovers.
Print Assumptions C64_known_covariance.
Print Assumptions C64_two_datasets.
Print Assumptions C64_abs_est_refuted.
