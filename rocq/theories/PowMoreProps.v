(* C137, continued: ubRMSD. *)
From Coq Require Import ZArith Reals List Lia Lra Bool.
From Flocq Require Import Core IEEE754.BinarySingleNaN.
From Verif Require Import FloatModel FloatSpec FloatProofs FloatProofs4 FloatProps TypedModel ExpFloatModel ExpFloatSpec ExpFloatProofs BoxFloatProofs GridSpec GridProofs GridProps PowFloatSpec PowFloatProofs PowFloatProps.
Import ListNotations.
Open Scope R_scope.

Lemma fold_map {X} (t : X -> double) l : forall a, fold_left (dbl fadd) (map t l) a = fold_left (fun s x => dbl fadd s (t x)) l a.
Proof. induction l as [|x l IH]; intros a; [reflexivity|]. cbn [map fold_left]. apply IH. Qed.
Lemma mean_map {X} (t : X -> double) l : dbl f_mean (map t l) = dbl fdiv (fold_left (fun s x => dbl fadd s (t x)) l (f0 53 1024)) (dbl of_n (List.length l)).
Proof. unfold f_mean. rewrite map_length, fold_map. reflexivity. Qed.
(* what remains of the pair p without the means mx and my *)
Definition residual (mx my : double) (p : double * double) : double := dbl fsub (dbl fsub (fst p) mx) (dbl fsub (snd p) my).
Definition fair_residuals (d : list (double * double)) : Prop :=
  Forall (fun p => let r := B2R (residual (dbl f_mean (map fst d)) (dbl f_mean (map snd d)) p) in r = 0 \/ bpow radix2 (-480) <= Rabs r) d.
Lemma ubrmsd_eq d : d <> [] -> dbl f_ubrmsd d = dbl fsqrt (dbl fdiv (fold_left (fun s p => dbl fadd s (dbl fsq (residual (dbl f_mean (map fst d)) (dbl f_mean (map snd d)) p))) d (f0 53 1024)) (dbl of_n (List.length d))).
Proof. intros N. rewrite !mean_map. destruct d as [|p d]; [congruence|]. reflexivity. Qed.
Lemma sqrt_arg (x : double) : is_finite (dbl fsqrt x) = true -> is_finite x = true.
Proof. unfold fsqrt. destruct (Bsqrt_correct 53 1024 FloatProps.p53 FloatProps.e1024 mode_NE x) as (_ & E & _). intros F. rewrite F in E. destruct x as [s|s| |s m e B]; try discriminate E; reflexivity. Qed.
Lemma sum_good {X} (t : X -> double) l : Forall (fun x => B2R (t x) = 0 \/ bpow radix2 (-480) <= Rabs (B2R (t x))) l -> good_size (fold_left (fun s x => dbl fadd s (dbl fsq (t x))) l (f0 53 1024)).
Proof.
  intros F. assert (G : good_size (f0 53 1024)) by (left; reflexivity). revert G. generalize (f0 53 1024). induction F as [|p d H F IH]; intros a G; [exact G|]. cbn [fold_left]. apply IH. apply good_add; [exact G|apply good_sq; exact H].
Qed.
Lemma terms_power k mx my mx' my' : (0 <= k <= 1000)%Z -> times_power k mx mx' -> times_power k my my' -> forall d d', pairs_times_power k d d' ->
  Forall (fun p => B2R (residual mx my p) = 0 \/ bpow radix2 (-480) <= Rabs (B2R (residual mx my p))) d ->
  Forall2 (fun p q => is_finite (dbl fsq (residual mx' my' q)) = true -> times_power (2 * k) (dbl fsq (residual mx my p)) (dbl fsq (residual mx' my' q))) d d'.
Proof.
  intros K MX MY d d' P. induction P as [|p q d d' [H1 H2] P IH]; intros FD; [constructor|]. inversion FD as [|x y H H']; subst. constructor; [|apply IH; exact H']. intros F. unfold fsq in *.
  apply sq_power; [lia| |apply fair_nz, fair_sq, H|exact F]. apply (fmul_finite_inv 53 1024 FloatProps.p53 FloatProps.e1024) in F. destruct F as [F _]. unfold residual in *.
  pose proof (fsub_finite_inv 53 1024 FloatProps.p53 FloatProps.e1024 _ _ F) as [Fa Fb]. apply sub_power; [lia|apply sub_power; [lia|exact H1|exact MX|exact Fa]|apply sub_power; [lia|exact H2|exact MY|exact Fb]|exact F].
Qed.
(* The ubRMSD, too, is multiplied by 2^k exactly, if both means are normal numbers and what remains of each
   pair without them is zero or at least 2^-480. *)
Theorem C137_ubrmsd :
  forall (k : Z) (d d' : list (double * double)),
    (0 <= k <= 1000)%Z -> pairs_times_power k d d' -> d <> [] -> (Z.of_nat (List.length d) <= 2 ^ 53)%Z ->
    bpow radix2 (-1022) < Rabs (B2R (dbl f_mean (map fst d))) -> bpow radix2 (-1022) < Rabs (B2R (dbl f_mean (map snd d))) ->
    fair_residuals d ->
    is_finite (dbl f_mean (map fst d')) = true -> is_finite (dbl f_mean (map snd d')) = true -> is_finite (dbl f_ubrmsd d') = true ->
    times_power k (dbl f_ubrmsd d) (dbl f_ubrmsd d').
Proof.
  intros k d d' K P N LN TX TY FR FX FY F. assert (LE : List.length d = List.length d') by (apply (len2 _ _ _ P)). assert (N' : d' <> []) by (destruct d, d'; cbn in LE; congruence).
  assert (MX : times_power k (dbl f_mean (map fst d)) (dbl f_mean (map fst d'))).
  { apply C137_mean; [lia| |destruct d; [congruence|discriminate]|rewrite map_length; exact LN|exact FX|exact TX]. clear -P. induction P as [|p q d d' [H1 H2] P IH]; cbn; constructor; assumption. }
  assert (MY : times_power k (dbl f_mean (map snd d)) (dbl f_mean (map snd d'))).
  { apply C137_mean; [lia| |destruct d; [congruence|discriminate]|rewrite map_length; exact LN|exact FY|exact TY]. clear -P. induction P as [|p q d d' [H1 H2] P IH]; cbn; constructor; assumption. }
  rewrite (ubrmsd_eq d N). rewrite (ubrmsd_eq d' N') in *. rewrite <- LE in *. set (mx := dbl f_mean (map fst d)) in *. set (my := dbl f_mean (map snd d)) in *. set (mx' := dbl f_mean (map fst d')) in *. set (my' := dbl f_mean (map snd d')) in *.
  destruct (count_val (List.length d) ltac:(destruct d; [congruence|cbn; lia]) LN) as (C1 & C2 & C3).
  pose proof (sqrt_arg _ F) as FQ. pose proof (fdiv_finite_inv 53 1024 FloatProps.p53 FloatProps.e1024 _ _ FQ) as FS. cbv zeta in FR.
  pose proof (fold_power (2 * k) (fun p => dbl fsq (residual mx my p)) (fun p => dbl fsq (residual mx' my' p)) ltac:(lia) d d' (terms_power k mx my mx' my' K MX MY d d' P FR) _ _ (zero_power (2 * k)) FS) as PR.
  assert (GS : B2R (fold_left (fun s p => dbl fadd s (dbl fsq (residual mx my p))) d (f0 53 1024)) = 0 \/ bpow radix2 (-960) <= B2R (fold_left (fun s p => dbl fadd s (dbl fsq (residual mx my p))) d (f0 53 1024))) by (apply (sum_good (residual mx my)); [exact FR|apply PR]).
  set (R0 := fold_left (fun s p => dbl fadd s (dbl fsq (residual mx my p))) d (f0 53 1024)) in *. set (R1 := fold_left (fun s p => dbl fadd s (dbl fsq (residual mx' my' p))) d' (f0 53 1024)) in *.
  assert (GQ : B2R R0 / B2R (dbl of_n (List.length d)) = 0 \/ bpow radix2 (-1013) <= B2R R0 / B2R (dbl of_n (List.length d))).
  { rewrite C2. destruct GS as [->|GS]; [left; field; lra|right]. change (-1013)%Z with (-960 + - (53))%Z. rewrite bpow_plus, bpow_opp. unfold Rdiv. apply Rmult_le_compat; [apply bpow_ge_0|left; apply Rinv_0_lt_compat, bpow_gt_0|exact GS|].
    apply Rinv_le; [lra|]. rewrite INR_IZR_INZ. change (bpow radix2 53) with (IZR (2 ^ 53)). apply IZR_le. exact LN. }
  assert (PM : times_power (2 * k) (dbl fdiv R0 (dbl of_n (List.length d))) (dbl fdiv R1 (dbl of_n (List.length d)))).
  { apply div_power; [lia|exact PR|exact C1|lra| |exact FQ]. destruct GQ as [G|G]; [left; exact G|right]. pose proof (bpow_gt_0 radix2 (-1013)). rewrite Rabs_pos_eq by lra. eapply Rle_trans; [|exact G]. apply bpow_le. lia. }
  apply sqrt_power; [lia|exact PM|]. rewrite (fdiv_val 53 1024 FloatProps.p53 FloatProps.e1024) by (try apply PM; lra).
  destruct GQ as [->|G]; [left; apply (rnd_0 53 1024)|right]. apply rn_ge; [lia|]. eapply Rle_trans; [|exact G]. apply bpow_le. lia.
Qed.
Print Assumptions C137_ubrmsd.
Definition small_pairs : list (double * double) := [(z64 2, z64 (-2)); (z64 6, z64 10)].
Definition large_pairs : list (double * double) := [(z64 (2 * 2 ^ 5), z64 (-2 * 2 ^ 5)); (z64 (6 * 2 ^ 5), z64 (10 * 2 ^ 5))].
Example C137_ubrmsd_case :
  pairs_times_power 5 small_pairs large_pairs /\ bpow radix2 (-1022) < Rabs (B2R (dbl f_mean (map fst small_pairs))) /\ bpow radix2 (-1022) < Rabs (B2R (dbl f_mean (map snd small_pairs)))
  /\ fair_residuals small_pairs /\ is_finite (dbl f_ubrmsd large_pairs) = true /\ Bltb (f0 53 1024) (dbl f_ubrmsd large_pairs) = true.
Proof.
  assert (C : forall a : double, is_finite a = true -> Bltb (z64 1) (Babs a) = true -> 1 < Rabs (B2R a)).
  { intros a F L. destruct (z64_val 1 ltac:(vm_compute; discriminate)) as [F1 V1]. rewrite Bltb_correct in L by (try exact F1; rewrite is_finite_Babs; exact F). rewrite V1, B2R_Babs in L. destruct (Rlt_bool_spec 1 (Rabs (B2R a))) as [X|X]; [exact X|discriminate L]. }
  assert (O : bpow radix2 (-480) <= 1) by (change 1 with (bpow radix2 0); apply bpow_le; lia). assert (O2 : bpow radix2 (-1022) < 1) by (change 1 with (bpow radix2 0); apply bpow_lt; lia).
  split; [repeat constructor; apply z64_power; vm_compute; discriminate|]. split; [apply Rlt_trans with 1; [exact O2|]; apply C; vm_compute; reflexivity|]. split; [apply Rlt_trans with 1; [exact O2|]; apply C; vm_compute; reflexivity|].
  split; [|split; vm_compute; reflexivity]. unfold fair_residuals. cbv zeta. change small_pairs with [(z64 2, z64 (-2)); (z64 6, z64 10)] at 3.
  constructor; [right; eapply Rle_trans; [exact O|]; left; apply C; vm_compute; reflexivity|]. constructor; [right; eapply Rle_trans; [exact O|]; left; apply C; vm_compute; reflexivity|]. constructor.
Qed.
