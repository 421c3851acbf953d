(* The correctly rounded exponential meets what is assumed of the C library's exp. *)
From Coq Require Import ZArith Reals List Lia Lra Bool.
From Flocq Require Import Core IEEE754.BinarySingleNaN.
From Verif Require Import FloatModel FloatSpec FloatProofs FloatProofs4 TypedModel TypedProofs ExpFloatModel ExpFloatSpec ExpFloatProofs.
Open Scope R_scope.

(* the double nearest to a real number, ties to even *)
Definition to_nearest (r : R) : double :=
  binary_normalize 53 1024 p53 e1024 mode_NE (ZnearestE (scaled_mantissa radix2 (SpecFloat.fexp 53 1024) r)) (cexp radix2 (SpecFloat.fexp 53 1024) r) false.
Definition exp_rounded (y : double) : double := to_nearest (exp (B2R y)).

Lemma to_nearest_cases r : 0 <= r ->
  (rnd64 r < bp 1024 /\ is_finite (to_nearest r) = true /\ B2R (to_nearest r) = rnd64 r) \/ (bp 1024 <= rnd64 r /\ to_nearest r = B754_infinity false).
Proof.
  intros P. unfold to_nearest. set (m := ZnearestE _). set (e := cexp _ _ _).
  pose proof (binary_normalize_correct 53 1024 p53 e1024 mode_NE m e false) as C. cbv zeta in C. cbn [round_mode] in C.
  assert (E : F2R {| Fnum := m; Fexp := e |} = rnd64 r) by reflexivity. rewrite E in C.
  assert (R2 : round radix2 (SpecFloat.fexp 53 1024) ZnearestE (rnd64 r) = rnd64 r) by (apply rnd_fmt, fmt_rnd). rewrite R2 in C.
  assert (N : 0 <= rnd64 r) by (apply (rnd_nonneg 53 1024 p53); exact P). rewrite (Rabs_pos_eq _ N) in C.
  destruct (Rlt_bool_spec (rnd64 r) (bp 1024)) as [L|G].
  - left. destruct C as (A & B & _). auto.
  - right. split; [exact G|]. apply B2SF_inj. refine (eq_trans C _). unfold binary_overflow. cbn [overflow_to_inf B2SF]. f_equal. apply Rlt_bool_false. exact N.
Qed.

Lemma exp_nat n : exp (INR n) = exp 1 ^ n.
Proof. induction n as [|n IH]; [change (INR 0) with 0; rewrite exp_0; reflexivity|]. rewrite S_INR, exp_plus, IH. cbn [pow]. ring. Qed.
Lemma sq_lo a b x : 0 <= a -> a <= exp x -> b <= a * a -> b <= exp (x + x).
Proof. intros A B C. rewrite exp_plus. apply Rle_trans with (a * a); [exact C|]. apply Rmult_le_compat; assumption. Qed.
Lemma sq_hi a b x : exp x <= a -> a * a <= b -> exp (x + x) <= b.
Proof. intros B C. rewrite exp_plus. pose proof (exp_pos x). apply Rle_trans with (a * a); [|exact C]. apply Rmult_le_compat; lra. Qed.
(* bounds of e, from 1 + x <= exp x and twelve squarings *)
Lemma e_lo : 2717950074795 / 1000000000000 <= exp 1.
Proof.
  assert (H : 1000244140625 / 1000000000000 <= exp (/ 4096)) by (apply Rle_trans with (1 + / 4096); [lra|left; apply exp_ineq1; lra]).
  apply (sq_lo _ (1000488340854 / 1000000000000)) in H; [|lra|lra].
  apply (sq_lo _ (1000976920184 / 1000000000000)) in H; [|lra|lra].
  apply (sq_lo _ (1001954794741 / 1000000000000)) in H; [|lra|lra].
  apply (sq_lo _ (1003913410704 / 1000000000000)) in H; [|lra|lra].
  apply (sq_lo _ (1007842136191 / 1000000000000)) in H; [|lra|lra].
  apply (sq_lo _ (1015745771482 / 1000000000000)) in H; [|lra|lra].
  apply (sq_lo _ (1031739472283 / 1000000000000)) in H; [|lra|lra].
  apply (sq_lo _ (1064486338666 / 1000000000000)) in H; [|lra|lra].
  apply (sq_lo _ (1133131165206 / 1000000000000)) in H; [|lra|lra].
  apply (sq_lo _ (1283986237561 / 1000000000000)) in H; [|lra|lra].
  apply (sq_lo _ (1648620658246 / 1000000000000)) in H; [|lra|lra].
  apply (sq_lo _ (2717950074795 / 1000000000000)) in H; [|lra|lra].
  match type of H with _ <= exp ?x => replace x with 1 in H by lra end. exact H.
Qed.
Lemma e_hi : exp 1 <= 2718613737693 / 1000000000000.
Proof.
  assert (H : exp (/ 4096) <= 1000244200245 / 1000000000000).
  { assert (E : 1 + - / 4096 <= exp (- / 4096)) by (left; apply exp_ineq1; lra). rewrite exp_Ropp in E. pose proof (exp_pos (/ 4096)) as P.
    assert (Q : exp (/ 4096) * (1 + - / 4096) <= 1) by (apply Rle_trans with (exp (/ 4096) * / exp (/ 4096)); [apply Rmult_le_compat_l; lra|right; apply Rinv_r; lra]). lra. }
  apply (sq_hi _ (1000488460124 / 1000000000000)) in H; [|lra].
  apply (sq_hi _ (1000977158842 / 1000000000000)) in H; [|lra].
  apply (sq_hi _ (1001955272524 / 1000000000000)) in H; [|lra].
  apply (sq_hi _ (1003914368139 / 1000000000000)) in H; [|lra].
  apply (sq_hi _ (1007844058556 / 1000000000000)) in H; [|lra].
  apply (sq_hi _ (1015749646367 / 1000000000000)) in H; [|lra].
  apply (sq_hi _ (1031747344095 / 1000000000000)) in H; [|lra].
  apply (sq_hi _ (1064502582048 / 1000000000000)) in H; [|lra].
  apply (sq_hi _ (1133165747187 / 1000000000000)) in H; [|lra].
  apply (sq_hi _ (1284064610598 / 1000000000000)) in H; [|lra].
  apply (sq_hi _ (1648821924191 / 1000000000000)) in H; [|lra].
  apply (sq_hi _ (2718613737693 / 1000000000000)) in H; [|lra].
  match type of H with exp ?x <= _ => replace x with 1 in H by lra end. exact H.
Qed.

Lemma exp_89 : bp 128 <= exp 89.
Proof.
  replace 89 with (INR 89) by (rewrite INR_IZR_INZ; reflexivity). rewrite exp_nat. apply Rle_trans with ((271 / 100) ^ 89); [|apply pow_incr; pose proof e_lo; lra].
  unfold Rdiv. rewrite Rpow_mult_distr, pow_inv. rewrite !pow_IZR. change (bp 128) with (IZR (2 ^ 128)). apply Rmult_le_reg_r with (IZR (100 ^ Z.of_nat 89)); [apply IZR_lt; reflexivity|].
  rewrite Rmult_assoc, Rinv_l, Rmult_1_r by (apply IZR_neq; discriminate). rewrite <- mult_IZR. apply IZR_le. vm_compute. discriminate.
Qed.
Lemma exp_105 : bp 151 <= exp 105.
Proof.
  replace 105 with (INR 105) by (rewrite INR_IZR_INZ; reflexivity). rewrite exp_nat. apply Rle_trans with ((271 / 100) ^ 105); [|apply pow_incr; pose proof e_lo; lra].
  unfold Rdiv. rewrite Rpow_mult_distr, pow_inv. rewrite !pow_IZR. change (bp 151) with (IZR (2 ^ 151)). apply Rmult_le_reg_r with (IZR (100 ^ Z.of_nat 105)); [apply IZR_lt; reflexivity|].
  rewrite Rmult_assoc, Rinv_l, Rmult_1_r by (apply IZR_neq; discriminate). rewrite <- mult_IZR. apply IZR_le. vm_compute. discriminate.
Qed.
Lemma exp_88 : exp 88 <= bp 127.
Proof.
  replace 88 with (INR 88) by (rewrite INR_IZR_INZ; reflexivity). rewrite exp_nat. apply Rle_trans with ((2719 / 1000) ^ 88); [apply pow_incr; pose proof e_hi; pose proof (exp_pos 1); lra|].
  unfold Rdiv. rewrite Rpow_mult_distr, pow_inv. rewrite !pow_IZR. change (bp 127) with (IZR (2 ^ 127)). apply Rmult_le_reg_r with (IZR (1000 ^ Z.of_nat 88)); [apply IZR_lt; reflexivity|].
  rewrite Rmult_assoc, Rinv_l, Rmult_1_r by (apply IZR_neq; discriminate). rewrite <- mult_IZR. apply IZR_le. vm_compute. discriminate.
Qed.
Lemma exp_100 : exp 100 <= bp 149.
Proof.
  replace 100 with (INR 100) by (rewrite INR_IZR_INZ; reflexivity). rewrite exp_nat. apply Rle_trans with ((2719 / 1000) ^ 100); [apply pow_incr; pose proof e_hi; pose proof (exp_pos 1); lra|].
  unfold Rdiv. rewrite Rpow_mult_distr, pow_inv. rewrite !pow_IZR. change (bp 149) with (IZR (2 ^ 149)). apply Rmult_le_reg_r with (IZR (1000 ^ Z.of_nat 100)); [apply IZR_lt; reflexivity|].
  rewrite Rmult_assoc, Rinv_l, Rmult_1_r by (apply IZR_neq; discriminate). rewrite <- mult_IZR. apply IZR_le. vm_compute. discriminate.
Qed.
Lemma exp_mono x y : x <= y -> exp x <= exp y.
Proof. intros [L|E]; [left; apply exp_increasing, L|right; rewrite E; reflexivity]. Qed.
Lemma to_nearest_between r k l : (-1000 <= k)%Z -> (l <= 1000)%Z -> (k <= 1000)%Z -> (-1000 <= l)%Z -> bp k <= r <= bp l -> is_finite (to_nearest r) = true /\ bp k <= B2R (to_nearest r) <= bp l.
Proof.
  intros K1 L1 K2 L2 [A B]. pose proof (bpow_gt_0 radix2 k).
  assert (RA : bp k <= rnd64 r) by (rewrite <- (rnd_bpow 53 1024 p53 k) by lia; apply (rnd_le 53 1024 p53); exact A).
  assert (RB : rnd64 r <= bp l) by (rewrite <- (rnd_bpow 53 1024 p53 l) by lia; apply (rnd_le 53 1024 p53); exact B).
  destruct (to_nearest_cases r ltac:(lra)) as [(_ & F & V)|[O _]].
  - rewrite V. auto.
  - assert (bp l < bp 1024) by (apply bpow_lt; lia). lra.
Qed.
Lemma to_nearest_small r l : (l <= 1000)%Z -> (-1000 <= l)%Z -> 0 <= r <= bp l -> is_finite (to_nearest r) = true /\ 0 <= B2R (to_nearest r) <= bp l.
Proof.
  intros L1 L2 [A B].
  assert (RA : 0 <= rnd64 r) by (apply (rnd_nonneg 53 1024 p53); exact A).
  assert (RB : rnd64 r <= bp l) by (rewrite <- (rnd_bpow 53 1024 p53 l) by lia; apply (rnd_le 53 1024 p53); exact B).
  destruct (to_nearest_cases r A) as [(_ & F & V)|[O _]].
  - rewrite V. auto.
  - assert (bp l < bp 1024) by (apply bpow_lt; lia). lra.
Qed.
Lemma exp_rounded_ok : exp_ok exp_rounded.
Proof.
  intros y F L. unfold exp_rounded. change 1 with (bp 0). apply to_nearest_small; try lia. pose proof (exp_pos (B2R y)). split; [lra|]. change (bp 0) with 1. rewrite <- exp_0. apply exp_mono, L.
Qed.
Lemma exp_rounded_grows : exp_grows exp_rounded.
Proof.
  unfold exp_rounded. split; [|split].
  - intros y F L. pose proof (exp_pos (B2R y)). destruct (to_nearest_cases (exp (B2R y)) ltac:(lra)) as [(_ & G & V)|[_ G]]; [right|left; exact G]. split; [exact G|]. rewrite V.
    rewrite <- (rnd_bpow 53 1024 p53 128) by lia. apply (rnd_le 53 1024 p53). apply Rle_trans with (exp 89); [apply exp_89|apply exp_mono, L].
  - intros y F [L U]. apply to_nearest_between; try lia. split.
    + apply Rle_trans with (exp (-100)); [|apply exp_mono; lra]. replace (-100) with (Ropp 100) by lra. rewrite exp_Ropp. change (-149)%Z with (Z.opp 149). rewrite bpow_opp. apply Rinv_le; [apply exp_pos|apply exp_100].
    + apply Rle_trans with (exp 88); [apply exp_mono; lra|apply exp_88].
  - intros y F L. pose proof (exp_pos (B2R y)). destruct (to_nearest_small (exp (B2R y)) (-151)) as (A & B & C); try lia.
    + split; [lra|]. apply Rle_trans with (exp (-105)); [apply exp_mono; lra|]. replace (-105) with (Ropp 105) by lra. rewrite exp_Ropp. change (-151)%Z with (Z.opp 151). rewrite bpow_opp. apply Rinv_le; [apply bpow_gt_0|apply exp_105].
    + split; [exact A|]. assert (bp (-151) < bp (-150)) by (apply bpow_lt; lia). lra.
Qed.
