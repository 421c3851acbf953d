(* Proofs about time stamps in result files. *)
From Coq Require Import Reals Lra Lia ZArith List.
From Flocq Require Import Core IEEE754.BinarySingleNaN.
From Verif Require Import FloatModel FloatProofs FloatProps JdProofs TimeNumModel.
Import ListNotations.
Open Scope R_scope.

Definition x64 : Prec_gt_0 64 := eq_refl.
Definition x16384 : Prec_lt_emax 64 16384 := eq_refl.
#[local] Existing Instance x64.
#[local] Instance q53 : Prec_gt_0 53 := p53.

(* half a unit in the last place *)
Lemma half_err prec emax (Hp : Prec_gt_0 prec) e x : Rabs x < bpow radix2 e -> (3 - emax - prec <= e - prec)%Z ->
  Rabs (FloatProofs.rnd prec emax x - x) <= / 2 * bpow radix2 (e - prec).
Proof.
  intros L G. destruct (Req_dec x 0) as [-> | N].
  - unfold FloatProofs.rnd. rewrite round_0 by auto with typeclass_instances. rewrite Rminus_0_r, Rabs_R0. pose proof (bpow_gt_0 radix2 (e - prec)). lra.
  - eapply Rle_trans; [apply error_le_half_ulp; auto with typeclass_instances|]. apply Rmult_le_compat_l; [lra|].
    rewrite ulp_neq_0 by exact N. apply bpow_le. unfold cexp, FLT_exp. pose proof (mag_le_bpow radix2 x e N L). lia.
Qed.
Lemma day_exact : is_finite (of_z us_per_day) = true /\ B2R (of_z us_per_day) = 86400000000.
Proof. destruct (z_exact us_per_day ltac:(unfold us_per_day; lia)) as [F V]. split; [exact F|rewrite V; reflexivity]. Qed.

(* the number written *)
Notation num us := (date2num 53 1024 p53 e1024 us).
Lemma num_val us : (Z.abs us <= 2 ^ 53)%Z -> is_finite (num us) = true /\ B2R (num us) = rnd (IZR us / 86400000000).
Proof.
  intros L. destruct (z_exact us L) as [F V]. destruct day_exact as [Fd Vd].
  assert (S : Rabs (IZR us / 86400000000) <= 2 ^ 100).
  { unfold Rdiv. rewrite Rabs_mult, <- abs_IZR. apply IZR_le in L. rewrite (Rabs_pos_eq (/ _)) by lra.
    change (2 ^ 53)%Z with 9007199254740992%Z in L. assert (IZR (Z.abs us) * / 86400000000 <= 9007199254740992 * 1) by (apply Rmult_le_compat; [apply IZR_le; lia|lra|exact L|lra]). lra. }
  unfold date2num. destruct (fdiv_cases 53 1024 p53 e1024 (of_z us) (of_z us_per_day) F ltac:(rewrite Vd; lra)) as [[_ [F1 V1]]|[O _]]; rewrite V, Vd in *.
  - split; [exact F1|exact V1].
  - pose proof (round_small _ S). lra.
Qed.
Lemma num_err us e : (Z.abs us <= 2 ^ 53)%Z -> (-900 <= e)%Z -> Rabs (IZR us) < bpow radix2 e * 86400000000 ->
  Rabs (B2R (num us) - IZR us / 86400000000) <= / 2 * bpow radix2 (e - 53).
Proof.
  intros L Le B. destruct (num_val us L) as [_ ->]. apply half_err; [reflexivity| |lia].
  unfold Rdiv. rewrite Rabs_mult, (Rabs_pos_eq (/ _)) by lra. apply Rmult_lt_reg_r with 86400000000; [lra|].
  rewrite Rmult_assoc, Rinv_l by lra. lra.
Qed.

(* the long double *)
Lemma long_exact (f : binary_float 53 1024) : is_finite f = true ->
  is_finite (to_long 53 1024 64 16384 x64 x16384 f) = true /\ B2R (to_long 53 1024 64 16384 x64 x16384 f) = B2R f.
Proof.
  destruct f as [s|s| |s m e Hb]; try discriminate; intros _; [split; reflexivity|]. cbn [to_long].
  pose proof (binary_normalize_correct 64 16384 x64 x16384 mode_NE (cond_Zopp s (Zpos m)) e false) as C. cbv zeta in C.
  assert (G : generic_format radix2 (SpecFloat.fexp 64 16384) (F2R (Float radix2 (cond_Zopp s (Zpos m)) e))).
  { pose proof (generic_format_B2R 53 1024 (B754_finite s m e Hb)) as G0. cbn [B2R] in G0.
    apply (FLT_format_generic radix2 (3 - 1024 - 53) 53) in G0. destruct G0 as [g E1 E2 E3]. rewrite E1.
    apply generic_format_FLT with (emin := (3 - 16384 - 64)%Z) (prec := 64%Z). exists g; [reflexivity| |lia].
    eapply Z.lt_trans; [exact E2|]. reflexivity. }
  rewrite round_generic in C by (auto with typeclass_instances; exact G).
  assert (B : Rabs (F2R (Float radix2 (cond_Zopp s (Zpos m)) e)) < bpow radix2 16384).
  { eapply Rlt_trans; [exact (abs_B2R_lt_emax 53 1024 (B754_finite s m e Hb))|apply bpow_lt; lia]. }
  rewrite Rlt_bool_true in C by exact B. destruct C as (V & F & _). split; [exact F|exact V].
Qed.

Lemma long_day : is_finite (FloatModel.of_z 64 16384 x64 x16384 us_per_day) = true /\ B2R (FloatModel.of_z 64 16384 x64 x16384 us_per_day) = 86400000000.
Proof.
  assert (G : FloatProofs.rnd 64 16384 (IZR us_per_day) = 86400000000).
  { unfold FloatProofs.rnd. rewrite round_generic; [reflexivity|auto with typeclass_instances|].
    apply generic_format_FLT. exists (Float radix2 us_per_day 0); cbn [Fnum Fexp]; [unfold F2R; cbn [Fnum Fexp]; change (bpow radix2 0) with 1; ring|reflexivity|lia]. }
  destruct (of_z_cases 64 16384 x64 x16384 us_per_day) as [[_ [F [V _]]]|[O _]]; [split; [exact F|rewrite V; exact G]|].
  exfalso. rewrite G in O. rewrite Rabs_pos_eq in O by lra. unfold big in O.
  assert (bpow radix2 40 <= bpow radix2 16384) by (apply bpow_le; lia). change (bpow radix2 40) with 1099511627776 in H. lra.
Qed.
Notation date f := (num2date 53 1024 64 16384 x64 x16384 f).
(* the date read for a number: the nearest whole number to a product with an error of at most 2^-12 *)
Lemma date_val (f : binary_float 53 1024) : is_finite f = true -> Rabs (B2R f) * 86400000000 < bpow radix2 53 ->
  exists p, Rabs (p - B2R f * 86400000000) <= / 8192 * 2 /\ date f = ZnearestE p.
Proof.
  intros F B. destruct (long_exact f F) as [Fl Vl]. destruct long_day as [Fd Vd].
  destruct (fmul_cases 64 16384 x64 x16384 _ _ Fl Fd) as [[_ [F1 V1]]|[O _]]; rewrite Vl, Vd in *.
  - exists (FloatProofs.rnd 64 16384 (B2R f * 86400000000)). split.
    + eapply Rle_trans; [apply (half_err 64 16384 x64 53); [rewrite Rabs_mult, (Rabs_pos_eq 86400000000) by lra; exact B|lia]|].
      change (bpow radix2 (53 - 64)) with (/ 2048). lra.
    + unfold num2date. apply eq_IZR. rewrite Btrunc_correct by reflexivity. destruct (Bnearbyint_correct 64 16384 x16384 mode_NE
        (FloatModel.fmul 64 16384 x64 x16384 (to_long 53 1024 64 16384 x64 x16384 f) (FloatModel.of_z 64 16384 x64 x16384 us_per_day))) as [V _].
      rewrite V, V1. change (round_mode mode_NE) with ZnearestE. rewrite round_generic; [|auto with typeclass_instances|apply generic_format_round; auto with typeclass_instances].
      rewrite round_FIX_IZR. reflexivity.
  - exfalso. assert (S : Rabs (FloatProofs.rnd 64 16384 (B2R f * 86400000000)) <= bpow radix2 54).
    { pose proof (half_err 64 16384 x64 53 (B2R f * 86400000000) ltac:(rewrite Rabs_mult, (Rabs_pos_eq 86400000000) by lra; exact B) ltac:(lia)) as E.
      assert (A := Rabs_triang_inv (FloatProofs.rnd 64 16384 (B2R f * 86400000000)) (B2R f * 86400000000)).
      rewrite Rabs_mult, (Rabs_pos_eq 86400000000) in A by lra. change (bpow radix2 (53 - 64)) with (/ 2048) in E.
      change (bpow radix2 53) with 9007199254740992 in B. change (bpow radix2 54) with 18014398509481984. lra. }
    unfold big in O. assert (bpow radix2 54 < bpow radix2 16384) by (apply bpow_lt; lia). lra.
Qed.
(* the way there and back *)
Lemma there_and_back us e : (-900 <= e)%Z -> Rabs (IZR us) < bpow radix2 e * 86400000000 -> (Z.abs us <= 2 ^ 53 - 2 ^ 24)%Z -> (e <= 20)%Z ->
  exists p, Rabs (p - IZR us) <= / 4096 + 43200000000 * bpow radix2 (e - 53) /\ date (num us) = ZnearestE p.
Proof.
  intros Le B L E20. destruct (num_val us ltac:(lia)) as [F _]. pose proof (num_err us e ltac:(lia) Le B) as E.
  assert (Q : bpow radix2 (e - 53) <= / 8589934592). { change (/ 8589934592) with (bpow radix2 (-33)). apply bpow_le. lia. }
  assert (D : Rabs (B2R (num us) * 86400000000 - IZR us) <= 43200000000 * bpow radix2 (e - 53)).
  { replace (B2R (num us) * 86400000000 - IZR us) with ((B2R (num us) - IZR us / 86400000000) * 86400000000) by field.
    rewrite Rabs_mult, (Rabs_pos_eq 86400000000) by lra. lra. }
  destruct (date_val (num us) F) as (p & P & ->).
  - replace (Rabs (B2R (num us)) * 86400000000) with (Rabs (B2R (num us) * 86400000000)) by (rewrite Rabs_mult, (Rabs_pos_eq 86400000000) by lra; reflexivity).
    apply IZR_le in L. rewrite abs_IZR in L. assert (T := Rabs_triang_inv (B2R (num us) * 86400000000) (IZR us)).
    change (2 ^ 53 - 2 ^ 24)%Z with 9007199237963776%Z in L. change (bpow radix2 53) with 9007199254740992. lra.
  - exists p. split; [|reflexivity]. replace (p - IZR us) with ((p - B2R (num us) * 86400000000) + (B2R (num us) * 86400000000 - IZR us)) by ring.
    eapply Rle_trans; [apply Rabs_triang|]. lra.
Qed.
Lemma round_trip us : (Z.abs us < 65536 * us_per_day)%Z -> date (num us) = us.
Proof.
  intros L. destruct (there_and_back us 16) as (p & P & ->); [lia| | |lia|].
  - rewrite <- abs_IZR. apply IZR_lt in L. change (bpow radix2 16) with 65536. unfold us_per_day in L. rewrite mult_IZR in L. exact L.
  - unfold us_per_day in L. lia.
  - apply Znearest_imp. change (bpow radix2 (16 - 53)) with (/ 137438953472) in P. lra.
Qed.
Lemma near_trip us : (Z.abs us <= 2 ^ 53 - 2 ^ 24)%Z -> (Z.abs (date (num us) - us) <= 1)%Z.
Proof.
  intros L. destruct (there_and_back us 17) as (p & P & ->); [lia| |exact L|lia|].
  - rewrite <- abs_IZR. apply IZR_le in L. change (bpow radix2 17) with 131072. change (2 ^ 53 - 2 ^ 24)%Z with 9007199237963776%Z in L. lra.
  - change (bpow radix2 (17 - 53)) with (/ 68719476736) in P. pose proof (Znearest_half (fun x => negb (Z.even x)) p) as N.
    apply Z.abs_le. apply Rabs_le_inv in P. apply Rabs_le_inv in N. change (Znearest (fun x : Z => negb (Z.even x)) p) with (ZnearestE p) in N.
    assert (A : IZR (ZnearestE p - us) < IZR 2) by (rewrite minus_IZR; lra). assert (B : IZR (-2) < IZR (ZnearestE p - us)) by (rewrite minus_IZR; lra).
    apply lt_IZR in A. apply lt_IZR in B. lia.
Qed.
(* the order *)
Lemma num_le a b : (a <= b)%Z -> (Z.abs a <= 2 ^ 53)%Z -> (Z.abs b <= 2 ^ 53)%Z -> B2R (num a) <= B2R (num b).
Proof.
  intros L A B. destruct (num_val a A) as [_ ->]. destruct (num_val b B) as [_ ->]. apply (rnd_le 53 1024 p53).
  apply IZR_le in L. apply Rmult_le_compat_r; lra.
Qed.
Lemma num_day k : (Z.abs k <= 65536)%Z -> B2R (num (k * us_per_day)) = IZR k.
Proof.
  intros L. destruct (num_val (k * us_per_day)) as [_ ->]; [unfold us_per_day; lia|]. rewrite mult_IZR. change (IZR us_per_day) with 86400000000.
  replace (IZR k * 86400000000 / 86400000000) with (IZR k) by field. destruct (z_exact k ltac:(lia)) as [F V]. rewrite <- V.
  apply round_generic; [auto with typeclass_instances|]. apply (generic_format_B2R 53 1024).
Qed.
(* full and half hours: thirds of a unit in the last place *)
Lemma third_err x N c : (c <= -36)%Z -> x = IZR N / 3 * bpow radix2 c ->
  cexp radix2 (FLT_exp (3 - 1024 - 53) 53) x = c -> Rabs (FloatProofs.rnd 53 1024 x - x) <= bpow radix2 c / 3.
Proof.
  intros Hc E C. unfold FloatProofs.rnd, round, scaled_mantissa. rewrite C.
  assert (X : x * bpow radix2 (- c) = IZR N / 3).
  { rewrite E, Rmult_assoc, <- bpow_plus. replace (c + - c)%Z with 0%Z by lia. change (bpow radix2 0) with 1. ring. }
  rewrite X. unfold F2R. cbn [Fnum Fexp]. set (F := ZnearestE (IZR N / 3)).
  assert (H : Rabs (IZR N / 3 - IZR F) <= / 2) by apply Znearest_half.
  assert (T : (Z.abs (3 * F - N) <= 1)%Z).
  { apply Rabs_le_inv in H. assert (A : IZR (3 * F - N) < IZR 2) by (rewrite minus_IZR, mult_IZR; lra). assert (B : IZR (-2) < IZR (3 * F - N)) by (rewrite minus_IZR, mult_IZR; lra).
    apply lt_IZR in A. apply lt_IZR in B. lia. }
  rewrite E. replace (IZR F * bpow radix2 c - IZR N / 3 * bpow radix2 c) with (IZR (3 * F - N) / 3 * bpow radix2 c) by (rewrite minus_IZR, mult_IZR; field).
  apply IZR_le in T. rewrite abs_IZR in T. pose proof (bpow_gt_0 radix2 c). unfold Rdiv. rewrite !Rabs_mult, (Rabs_pos_eq (/ 3)), (Rabs_pos_eq (bpow _ _)) by lra.
  assert (Rabs (IZR (3 * F - N)) * / 3 * bpow radix2 c <= 1 * / 3 * bpow radix2 c); [|lra]. apply Rmult_le_compat_r; [lra|]. apply Rmult_le_compat_r; lra.
Qed.
Lemma half_hours h : (Z.abs (h * 1800000000) <= 2 ^ 53 - 2 ^ 24)%Z -> date (num (h * 1800000000)) = (h * 1800000000)%Z.
Proof.
  intros L. set (us := (h * 1800000000)%Z) in *. destruct (Z.eq_dec us 0) as [Z0|N0]; [rewrite Z0; apply round_trip; reflexivity|].
  destruct (num_val us ltac:(lia)) as [F V].
  assert (B : Rabs (IZR us / 86400000000) < bpow radix2 17).
  { unfold Rdiv. rewrite Rabs_mult, <- abs_IZR, (Rabs_pos_eq (/ _)) by lra. apply IZR_le in L. change (bpow radix2 17) with 131072. change (2 ^ 53 - 2 ^ 24)%Z with 9007199237963776%Z in L. lra. }
  assert (X0 : IZR us / 86400000000 <> 0). { intros Q. apply N0, eq_IZR. lra. }
  set (c := cexp radix2 (FLT_exp (3 - 1024 - 53) 53) (IZR us / 86400000000)).
  assert (Hc : (c <= -36)%Z). { unfold c, cexp, FLT_exp. pose proof (mag_le_bpow radix2 _ 17 X0 B). lia. }
  assert (E : IZR us / 86400000000 = IZR (h * 2 ^ (- c - 4)) / 3 * bpow radix2 c).
  { unfold us. rewrite !mult_IZR. change 2%Z with (radix_val radix2). rewrite (IZR_Zpower radix2) by lia.
    replace (IZR h * bpow radix2 (- c - 4) / 3 * bpow radix2 c) with (IZR h / 3 * (bpow radix2 (- c - 4) * bpow radix2 c)) by field.
    rewrite <- bpow_plus. replace (- c - 4 + c)%Z with (-4)%Z by lia. change (bpow radix2 (-4)) with (/ 16). field. }
  pose proof (third_err _ _ _ Hc E eq_refl) as D. fold c in D.
  assert (D2 : bpow radix2 c <= / 68719476736). { change (/ 68719476736) with (bpow radix2 (-36)). apply bpow_le. exact Hc. }
  rewrite <- V in D. assert (D3 : Rabs (B2R (num us) * 86400000000 - IZR us) <= 86400000000 * (/ 68719476736 / 3)).
  { replace (B2R (num us) * 86400000000 - IZR us) with ((B2R (num us) - IZR us / 86400000000) * 86400000000) by field.
    rewrite Rabs_mult, (Rabs_pos_eq 86400000000) by lra. lra. }
  destruct (date_val (num us) F) as (p & P & ->).
  - replace (Rabs (B2R (num us)) * 86400000000) with (Rabs (B2R (num us) * 86400000000)) by (rewrite Rabs_mult, (Rabs_pos_eq 86400000000) by lra; reflexivity).
    apply IZR_le in L. rewrite abs_IZR in L. assert (T := Rabs_triang_inv (B2R (num us) * 86400000000) (IZR us)).
    change (2 ^ 53 - 2 ^ 24)%Z with 9007199237963776%Z in L. change (bpow radix2 53) with 9007199254740992. lra.
  - apply Znearest_imp. replace (p - IZR us) with ((p - B2R (num us) * 86400000000) + (B2R (num us) * 86400000000 - IZR us)) by ring.
    eapply Rle_lt_trans; [apply Rabs_triang|]. lra.
Qed.
