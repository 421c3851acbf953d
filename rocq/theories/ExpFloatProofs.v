(* The exponential filter in IEEE 754 arithmetic. *)
From Coq Require Import ZArith Reals List Lia Lra Bool.
From Flocq Require Import Core IEEE754.BinarySingleNaN.
From Verif Require Import FloatModel FloatSpec FloatProofs FloatProofs4 TypedModel TypedProofs ExpFloatModel ExpFloatSpec.
Import ListNotations.
Open Scope R_scope.

(* ---- the gain, in single precision ---- *)
Notation rnd32 := (FloatProofs.rnd 24 128).
Notation rnd64 := (FloatProofs.rnd 53 1024).
Notation bp := (bpow radix2).

Lemma small32 x : Rabs x <= 4 -> Rabs (rnd32 x) < big 128.
Proof.
  intros L. assert (R1 : rnd32 (bp 2) = bp 2) by (apply (rnd_bpow 24 128 p24); lia). change (bp 2) with 4 in R1.
  apply Rle_lt_trans with 4; [|change 4 with (bp 2); apply bpow_lt; lia]. apply Rabs_le. apply Rabs_le_inv in L. split.
  - rewrite <- R1, <- rnd_opp. apply (rnd_le 24 128 p24). lra.
  - rewrite <- R1. apply (rnd_le 24 128 p24). lra.
Qed.
(* a tie goes to the even neighbour *)
Lemma tie32 : rnd32 (1 + / 16777216) = 1.
Proof.
  unfold FloatProofs.rnd, round, scaled_mantissa, cexp. assert (M : mag radix2 (1 + / 16777216) = 1%Z :> Z).
  { apply mag_unique. rewrite Rabs_pos_eq by lra. change (bp (1 - 1)) with 1. change (bp 1) with 2. lra. }
  rewrite M. replace (FLT_exp (3 - 128 - 24) 24 1) with (-23)%Z by reflexivity. change (bp (- -23)) with 8388608.
  assert (F : Zfloor ((1 + / 16777216) * 8388608) = 8388608%Z) by (apply Zfloor_imp; split; [lra|change (8388608 + 1)%Z with 8388609%Z; lra]).
  unfold Znearest. rewrite F. rewrite Rcompare_Eq by lra. cbn [negb Z.even]. unfold F2R. cbn [Fnum Fexp]. change (bp (-23)) with (/ 8388608). lra.
Qed.
Definition gmin : R := bp (-25).
Lemma gmin_pos : 0 < gmin < / 10. Proof. split; [apply bpow_gt_0|]. unfold gmin. change (bp (-25)) with (/ 33554432). lra. Qed.
Definition good_gain (g : single) : Prop := is_finite g = true /\ gmin <= B2R g <= 1.

Lemma gain_step (g e : single) : good_gain g -> is_finite e = true -> 0 <= B2R e <= 1 -> good_gain (f_gain g e).
Proof.
  intros [Fg G] Fe E. pose proof gmin_pos as GP. unfold f_gain.
  assert (S1 : Rabs (B2R g + B2R e) <= 4) by (rewrite Rabs_pos_eq by lra; lra).
  destruct (fadd_cases 24 128 p24 e128 g e Fg Fe) as [[_ [Fs Vs]]|[O _]]; [|pose proof (small32 _ S1); lra].
  assert (SL : B2R g <= B2R (add32 g e)). { rewrite Vs, <- (rnd_id 24 128 g) at 1. apply (rnd_le 24 128 p24). lra. }
  assert (SU : B2R (add32 g e) <= 2). { rewrite Vs, <- (rnd_2 24 128 p24 e128). apply (rnd_le 24 128 p24). lra. }
  set (s := add32 g e) in *. set (a := B2R g) in *. assert (SP : 0 < B2R s) by lra.
  assert (Q1 : a / B2R s <= 1). { apply Rmult_le_reg_r with (B2R s); [exact SP|]. unfold Rdiv. rewrite Rmult_assoc, Rinv_l by lra. lra. }
  assert (Q0 : 0 <= a / B2R s) by (apply Rmult_le_pos; [lra|left; apply Rinv_0_lt_compat; exact SP]).
  assert (S2 : Rabs (a / B2R s) <= 4) by (rewrite Rabs_pos_eq by exact Q0; lra).
  destruct (fdiv_cases 24 128 p24 e128 g s Fg ltac:(lra)) as [[_ [Fq Vq]]|[O _]]; [fold a in Vq|fold a in O; pose proof (small32 _ S2); lra].
  split; [exact Fq|]. rewrite Vq. split.
  - destruct (Rle_or_lt a (/ 16777216)) as [C|C].
    + (* the sum is at most 1, the gain does not fall *)
      assert (SU1 : B2R s <= 1). { rewrite Vs, <- tie32. apply (rnd_le 24 128 p24). fold a. lra. }
      apply Rle_trans with a; [lra|]. unfold a at 1. rewrite <- (rnd_id 24 128 g). fold a. apply (rnd_le 24 128 p24).
      apply Rmult_le_reg_r with (B2R s); [exact SP|]. unfold Rdiv. rewrite Rmult_assoc, Rinv_l by lra. rewrite Rmult_1_r.
      rewrite <- (Rmult_1_r a) at 2. apply Rmult_le_compat_l; lra.
    + (* the sum is at most 2 *)
      unfold gmin. rewrite <- (rnd_bpow 24 128 p24 (-25)) by lia. apply (rnd_le 24 128 p24). change (bp (-25)) with (/ 33554432).
      apply Rmult_le_reg_r with (B2R s); [exact SP|]. unfold Rdiv. rewrite Rmult_assoc, Rinv_l by lra. lra.
  - rewrite <- (rnd_1 24 128 p24 e128). apply (rnd_le 24 128 p24). exact Q1.
Qed.

(* ---- one update, over the reals ---- *)
Definition u : R := unit_roundoff 53.
Lemma u_small : 0 < u < / 1000.
Proof. unfold u, unit_roundoff. change (bp (1 - 53)) with (/ IZR (2 ^ 52)). change (2 ^ 52)%Z with 4503599627370496%Z. lra. Qed.
Definition upd (a g x : R) : R := rnd64 (a + rnd64 (g * rnd64 (x - a))).
Notation format := (generic_format radix2 (FLT_exp (3 - 1024 - 53) 53)).
Lemma fmt_rnd x : format (rnd64 x). Proof. apply generic_format_round; [exact (FLT_exp_valid (prec_gt_0_ := p53) _ _)|auto with typeclass_instances]. Qed.
Lemma rnd_fmt x : format x -> rnd64 x = x. Proof. intros F. apply round_generic; [auto with typeclass_instances|exact F]. Qed.
Lemma upd_opp a g x : upd (- a) g (- x) = - upd a g x.
Proof.
  unfold upd. replace (- x - - a) with (- (x - a)) by ring. rewrite rnd_opp. replace (g * - rnd64 (x - a)) with (- (g * rnd64 (x - a))) by ring. rewrite rnd_opp.
  replace (- a + - rnd64 (g * rnd64 (x - a))) with (- (a + rnd64 (g * rnd64 (x - a)))) by ring. apply rnd_opp.
Qed.
Lemma upd_up a g x K : format a -> format x -> 0 <= g <= 1 -> a <= x -> Rabs a <= K -> Rabs x <= K -> a <= upd a g x <= x + (3 * u * K + 2 * (u * (u * K))).
Proof.
  intros Fa Fx G L Ka Kx. pose proof u_small as U. set (d := rnd64 (x - a)). set (p := rnd64 (g * d)).
  assert (D0 : 0 <= d) by (apply (rnd_nonneg 53 1024 p53); lra).
  assert (P0 : 0 <= p) by (apply (rnd_nonneg 53 1024 p53); apply Rmult_le_pos; lra).
  assert (P1 : p <= d). { unfold p. apply Rle_trans with (rnd64 d); [|right; apply rnd_fmt, fmt_rnd]. apply (rnd_le 53 1024 p53). rewrite <- (Rmult_1_l d) at 2. apply Rmult_le_compat_r; lra. }
  unfold upd. fold d. fold p. split.
  - rewrite <- (rnd_fmt a Fa) at 1. apply (rnd_le 53 1024 p53). lra.
  - pose proof (err_sub 53 1024 p53 x a Fx Fa) as E1. fold d in E1. fold u in E1. rewrite (Rabs_pos_eq (x - a)) in E1 by lra. apply Rabs_le_inv in E1.
    pose proof (err_add 53 1024 p53 a d Fa (fmt_rnd _)) as E2. fold u in E2. apply Rabs_le_inv in E2.
    apply Rle_trans with (rnd64 (a + d)); [apply (rnd_le 53 1024 p53); lra|].
    apply Rabs_le_inv in Ka, Kx.
    assert (XA : u * (x - a) <= u * (2 * K)) by (apply Rmult_le_compat_l; lra).
    assert (AD : Rabs (a + d) <= K + 2 * (u * K)) by (apply Rabs_le; split; lra).
    assert (UA : u * Rabs (a + d) <= u * (K + 2 * (u * K))) by (apply Rmult_le_compat_l; lra).
    replace (u * (K + 2 * (u * K))) with (u * K + 2 * (u * (u * K))) in UA by ring. lra.
Qed.
Lemma upd_down a g x K : format a -> format x -> 0 <= g <= 1 -> x <= a -> Rabs a <= K -> Rabs x <= K -> x - (3 * u * K + 2 * (u * (u * K))) <= upd a g x <= a.
Proof.
  intros Fa Fx G L Ka Kx. pose proof (upd_up (- a) g (- x) K (generic_format_opp _ _ _ Fa) (generic_format_opp _ _ _ Fx) G ltac:(lra)) as H.
  rewrite !Rabs_Ropp in H. specialize (H Ka Kx). rewrite upd_opp in H. lra.
Qed.
Lemma upd_same a g : format a -> upd a g a = a.
Proof. intros Fa. unfold upd. replace (a - a) with 0 by ring. rewrite rnd_0 by exact p53. rewrite Rmult_0_r, rnd_0 by exact p53. rewrite Rplus_0_r. apply rnd_fmt, Fa. Qed.

(* ---- one update, in floating point ---- *)
Lemma small64 x : Rabs x <= bp 1010 -> Rabs (rnd64 x) < big 1024.
Proof.
  intros L. assert (R1 : rnd64 (bp 1010) = bp 1010) by (apply (rnd_bpow 53 1024 p53); lia).
  apply Rle_lt_trans with (bp 1010); [|apply bpow_lt; lia]. apply Rabs_le. apply Rabs_le_inv in L. split.
  - rewrite <- R1, <- rnd_opp. apply (rnd_le 53 1024 p53). lra.
  - rewrite <- R1. apply (rnd_le 53 1024 p53). lra.
Qed.
Lemma rnd_bound x K : (-1000 <= K <= 1010)%Z -> Rabs x <= bp K -> Rabs (rnd64 x) <= bp K.
Proof.
  intros KK L. assert (R1 : rnd64 (bp K) = bp K) by (apply (rnd_bpow 53 1024 p53); lia). apply Rabs_le. apply Rabs_le_inv in L. split.
  - rewrite <- R1, <- rnd_opp. apply (rnd_le 53 1024 p53). lra.
  - rewrite <- R1. apply (rnd_le 53 1024 p53). lra.
Qed.
Lemma bp_succ k : bp (k + 1) = 2 * bp k. Proof. rewrite bpow_plus. change (bp 1) with 2. ring. Qed.
Lemma update_val (last x : double) (g : single) : is_finite last = true -> is_finite x = true -> is_finite g = true -> 0 <= B2R g <= 1 -> Rabs (B2R last) <= bp 1001 -> Rabs (B2R x) <= bp 1001 ->
  is_finite (f_update last g x) = true /\ B2R (f_update last g x) = upd (B2R last) (B2R g) (B2R x).
Proof.
  intros Fl Fx Fg G Kl Kx. unfold f_update, upd. pose proof (bpow_gt_0 radix2 1001) as BP.
  pose proof (bp_succ 1001) as B2. pose proof (bp_succ 1002) as B3. pose proof (bp_succ 1003) as B4. change (1001 + 1)%Z with 1002%Z in B2. change (1002 + 1)%Z with 1003%Z in B3. change (1003 + 1)%Z with 1004%Z in B4.
  assert (BB : bp 1004 <= bp 1010) by (apply bpow_le; lia).
  assert (L1 : Rabs (B2R x - B2R last) <= bp 1002) by (unfold Rminus; eapply Rle_trans; [apply Rabs_triang|rewrite Rabs_Ropp; lra]).
  destruct (fsub_cases 53 1024 p53 e1024 x last Fx Fl) as [[_ [F1 V1]]|[O _]]; [|pose proof (small64 (B2R x - B2R last) ltac:(lra)); lra].
  assert (D1 : Rabs (rnd64 (B2R x - B2R last)) <= bp 1002) by (apply rnd_bound; [lia|exact L1]).
  destruct (to_double_exact g Fg) as (F2 & V2 & _).
  assert (L2 : Rabs (B2R g * rnd64 (B2R x - B2R last)) <= bp 1002).
  { rewrite Rabs_mult, (Rabs_pos_eq (B2R g)) by lra. apply Rle_trans with (1 * Rabs (rnd64 (B2R x - B2R last))); [apply Rmult_le_compat_r; [apply Rabs_pos|lra]|lra]. }
  assert (D2 : Rabs (rnd64 (B2R g * rnd64 (B2R x - B2R last))) <= bp 1002) by (apply rnd_bound; [lia|exact L2]).
  destruct (fmul_cases 53 1024 p53 e1024 (to_double g) (sub64 x last) F2 F1) as [[_ [F3 V3]]|[O _]]; rewrite V1, V2 in *; [|pose proof (small64 (B2R g * rnd64 (B2R x - B2R last)) ltac:(lra)); lra].
  assert (L3 : Rabs (B2R last + rnd64 (B2R g * rnd64 (B2R x - B2R last))) <= bp 1010) by (eapply Rle_trans; [apply Rabs_triang|lra]).
  destruct (fadd_cases 53 1024 p53 e1024 last (mul64 (to_double g) (sub64 x last)) Fl F3) as [[_ [F4 V4]]|[O _]]; rewrite V3 in *; [|pose proof (small64 _ L3); lra].
  split; [exact F4|exact V4].
Qed.

(* ---- the loop ---- *)

Section Loop.
Variable exp64 : double -> double.
Variable nan : double.
Variable ctime : Z.
Hypothesis EO : exp_ok exp64.
Hypothesis CT : (1 <= ctime < 2 ^ 31)%Z.

Lemma ct_val : is_finite (z64 ctime) = true /\ B2R (z64 ctime) = IZR ctime.
Proof.
  assert (G : format (IZR ctime)).
  { apply generic_format_FLT. exists (Float radix2 ctime 0); cbn [Fnum Fexp]; [unfold F2R; cbn [Fnum Fexp]; change (bp 0) with 1; ring| |lia].
    change (Zpower radix2 53) with (2 ^ 53)%Z. lia. }
  destruct (of_z_cases 53 1024 p53 e1024 ctime) as [[_ [F [V _]]]|[O _]]; [split; [exact F|rewrite V; apply rnd_fmt, G]|].
  exfalso. rewrite (rnd_fmt _ G) in O. rewrite Rabs_pos_eq in O by (apply IZR_le; lia). unfold big in O.
  assert (IZR ctime <= bp 31) by (change (bp 31) with (IZR (2 ^ 31)); apply IZR_le; lia). assert (bp 31 < bp 1024) by (apply bpow_lt; lia). lra.
Qed.
Lemma ef_ok t0 t : good_time t0 -> good_time t -> B2R t0 <= B2R t -> is_finite (f_ef exp64 ctime t0 t) = true /\ 0 <= B2R (f_ef exp64 ctime t0 t) <= 1.
Proof.
  intros [F0 K0] [F1 K1] L. pose proof (bp_succ 1000) as B1. change (1000 + 1)%Z with 1001%Z in B1. pose proof (bpow_gt_0 radix2 1000) as BP.
  assert (BB : bp 1001 <= bp 1010) by (apply bpow_le; lia).
  assert (L1 : Rabs (B2R t - B2R t0) <= bp 1001) by (unfold Rminus; eapply Rle_trans; [apply Rabs_triang|rewrite Rabs_Ropp; lra]).
  destruct (fsub_cases 53 1024 p53 e1024 t t0 F1 F0) as [[_ [Fd Vd]]|[O _]]; [|pose proof (small64 (B2R t - B2R t0) ltac:(lra)); lra].
  assert (D0 : 0 <= rnd64 (B2R t - B2R t0)) by (apply (rnd_nonneg 53 1024 p53); lra).
  assert (D1 : Rabs (rnd64 (B2R t - B2R t0)) <= bp 1001) by (apply rnd_bound; [lia|exact L1]). rewrite Rabs_pos_eq in D1 by exact D0.
  destruct ct_val as [Fc Vc]. assert (C1 : 1 <= IZR ctime) by (apply IZR_le; lia).
  assert (Q : 0 <= rnd64 (B2R t - B2R t0) / IZR ctime <= bp 1001).
  { split; [apply Rmult_le_pos; [exact D0|left; apply Rinv_0_lt_compat; lra]|]. apply Rmult_le_reg_r with (IZR ctime); [lra|]. unfold Rdiv. rewrite Rmult_assoc, Rinv_l, Rmult_1_r by lra.
    apply Rle_trans with (bp 1001 * 1); [lra|]. apply Rmult_le_compat_l; lra. }
  assert (N : - rnd64 (B2R t - B2R t0) / IZR ctime = - (rnd64 (B2R t - B2R t0) / IZR ctime)) by (unfold Rdiv; ring).
  destruct (fdiv_cases 53 1024 p53 e1024 (Bopp (sub64 t t0)) (z64 ctime) ltac:(rewrite is_finite_Bopp; exact Fd) ltac:(rewrite Vc; lra)) as [[_ [Fq Vq]]|[O _]];
    rewrite B2R_Bopp, Vd, Vc, N in *.
  - destruct (EO _ Fq) as [Fe Ee]. { rewrite Vq, rnd_opp. pose proof (rnd_nonneg 53 1024 p53 _ (proj1 Q)). lra. }
    unfold f_ef. apply (to_single_range _ 0 1 Fe); try lra.
    + apply generic_format_0.
    + change 1 with (bp 0). apply generic_format_bpow. unfold SpecFloat.fexp, SpecFloat.emin. lia.
    + assert (0 < bp 127) by apply bpow_gt_0. lra.
    + change 1 with (bp 0). apply bpow_le. lia.
  - exfalso. assert (S : Rabs (- (rnd64 (B2R t - B2R t0) / IZR ctime)) <= bp 1010) by (rewrite Rabs_Ropp, Rabs_pos_eq by apply Q; lra). pose proof (small64 _ S). lra.
Qed.

Variables (M lo hi : R).
Hypothesis MB : 0 <= M <= bp 1000.
Hypothesis LO : - M <= lo.
Hypothesis HI : hi <= M.
Definition slack : R := 4 * u * M.
Definition good_value (x : double) : Prop := is_finite x = true /\ lo <= B2R x <= hi.
Definition close_value (y : double) : Prop := is_finite y = true /\ lo - slack <= B2R y <= hi + slack.
Lemma slack_0 : 0 <= slack /\ slack <= M.
Proof. pose proof u_small. unfold slack. assert (0 <= u * M) by (apply Rmult_le_pos; lra). assert (u * M <= / 1000 * M) by (apply Rmult_le_compat_r; lra). lra. Qed.
Lemma update_close last g x : close_value last -> good_gain g -> good_value x -> close_value (f_update last g x).
Proof.
  intros [Fl Kl] [Fg Kg] [Fx Kx]. pose proof gmin_pos. pose proof slack_0 as SL. pose proof u_small as U.
  pose proof (bp_succ 1000) as B1. change (1000 + 1)%Z with 1001%Z in B1.
  assert (Al : Rabs (B2R last) <= M + slack) by (apply Rabs_le; lra). assert (Ax : Rabs (B2R x) <= M + slack) by (apply Rabs_le; lra).
  destruct (update_val last x g Fl Fx Fg ltac:(lra) ltac:(lra) ltac:(lra)) as [Fy Vy]. split; [exact Fy|]. rewrite Vy.
  assert (E : 3 * u * (M + slack) + 2 * (u * (u * (M + slack))) <= slack).
  { unfold slack. set (m := u * M). assert (M0 : 0 <= m) by (apply Rmult_le_pos; lra).
    replace (3 * u * (M + 4 * u * M)) with (3 * m + 12 * (u * m)) by (unfold m; ring). replace (u * (u * (M + 4 * u * M))) with (u * m + 4 * (u * (u * m))) by (unfold m; ring).
    replace (4 * u * M) with (4 * m) by (unfold m; ring). assert (U1 : u * m <= / 1000 * m) by (apply Rmult_le_compat_r; lra). assert (U0 : 0 <= u * m) by (apply Rmult_le_pos; lra).
    assert (U2 : u * (u * m) <= / 1000 * (u * m)) by (apply Rmult_le_compat_r; lra). lra. }
  destruct (Rle_or_lt (B2R last) (B2R x)) as [C|C].
  - pose proof (upd_up (B2R last) (B2R g) (B2R x) (M + slack) (B2R_format 53 1024 last) (B2R_format 53 1024 x) ltac:(lra) C Al Ax). lra.
  - pose proof (upd_down (B2R last) (B2R g) (B2R x) (M + slack) (B2R_format 53 1024 last) (B2R_format 53 1024 x) ltac:(lra) ltac:(lra) Al Ax). lra.
Qed.

(* the result at one position *)
Definition right_at (p : double * double) (y : double) : Prop :=
  if f_missing nan (snd p) then y = B754_nan else close_value y.
(* chronological, starting at t0 *)
Fixpoint sorted_from (t0 : double) (pts : list (double * double)) : Prop :=
  match pts with [] => True | (t, _) :: r => good_time t /\ B2R t0 <= B2R t /\ sorted_from t r end.
Lemma sorted_weaken t0 t1 pts : B2R t0 <= B2R t1 -> sorted_from t1 pts -> sorted_from t0 pts.
Proof. destruct pts as [|[t x] r]; [auto|]. cbn. intros L (A & B & C). split; [exact A|]. split; [lra|exact C]. Qed.
Lemma loop_right pts : forall t0 last g, good_time t0 -> sorted_from t0 pts -> close_value last -> good_gain g ->
  (forall t x, In (t, x) pts -> f_missing nan x = false -> good_value x) ->
  Forall2 right_at pts (f_exp_loop exp64 nan ctime t0 last g pts).
Proof.
  induction pts as [|[t x] r IH]; intros t0 last g T0 S C G V; [constructor|]. destruct S as (T & L & S). cbn [f_exp_loop].
  destruct (f_missing nan x) eqn:MI.
  - constructor; [unfold right_at; cbn [snd]; rewrite MI; reflexivity|]. apply IH; try assumption; [apply (sorted_weaken t0 t); assumption|intros; apply (V t1); [right|]; assumption].
  - destruct (ef_ok t0 t T0 T L) as [Fe Ee]. pose proof (gain_step g _ G Fe Ee) as G'. pose proof (update_close last _ x C G' (V t x (or_introl eq_refl) MI)) as C'.
    constructor; [unfold right_at; cbn [snd]; rewrite MI; exact C'|]. apply IH; try assumption. intros; apply (V t1); [right|]; assumption.
Qed.
Lemma one_gain : good_gain (f1 24 128 p24 e128).
Proof. destruct (f1_val 24 128 p24 e128) as [F V]. pose proof gmin_pos. split; [exact F|]. rewrite V. lra. Qed.
Lemma filter_right pts : forall t0, sorted_from t0 pts -> (forall t x, In (t, x) pts -> f_missing nan x = false -> good_value x) ->
  Forall2 right_at pts (f_exp_filter exp64 nan ctime pts).
Proof.
  induction pts as [|[t x] r IH]; intros t0 S V; [constructor|]. destruct S as (T & L & S). cbn [f_exp_filter]. destruct (f_missing nan x) eqn:MI.
  - constructor; [unfold right_at; cbn [snd]; rewrite MI; reflexivity|]. apply (IH t); [exact S|]. intros; apply (V t1); [right|]; assumption.
  - destruct (V t x (or_introl eq_refl) MI) as [Fx Kx]. pose proof slack_0. assert (C : close_value x) by (split; [exact Fx|lra]).
    constructor; [unfold right_at; cbn [snd]; rewrite MI; exact C|]. apply loop_right; try assumption; [apply one_gain|]. intros; apply (V t1); [right|]; assumption.
Qed.
End Loop.

Lemma Forall2_nth {A B} (P : A -> B -> Prop) l m : Forall2 P l m -> forall k a, nth_error l k = Some a -> exists b, nth_error m k = Some b /\ P a b.
Proof. induction 1 as [|x y l m H F IH]; intros [|k] a E; cbn in *; try discriminate; [injection E as <-; exists y; auto|apply IH, E]. Qed.
Lemma Forall2_length' {A B} (P : A -> B -> Prop) l m : Forall2 P l m -> List.length l = List.length m.
Proof. induction 1; cbn; congruence. Qed.
