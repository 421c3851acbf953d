(* The exponential filter in IEEE 754 arithmetic: constant series, and what a jump back in time does. *)
From Coq Require Import ZArith Reals List Lia Lra Bool.
From Flocq Require Import Core IEEE754.BinarySingleNaN.
From Verif Require Import FloatModel FloatSpec FloatProofs FloatProofs4 TypedModel TypedProofs ExpFloatModel ExpFloatSpec ExpFloatProofs.
Import ListNotations.
Open Scope R_scope.

(* ---- constant series ---- *)
Section Const.
Variable exp64 : double -> double.
Variable nan : double.
Variable ctime : Z.
Hypothesis EO : exp_ok exp64.
Hypothesis CT : (1 <= ctime < 2 ^ 31)%Z.
Variable c : R.
Hypothesis CB : Rabs c <= bp 1000.
Definition is_c (x : double) : Prop := is_finite x = true /\ B2R x = c.
Definition c_at (p : double * double) (y : double) : Prop := if f_missing nan (snd p) then y = B754_nan else is_c y.
Lemma update_c last g x : is_c last -> good_gain g -> is_c x -> is_c (f_update last g x).
Proof.
  intros [Fl Vl] [Fg Kg] [Fx Vx]. pose proof gmin_pos. pose proof (bp_succ 1000) as B1. change (1000 + 1)%Z with 1001%Z in B1. pose proof (bpow_gt_0 radix2 1000).
  destruct (update_val last x g Fl Fx Fg ltac:(lra)) as [Fy Vy]; try (rewrite Vl || rewrite Vx; lra). split; [exact Fy|]. rewrite Vy, Vl, Vx. apply upd_same. rewrite <- Vl. apply (B2R_format 53 1024).
Qed.
Lemma loop_c pts : forall t0 last g, good_time t0 -> sorted_from t0 pts -> is_c last -> good_gain g -> (forall t x, In (t, x) pts -> f_missing nan x = false -> is_c x) ->
  Forall2 c_at pts (f_exp_loop exp64 nan ctime t0 last g pts).
Proof.
  induction pts as [|[t x] r IH]; intros t0 last g T0 S C G V; [constructor|]. destruct S as (T & L & S). cbn [f_exp_loop].
  destruct (f_missing nan x) eqn:MI.
  - constructor; [unfold c_at; cbn [snd]; rewrite MI; reflexivity|]. apply IH; try assumption; [apply (sorted_weaken t0 t); assumption|intros; apply (V t1); [right|]; assumption].
  - destruct (ef_ok exp64 ctime EO CT t0 t T0 T L) as [Fe Ee]. pose proof (gain_step g _ G Fe Ee) as G'. pose proof (update_c last _ x C G' (V t x (or_introl eq_refl) MI)) as C'.
    constructor; [unfold c_at; cbn [snd]; rewrite MI; exact C'|]. apply IH; try assumption. intros; apply (V t1); [right|]; assumption.
Qed.
Lemma filter_c pts : forall t0, sorted_from t0 pts -> (forall t x, In (t, x) pts -> f_missing nan x = false -> is_c x) -> Forall2 c_at pts (f_exp_filter exp64 nan ctime pts).
Proof.
  induction pts as [|[t x] r IH]; intros t0 S V; [constructor|]. destruct S as (T & L & S). cbn [f_exp_filter]. destruct (f_missing nan x) eqn:MI.
  - constructor; [unfold c_at; cbn [snd]; rewrite MI; reflexivity|]. apply (IH t); [exact S|]. intros; apply (V t1); [right|]; assumption.
  - pose proof (V t x (or_introl eq_refl) MI) as C.
    constructor; [unfold c_at; cbn [snd]; rewrite MI; exact C|]. apply loop_c; try assumption; [apply one_gain|]. intros; apply (V t1); [right|]; assumption.
Qed.
End Const.

(* ---- a jump back in time ---- *)
(* what the filter computes with: -(t - last_jd) / ctime in doubles *)
Definition exponent (ctime : Z) (t0 t : double) : double := div64 (Bopp (sub64 t t0)) (z64 ctime).

Lemma ef_inf (e : double) : e = B754_infinity false \/ is_finite e = true /\ bp 128 <= B2R e -> to_single e = B754_infinity false.
Proof.
  intros [E|[F B]]; [subst; reflexivity|]. pose proof (bpow_gt_0 radix2 128) as P.
  assert (R1 : bp 128 <= round radix2 (SpecFloat.fexp 24 128) ZnearestE (B2R e)).
  { apply round_ge_generic; [apply vexp, p24|auto with typeclass_instances| |exact B]. apply generic_format_bpow. unfold SpecFloat.fexp, SpecFloat.emin. lia. }
  destruct (conv_finite 53 1024 24 128 p24 e128 e F) as [_ A]. unfold to_single. rewrite A by (rewrite Rabs_pos_eq by lra; exact R1).
  f_equal. apply bsign_pos; [exact F|lra].
Qed.
Lemma ef_zero (e : double) : is_finite e = true -> 0 <= B2R e < bp (-150) -> is_finite (to_single e) = true /\ B2R (to_single e) = 0.
Proof.
  intros F B. assert (Z : round radix2 (SpecFloat.fexp 24 128) ZnearestE (B2R e) = 0).
  { unfold round, scaled_mantissa. destruct (Req_dec (B2R e) 0) as [E|N].
    - rewrite E, Rmult_0_l. rewrite (Znearest_imp _ _ 0) by (rewrite Rminus_0_l, Ropp_0, Rabs_R0; lra). apply F2R_0.
    - assert (C : cexp radix2 (SpecFloat.fexp 24 128) (B2R e) = (-149)%Z).
      { unfold cexp, SpecFloat.fexp, SpecFloat.emin. assert (mag radix2 (B2R e) <= -150)%Z by (apply mag_le_bpow; [exact N|rewrite Rabs_pos_eq by lra; lra]). lia. }
      rewrite C. rewrite (Znearest_imp _ _ 0); [apply F2R_0|]. rewrite Rminus_0_r, Rabs_pos_eq.
      + apply Rlt_le_trans with (bp (-150) * bp (- -149)); [apply Rmult_lt_compat_r; [apply bpow_gt_0|lra]|]. rewrite <- bpow_plus. change (bp (-150 + - -149)) with (/ 2). lra.
      + apply Rmult_le_pos; [lra|apply bpow_ge_0]. }
  destruct (conv_finite 53 1024 24 128 p24 e128 e F) as [A _]. rewrite Z, Rabs_R0 in A. destruct (A (bpow_gt_0 _ _)) as (A1 & A2 & _). split; [exact A1|exact A2].
Qed.
Lemma ef_pos (e : double) : is_finite e = true -> bp (-149) <= B2R e <= bp 127 -> is_finite (to_single e) = true /\ 0 < B2R (to_single e).
Proof.
  intros F B. destruct (to_single_range e (bp (-149)) (bp 127) F) as [A C]; try exact B.
  - apply generic_format_bpow. unfold SpecFloat.fexp, SpecFloat.emin. lia.
  - apply generic_format_bpow. unfold SpecFloat.fexp, SpecFloat.emin. lia.
  - pose proof (bpow_gt_0 radix2 127). pose proof (bpow_gt_0 radix2 (-149)). lra.
  - apply Rle_refl.
  - pose proof (bpow_gt_0 radix2 (-149)). split; [exact A|lra].
Qed.
Definition zero_gain (g : single) : Prop := is_finite g = true /\ B2R g = 0.
Lemma gain_inf (g : single) : is_finite g = true -> zero_gain (f_gain g (B754_infinity false)).
Proof. intros F. unfold f_gain, zero_gain. destruct g as [s|s| |s m e H]; try discriminate F; destruct s; cbn; auto. Qed.
Lemma gain_stays (g e : single) : zero_gain g -> is_finite e = true -> 0 < B2R e -> zero_gain (f_gain g e).
Proof.
  intros [F Z] Fe P. unfold f_gain. destruct (fadd_cases 24 128 p24 e128 g e F Fe) as [[_ [Fs Vs]]|[O _]]; rewrite Z, Rplus_0_l in *.
  - rewrite (rnd_id 24 128 e) in Vs. destruct (fdiv_cases 24 128 p24 e128 g (add32 g e) F ltac:(lra)) as [[_ [Fq Vq]]|[O _]]; rewrite Z in *; unfold Rdiv in *; rewrite Rmult_0_l, (rnd_0 24 128) in *.
    + split; [exact Fq|exact Vq].
    + rewrite Rabs_R0 in O. pose proof (bpow_gt_0 radix2 128). unfold big in O. lra.
  - rewrite (rnd_id 24 128 e) in O. pose proof (abs_B2R_lt_emax 24 128 e). unfold big in O. lra.
Qed.
Lemma gain_nan (g e : single) : zero_gain g -> is_finite e = true -> B2R e = 0 -> BinarySingleNaN.is_nan (f_gain g e) = true.
Proof.
  intros [F Z] Fe Ze. assert (Hz : forall x : single, is_finite x = true -> B2R x = 0 -> exists s, x = B754_zero s).
  { intros [s|s| |s m ex H] Fx Zx; try discriminate Fx; [exists s; reflexivity|]. exfalso. revert Zx. cbn [B2R]. apply F2R_neq_0. destruct s; discriminate. }
  destruct (Hz g F Z) as [s1 ->]. destruct (Hz e Fe Ze) as [s2 ->]. destruct s1, s2; reflexivity.
Qed.
Lemma upd_zero a x : format a -> upd a 0 x = a.
Proof. intros Fa. unfold upd. rewrite Rmult_0_l, rnd_0 by exact p53. rewrite Rplus_0_r. apply rnd_fmt, Fa. Qed.

Section Jump.
Variable exp64 : double -> double.
Variable nan : double.
Variable ctime : Z.
Hypothesis EG : exp_grows exp64.

(* steps that neither overflow nor underflow *)
Fixpoint moderate (t0 : double) (pts : list (double * double)) : Prop :=
  match pts with
  | [] => True
  | (t, x) :: r => if f_missing nan x then moderate t0 r
                   else is_finite (exponent ctime t0 t) = true /\ -100 <= B2R (exponent ctime t0 t) <= 88 /\ is_finite x = true /\ Rabs (B2R x) <= bp 1000 /\ moderate t r
  end.
Lemma loop_stuck pts : forall t0 last g, is_finite last = true -> Rabs (B2R last) <= bp 1000 -> zero_gain g -> moderate t0 pts ->
  Forall2 (c_at nan (B2R last)) pts (f_exp_loop exp64 nan ctime t0 last g pts).
Proof.
  induction pts as [|[t x] r IH]; intros t0 last g Fl Bl G S; [constructor|]. cbn [f_exp_loop moderate] in *. destruct (f_missing nan x) eqn:MI.
  - constructor; [unfold c_at; cbn [snd]; rewrite MI; reflexivity|]. apply IH; assumption.
  - destruct S as (Fe & Be & Fx & Bx & S). destruct EG as (_ & E2 & _). destruct (E2 _ Fe Be) as [Fy By]. destruct (ef_pos _ Fy By) as [Fs Ps].
    change (to_single (exp64 (exponent ctime t0 t))) with (f_ef exp64 ctime t0 t) in Fs, Ps. pose proof (gain_stays g _ G Fs Ps) as G'.
    pose proof (bp_succ 1000) as B1. change (1000 + 1)%Z with 1001%Z in B1. pose proof (bpow_gt_0 radix2 1000). pose proof G' as [Fg Zg].
    destruct (update_val last x _ Fl Fx Fg ltac:(rewrite Zg; lra) ltac:(lra) ltac:(lra)) as [F' V']. rewrite Zg, upd_zero in V' by apply (B2R_format 53 1024).
    constructor; [unfold c_at; cbn [snd]; rewrite MI; split; [exact F'|exact V']|]. rewrite <- V'. apply IH; try assumption. rewrite V'. exact Bl.
Qed.
(* a step back of at least 89 ctime *)
Lemma jump_stuck t0 last g t x r : is_finite last = true -> Rabs (B2R last) <= bp 1000 -> good_gain g -> f_missing nan x = false -> is_finite x = true -> Rabs (B2R x) <= bp 1000 ->
  is_finite (exponent ctime t0 t) = true -> 89 <= B2R (exponent ctime t0 t) -> moderate t r ->
  Forall2 (c_at nan (B2R last)) ((t, x) :: r) (f_exp_loop exp64 nan ctime t0 last g ((t, x) :: r)).
Proof.
  intros Fl Bl G MI Fx Bx Fe Be S. cbn [f_exp_loop]. rewrite MI. destruct EG as (E1 & _).
  assert (G' : zero_gain (f_gain g (f_ef exp64 ctime t0 t))). { replace (f_ef exp64 ctime t0 t) with (B754_infinity false : single); [apply gain_inf, G|symmetry; apply ef_inf, E1; assumption]. }
  pose proof (bp_succ 1000) as B1. change (1000 + 1)%Z with 1001%Z in B1. pose proof (bpow_gt_0 radix2 1000). pose proof G' as [Fg Zg].
  destruct (update_val last x _ Fl Fx Fg ltac:(rewrite Zg; lra) ltac:(lra) ltac:(lra)) as [F' V']. rewrite Zg, upd_zero in V' by apply (B2R_format 53 1024).
  constructor; [unfold c_at; cbn [snd]; rewrite MI; split; [exact F'|exact V']|]. rewrite <- V'. apply loop_stuck; try assumption. rewrite V'. exact Bl.
Qed.
(* and then a gap of 105 ctime: the gain is 0/0, and stays NaN *)
Lemma nan_gain (g e : single) : BinarySingleNaN.is_nan g = true -> f_gain g e = B754_nan. Proof. destruct g; try discriminate. reflexivity. Qed.
Lemma nan_update last (g : single) x : BinarySingleNaN.is_nan g = true -> f_update last g x = B754_nan.
Proof. destruct g; try discriminate. intros _. unfold f_update, to_double, convert, fmul, fadd. destruct last; destruct (sub64 x _); reflexivity. Qed.
Lemma loop_nan pts : forall t0 last g, BinarySingleNaN.is_nan g = true -> f_exp_loop exp64 nan ctime t0 last g pts = map (fun _ => B754_nan) pts.
Proof.
  induction pts as [|[t x] r IH]; intros t0 last g G; [reflexivity|]. cbn [f_exp_loop map]. destruct (f_missing nan x); [rewrite IH by exact G; reflexivity|].
  rewrite nan_gain by exact G. rewrite nan_update, IH by reflexivity. reflexivity.
Qed.
Lemma jump_nan t0 last g t x r : zero_gain g -> f_missing nan x = false -> is_finite (exponent ctime t0 t) = true -> B2R (exponent ctime t0 t) <= -105 ->
  f_exp_loop exp64 nan ctime t0 last g ((t, x) :: r) = map (fun _ => B754_nan) ((t, x) :: r).
Proof.
  intros G MI Fe Be. cbn [f_exp_loop map]. rewrite MI. destruct EG as (_ & _ & E3). destruct (E3 _ Fe Be) as [Fy By]. destruct (ef_zero _ Fy By) as [Fs Zs].
  change (to_single (exp64 (exponent ctime t0 t))) with (f_ef exp64 ctime t0 t) in Fs, Zs. pose proof (gain_nan g _ G Fs Zs) as N.
  rewrite nan_update, loop_nan by exact N. reflexivity.
Qed.
End Jump.
