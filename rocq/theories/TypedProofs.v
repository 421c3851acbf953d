(* Conversions between floating point formats, wrapping of integers, and typed arrays. *)
From Coq Require Import ZArith Reals Lra Lia.
From Flocq Require Import Core IEEE754.BinarySingleNaN Relative.
From Verif Require Import TypedModel.
Open Scope R_scope.

Section Convert.
Variables p e p' e' : Z.
Context (Hp' : Prec_gt_0 p') (He' : Prec_lt_emax p' e').
Notation conv := (convert (p:=p) (e:=e) p' e' Hp' He').
Notation rnd := (round radix2 (SpecFloat.fexp p' e') ZnearestE).
Instance vexp : Valid_exp (SpecFloat.fexp p' e') := fexp_correct p' e' Hp'.

(* a finite number is rounded; if the rounded number is too large the result is infinite *)
Lemma conv_finite x : is_finite x = true ->
  (Rabs (rnd (B2R x)) < bpow radix2 e' -> is_finite (conv x) = true /\ B2R (conv x) = rnd (B2R x) /\ Bsign (conv x) = Bsign x) /\
  (bpow radix2 e' <= Rabs (rnd (B2R x)) -> conv x = B754_infinity (Bsign x)).
Proof.
  intros F. destruct x as [s|s| |s m ex H]; try discriminate F.
  - cbn [B2R convert]. rewrite round_0 by auto with typeclass_instances. rewrite Rabs_R0. split; [auto|]. pose proof (bpow_gt_0 radix2 e'). lra.
  - unfold convert. pose proof (binary_normalize_correct p' e' Hp' He' mode_NE (cond_Zopp s (Zpos m)) ex s) as C. cbv zeta in C. cbn [round_mode] in C.
    change (F2R {| Fnum := cond_Zopp s (Zpos m); Fexp := ex |}) with (B2R (B754_finite s m ex H)) in C. set (x := B754_finite s m ex H) in *.
    assert (SG : if s then B2R x < 0 else 0 < B2R x). { unfold x. cbn [B2R]. destruct s; cbn [cond_Zopp]; [apply F2R_lt_0|apply F2R_gt_0]; reflexivity. }
    destruct (Rlt_bool_spec (Rabs (rnd (B2R x))) (bpow radix2 e')) as [L|G].
    + destruct C as (A & B & C). split; [intros _|lra]. split; [exact B|]. split; [exact A|]. rewrite C. change (Bsign x) with s. destruct s; [rewrite Rcompare_Lt by exact SG|rewrite Rcompare_Gt by exact SG]; reflexivity.
    + split; [lra|intros _]. change (Bsign x) with s. apply B2SF_inj. refine (eq_trans C _). unfold binary_overflow. cbn [overflow_to_inf B2SF]. f_equal. destruct s; [apply Rlt_bool_true, SG|apply Rlt_bool_false; lra].
Qed.
Lemma conv_nan x : is_nan (conv x) = is_nan x.
Proof.
  destruct (is_finite x) eqn:F.
  - destruct (conv_finite x F) as [A B]. destruct (Rlt_dec (Rabs (rnd (B2R x))) (bpow radix2 e')) as [L|G].
    + destruct (A L) as (C & _). destruct (conv x), x; try discriminate; reflexivity.
    + rewrite B by lra. destruct x; try discriminate; reflexivity.
  - destruct x; try discriminate; reflexivity.
Qed.
Lemma bleb_inf (y : binary_float p' e') : is_nan y = false -> Bleb y (B754_infinity false) = true.
Proof. destruct y as [[]|[]| |[] m ex H]; try discriminate; reflexivity. Qed.
Lemma inf_bleb (y : binary_float p' e') : is_nan y = false -> Bleb (B754_infinity true) y = true.
Proof. destruct y as [[]|[]| |[] m ex H]; try discriminate; reflexivity. Qed.
Lemma bsign_neg (x : binary_float p e) : is_finite x = true -> B2R x < 0 -> Bsign x = true.
Proof. destruct x as [s|s| |s m ex H]; try discriminate; cbn [B2R Bsign]; intros _ L; [lra|]. destruct s; [reflexivity|]. exfalso. pose proof (F2R_gt_0 radix2 {| Fnum := Zpos m; Fexp := ex |} ltac:(reflexivity)). cbn [cond_Zopp] in L. lra. Qed.
Lemma bsign_pos (x : binary_float p e) : is_finite x = true -> 0 < B2R x -> Bsign x = false.
Proof. destruct x as [s|s| |s m ex H]; try discriminate; cbn [B2R Bsign]; intros _ L; [lra|]. destruct s; [|reflexivity]. exfalso. pose proof (F2R_lt_0 radix2 {| Fnum := Zneg m; Fexp := ex |} ltac:(reflexivity)). cbn [cond_Zopp Z.opp] in L. lra. Qed.
Lemma rnd_pos_arg x : 0 < rnd x -> 0 < x.
Proof. intros H. destruct (Rlt_dec 0 x) as [|N]; [assumption|]. exfalso. assert (rnd x <= rnd 0) by (apply round_le; auto with typeclass_instances; lra). rewrite round_0 in H0 by auto with typeclass_instances. lra. Qed.
Lemma rnd_neg_arg x : rnd x < 0 -> x < 0.
Proof. intros H. destruct (Rlt_dec x 0) as [|N]; [assumption|]. exfalso. assert (rnd 0 <= rnd x) by (apply round_le; auto with typeclass_instances; lra). rewrite round_0 in H0 by auto with typeclass_instances. lra. Qed.

(* conversion keeps the order *)
Lemma conv_le x y : Bleb x y = true -> Bleb (conv x) (conv y) = true.
Proof.
  intros L.
  assert (NX : is_nan x = false) by (destruct x as [[]|[]| |[] ? ? ?], y as [[]|[]| |[] ? ? ?]; first [reflexivity|discriminate L]).
  assert (NY : is_nan y = false) by (destruct x as [[]|[]| |[] ? ? ?], y as [[]|[]| |[] ? ? ?]; first [reflexivity|discriminate L]).
  assert (CX : is_nan (conv x) = false) by (rewrite conv_nan; exact NX). assert (CY : is_nan (conv y) = false) by (rewrite conv_nan; exact NY).
  destruct (is_finite x) eqn:FX.
  2: { destruct x as [|[]| |]; try discriminate; [apply inf_bleb, CY|]. destruct y as [[]|[]| |[] ? ? ?]; try discriminate. reflexivity. }
  destruct (is_finite y) eqn:FY.
  2: { destruct y as [|[]| |]; try discriminate; [|apply bleb_inf, CX]. destruct x as [[]|[]| |[] ? ? ?]; discriminate. }
  rewrite Bleb_correct in L by assumption. apply Rle_bool_true_iff in L || (revert L; case Rle_bool_spec; [intros L _|discriminate]).
  destruct (conv_finite x FX) as [AX BX]. destruct (conv_finite y FY) as [AY BY].
  assert (RL : rnd (B2R x) <= rnd (B2R y)) by (apply round_le; auto with typeclass_instances). pose proof (bpow_gt_0 radix2 e') as PB.
  destruct (Rlt_dec (Rabs (rnd (B2R y))) (bpow radix2 e')) as [LY|GY].
  - destruct (AY LY) as (F1 & V1 & _). destruct (Rlt_dec (Rabs (rnd (B2R x))) (bpow radix2 e')) as [LX|GX].
    + destruct (AX LX) as (F2 & V2 & _). rewrite Bleb_correct by assumption. rewrite V1, V2. apply Rle_bool_true. exact RL.
    + rewrite BX by lra. apply Rabs_lt_inv in LY. assert (rnd (B2R x) < 0). { destruct (Rlt_dec (rnd (B2R x)) 0) as [|N]; [assumption|]. exfalso. rewrite Rabs_pos_eq in GX by lra. lra. }
      rewrite (bsign_neg x FX) by (apply rnd_neg_arg; assumption). apply inf_bleb, CY.
  - destruct (Rlt_dec 0 (rnd (B2R y))) as [PY|NP].
    + rewrite BY by lra. rewrite (bsign_pos y FY) by (apply rnd_pos_arg; assumption). apply bleb_inf, CX.
    + assert (NYY : rnd (B2R y) < 0). { destruct (Req_dec (rnd (B2R y)) 0) as [E|]; [|lra]. exfalso. rewrite E, Rabs_R0 in GY. lra. }
      assert (GX : bpow radix2 e' <= Rabs (rnd (B2R x))). { rewrite Rabs_left by lra. rewrite Rabs_left in GY by assumption. lra. }
      rewrite (BX GX), (bsign_neg x FX) by (apply rnd_neg_arg; lra). apply inf_bleb, CY.
Qed.
End Convert.

Lemma conv_exact p e p' e' Hp' He' (x : binary_float p e) : is_finite x = true -> generic_format radix2 (SpecFloat.fexp p' e') (B2R x) -> Rabs (B2R x) < bpow radix2 e' ->
  is_finite (convert p' e' Hp' He' x) = true /\ B2R (convert p' e' Hp' He' x) = B2R x /\ Bsign (convert p' e' Hp' He' x) = Bsign x.
Proof.
  intros F G L. assert (E : round radix2 (SpecFloat.fexp p' e') ZnearestE (B2R x) = B2R x) by (apply round_generic; auto with typeclass_instances).
  destruct (conv_finite p e p' e' Hp' He' x F) as [A _]. rewrite E in A. exact (A L).
Qed.
Lemma format_single_double r : generic_format radix2 (SpecFloat.fexp 24 128) r -> generic_format radix2 (SpecFloat.fexp 53 1024) r.
Proof. intros H. eapply generic_inclusion_mag; [|exact H]. intros _. unfold SpecFloat.fexp, SpecFloat.emin. lia. Qed.

(* float32 to float64 is exact, and back gives the same number *)
Lemma to_double_exact (x : single) : is_finite x = true -> is_finite (to_double x) = true /\ B2R (to_double x) = B2R x /\ Bsign (to_double x) = Bsign x.
Proof.
  intros F. apply conv_exact; [exact F|apply format_single_double, generic_format_B2R|].
  apply (Rlt_trans _ (bpow radix2 128)); [apply abs_B2R_lt_emax|apply bpow_lt; lia].
Qed.
Lemma single_double_single (x : single) : to_single (to_double x) = x.
Proof.
  destruct (is_finite x) eqn:F; [|destruct x; try discriminate; reflexivity].
  destruct (to_double_exact x F) as (F1 & V1 & S1).
  destruct (conv_exact 53 1024 24 128 p24 e128 (to_double x) F1) as (F2 & V2 & S2).
  - rewrite V1. apply generic_format_B2R.
  - rewrite V1. apply abs_B2R_lt_emax.
  - apply B2R_Bsign_inj; [exact F2|exact F| |]; unfold to_single; congruence.
Qed.

(* relative error of a stored number *)
Lemma to_single_error (x : double) : is_finite x = true -> bpow radix2 (-126) <= Rabs (B2R x) -> Rabs (B2R x) <= bpow radix2 127 ->
  is_finite (to_single x) = true /\ Rabs (B2R (to_single x) - B2R x) <= bpow radix2 (-24) * Rabs (B2R x).
Proof.
  intros F L U. unfold to_single. set (X := convert _ _ _ _ _). 
  assert (ER : Rabs (round radix2 (SpecFloat.fexp 24 128) ZnearestE (B2R x) - B2R x) <= bpow radix2 (-24) * Rabs (B2R x)).
  { pose proof (relative_error_N_FLT radix2 (-149) 24 ltac:(lia) (fun n => negb (Z.even n)) (B2R x) L) as H. 
    replace (bpow radix2 (-24)) with (/ 2 * bpow radix2 (-24 + 1)); [exact H|]. change (-24 + 1)%Z with (1 + (-24))%Z. rewrite bpow_plus. change (bpow radix2 1) with 2. field. }
  assert (B : Rabs (round radix2 (SpecFloat.fexp 24 128) ZnearestE (B2R x)) < bpow radix2 128).
  { apply Rle_lt_trans with (bpow radix2 127); [|apply bpow_lt; lia]. apply abs_round_le_generic; [apply vexp, p24|auto with typeclass_instances| |exact U]. apply generic_format_bpow. unfold SpecFloat.fexp, SpecFloat.emin. lia. }
  destruct (conv_finite 53 1024 24 128 p24 e128 x F) as [A _]. destruct (A B) as (A1 & A2 & _). fold X in A1, A2. split; [exact A1|]. rewrite A2. exact ER.
Qed.

(* numbers between two representable bounds stay between them *)
Lemma to_single_range (x : double) a b : is_finite x = true -> generic_format radix2 (SpecFloat.fexp 24 128) a -> generic_format radix2 (SpecFloat.fexp 24 128) b ->
  - bpow radix2 127 <= a -> b <= bpow radix2 127 -> a <= B2R x <= b -> is_finite (to_single x) = true /\ a <= B2R (to_single x) <= b.
Proof.
  intros F GA GB BA BB [XA XB].
  assert (R1 : a <= round radix2 (SpecFloat.fexp 24 128) ZnearestE (B2R x)) by (apply round_ge_generic; [apply vexp, p24|auto with typeclass_instances|exact GA|exact XA]).
  assert (R2 : round radix2 (SpecFloat.fexp 24 128) ZnearestE (B2R x) <= b) by (apply round_le_generic; [apply vexp, p24|auto with typeclass_instances|exact GB|exact XB]).
  destruct (conv_finite 53 1024 24 128 p24 e128 x F) as [A _]. destruct A as (A1 & A2 & _).
  - assert (bpow radix2 127 < bpow radix2 128) by (apply bpow_lt; lia). apply Rabs_lt. lra.
  - unfold to_single. split; [exact A1|]. rewrite A2. lra.
Qed.

(* ---- integers ---- *)
Open Scope Z_scope.
Lemma int32_range_spec z : int32_range z = true <-> - 2 ^ 31 <= z < 2 ^ 31.
Proof. unfold int32_range. rewrite Bool.andb_true_iff, Z.leb_le, Z.ltb_lt. reflexivity. Qed.
Lemma wrap32_id z : - 2 ^ 31 <= z < 2 ^ 31 -> wrap32 z = z.
Proof. intros H. unfold wrap32. rewrite Z.mod_small by lia. lia. Qed.
Lemma wrap32_range z : - 2 ^ 31 <= wrap32 z < 2 ^ 31.
Proof. unfold wrap32. pose proof (Z.mod_pos_bound (z + 2 ^ 31) (2 ^ 32) ltac:(lia)). lia. Qed.
Lemma wrap32_eq a b : wrap32 a = wrap32 b <-> (a - b) mod 2 ^ 32 = 0.
Proof.
  unfold wrap32. split; intros H.
  - assert (E : (a + 2 ^ 31) mod 2 ^ 32 = (b + 2 ^ 31) mod 2 ^ 32) by lia. replace (a - b) with ((a + 2 ^ 31) - (b + 2 ^ 31)) by lia. rewrite Zminus_mod, E, Z.sub_diag. reflexivity.
  - f_equal. replace (a + 2 ^ 31) with ((b + 2 ^ 31) + (a - b)) by lia. rewrite Zplus_mod, H, Z.add_0_r. apply Zmod_mod.
Qed.
