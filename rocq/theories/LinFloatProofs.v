(* Order in IEEE 754 arithmetic, including infinities. *)
From Coq Require Import ZArith Reals List Lia Lra Bool.
From Flocq Require Import Core IEEE754.BinarySingleNaN.
From Verif Require Import FloatModel FloatSpec FloatProofs LinFloatModel.
Import ListNotations.
Open Scope R_scope.

Section LinProofs.
Variables prec emax : Z.
Context (Hp : Prec_gt_0 prec) (He : Prec_lt_emax prec emax).
Notation float := (binary_float prec emax).
Notation fadd := (fadd prec emax Hp He).
Notation fsub := (fsub prec emax Hp He).
Notation fmul := (fmul prec emax Hp He).
Notation fdiv := (fdiv prec emax Hp He).
Notation rnd := (rnd prec emax).
Notation big := (big emax).

(* the value of a number, infinities as the first power beyond the format *)
Definition sat (a : float) : R := match a with B754_infinity s => if s then - big else big | _ => B2R a end.
Definition clamp (x : R) : R := Rmax (- big) (Rmin big x).
Lemma clamp_le x y : x <= y -> clamp x <= clamp y.
Proof. intros L. unfold clamp. apply Rle_max_compat_l. apply Rle_min_compat_l. exact L. Qed.
Lemma clamp_in x : Rabs x < big -> clamp x = x.
Proof. intros L. apply Rabs_def2 in L as [L1 L2]. unfold clamp. rewrite Rmin_right by lra. apply Rmax_right. lra. Qed.
Lemma clamp_hi x : big <= x -> clamp x = big.
Proof. intros L. pose proof (big_pos emax). unfold clamp. rewrite Rmin_left by lra. apply Rmax_right. lra. Qed.
Lemma clamp_lo x : x <= - big -> clamp x = - big.
Proof. intros L. pose proof (big_pos emax). unfold clamp. rewrite Rmin_right by lra. apply Rmax_left. lra. Qed.
Lemma fin_lt (a : float) : is_finite a = true -> - big < B2R a < big.
Proof. intros F. pose proof (abs_B2R_lt_emax prec emax a) as L. apply Rabs_def2 in L as [L1 L2]. split; [exact L2|exact L1]. Qed.
Lemma sat_fin (a : float) : is_finite a = true -> sat a = B2R a. Proof. destruct a; cbn; intros; try discriminate; reflexivity. Qed.
Lemma sat_bound (a : float) : is_nan a = false -> - big <= sat a <= big.
Proof.
  intros N. pose proof (big_pos emax). destruct (is_finite a) eqn:F; [rewrite sat_fin by exact F; pose proof (fin_lt a F); lra|].
  destruct a as [s|s| |s m e B]; try discriminate. cbn. destruct s; lra.
Qed.
Lemma leb_sat (a b : float) : is_nan a = false -> is_nan b = false -> (Bleb a b = true <-> sat a <= sat b).
Proof.
  intros A B. pose proof (big_pos emax) as P. destruct (is_finite a) eqn:FA.
  - destruct (is_finite b) eqn:FB.
    + rewrite (Bleb_correct prec emax a b FA FB), !sat_fin by assumption. destruct (Rle_bool_spec (B2R a) (B2R b)); split; intros; try lra; try reflexivity; discriminate.
    + pose proof (fin_lt a FA) as L. rewrite (sat_fin a FA). destruct b as [s|s| |s m e Hb]; try discriminate. cbn [sat].
      destruct s; (split; intros H; [|]); destruct a as [sa|sa| |[|] ma ea Ha]; try discriminate; cbn in *; try reflexivity; lra.
  - destruct a as [sa|sa| |sa ma ea Ha]; try discriminate. cbn [sat]. pose proof (sat_bound b B) as SB.
    destruct (is_finite b) eqn:FB.
    + pose proof (fin_lt b FB) as L. rewrite (sat_fin b FB) in *.
      destruct sa; (split; intros H; [|]); destruct b as [s|s| |[|] m e Hb]; try discriminate; cbn in *; try reflexivity; lra.
    + destruct b as [s|s| |s m e Hb]; try discriminate. destruct sa, s; cbn; (split; intros H; try reflexivity; try discriminate; lra).
Qed.
Lemma sign_le (a : float) : is_finite a = true -> if Bsign a then B2R a <= 0 else 0 <= B2R a.
Proof.
  intros F. destruct a as [s|s| |s m e B]; try discriminate; cbn [Bsign B2R]; destruct s; try lra; cbn.
  - apply F2R_le_0. cbn. lia.
  - apply F2R_ge_0. cbn. lia.
Qed.

Lemma sat_add (a c : float) : is_finite a = true -> is_finite c = true -> sat (fadd a c) = clamp (rnd (B2R a + B2R c)).
Proof.
  intros FA FC. destruct (fadd_cases prec emax Hp He a c FA FC) as [[L [F V]]|[L [E S]]].
  - rewrite (sat_fin _ F), V, clamp_in by exact L. reflexivity.
  - rewrite E. cbn [sat]. pose proof (sign_le a FA) as SA. pose proof (sign_le c FC) as SC. rewrite <- S in SC. destruct (Bsign a).
    + assert (Q : rnd (B2R a + B2R c) <= 0) by (rewrite <- (rnd_0 prec emax); apply rnd_le; [exact Hp|lra]). rewrite Rabs_left1 in L by exact Q. symmetry. apply clamp_lo. lra.
    + assert (Q : 0 <= rnd (B2R a + B2R c)) by (apply rnd_nonneg; [exact Hp|lra]). rewrite Rabs_right in L by lra. symmetry. apply clamp_hi. lra.
Qed.
Lemma sat_sub (a c : float) : is_finite a = true -> is_finite c = true -> sat (fsub a c) = clamp (rnd (B2R a - B2R c)).
Proof.
  intros FA FC. destruct (fsub_cases prec emax Hp He a c FA FC) as [[L [F V]]|[L [E S]]].
  - rewrite (sat_fin _ F), V, clamp_in by exact L. reflexivity.
  - rewrite E. cbn [sat]. pose proof (sign_le a FA) as SA. pose proof (sign_le c FC) as SC. rewrite S in SA |- *. destruct (Bsign c); cbn [negb] in *.
    + assert (Q : 0 <= rnd (B2R a - B2R c)) by (apply rnd_nonneg; [exact Hp|lra]). rewrite Rabs_right in L by lra. symmetry. apply clamp_hi. lra.
    + assert (Q : rnd (B2R a - B2R c) <= 0) by (rewrite <- (rnd_0 prec emax); apply rnd_le; [exact Hp|lra]). rewrite Rabs_left1 in L by exact Q. symmetry. apply clamp_lo. lra.
Qed.
Lemma sat_mul (a c : float) : is_finite a = true -> is_finite c = true -> Bsign c = false -> sat (fmul a c) = clamp (rnd (B2R a * B2R c)).
Proof.
  intros FA FC S. pose proof (sign_le a FA) as SA. pose proof (sign_le c FC) as SC. rewrite S in SC. destruct (fmul_cases prec emax Hp He a c FA FC) as [[L [F V]]|[L E]].
  - rewrite (sat_fin _ F), V, clamp_in by exact L. reflexivity.
  - rewrite E, S, xorb_false_r. cbn [sat]. destruct (Bsign a).
    + assert (Q : rnd (B2R a * B2R c) <= 0) by (rewrite <- (rnd_0 prec emax); apply rnd_le; [exact Hp|nra]). rewrite Rabs_left1 in L by exact Q. symmetry. apply clamp_lo. lra.
    + assert (Q : 0 <= rnd (B2R a * B2R c)) by (apply rnd_nonneg; [exact Hp|nra]). rewrite Rabs_right in L by lra. symmetry. apply clamp_hi. lra.
Qed.
Lemma sat_div (a c : float) : is_finite a = true -> is_finite c = true -> Bsign c = false -> B2R c <> 0 -> 0 < B2R c /\ sat (fdiv a c) = clamp (rnd (B2R a / B2R c)).
Proof.
  intros FA FC S NZ. pose proof (sign_le a FA) as SA. pose proof (sign_le c FC) as SC. rewrite S in SC. assert (P : 0 < B2R c) by lra. split; [exact P|].
  assert (IP : 0 < / B2R c) by (apply Rinv_0_lt_compat, P).
  destruct (fdiv_cases prec emax Hp He a c FA NZ) as [[L [F V]]|[L E]].
  - rewrite (sat_fin _ F), V, clamp_in by exact L. reflexivity.
  - rewrite E, S, xorb_false_r. cbn [sat]. destruct (Bsign a).
    + assert (Q : rnd (B2R a / B2R c) <= 0) by (rewrite <- (rnd_0 prec emax); apply rnd_le; [exact Hp|unfold Rdiv; nra]). rewrite Rabs_left1 in L by exact Q. symmetry. apply clamp_lo. lra.
    + assert (Q : 0 <= rnd (B2R a / B2R c)) by (apply rnd_nonneg; [exact Hp|unfold Rdiv; nra]). rewrite Rabs_right in L by lra. symmetry. apply clamp_hi. lra.
Qed.

Lemma leb_cases (a b : float) : Bleb a b = true -> is_nan a = false -> is_nan b = false ->
  a = B754_infinity true \/ b = B754_infinity false \/ (is_finite a = true /\ is_finite b = true /\ B2R a <= B2R b) .
Proof.
  intros L A B. apply (leb_sat a b A B) in L. destruct (is_finite a) eqn:FA.
  - destruct (is_finite b) eqn:FB.
    + right. right. rewrite !sat_fin in L by assumption. auto.
    + destruct b as [s|s| |s m e H]; try discriminate. destruct s; [|auto]. pose proof (fin_lt a FA). rewrite (sat_fin a FA) in L. cbn in L. lra.
  - destruct a as [sa|sa| |sa ma ea Ha]; try discriminate. destruct sa; [auto|]. cbn [sat] in L. destruct (is_finite b) eqn:FB.
    + pose proof (fin_lt b FB). rewrite (sat_fin b FB) in L. lra.
    + destruct b as [s|s| |s m e H]; try discriminate. destruct s; [|auto]. cbn in L. pose proof (big_pos emax). lra.
Qed.
Lemma lo_leb (b : float) : is_nan b = false -> Bleb (B754_infinity true) b = true. Proof. destruct b as [|[|]| |[|]]; cbn; intros; try discriminate; reflexivity. Qed.
Lemma hi_leb (a : float) : is_nan a = false -> Bleb a (B754_infinity false) = true. Proof. destruct a as [|[|]| |[|]]; cbn; intros; try discriminate; reflexivity. Qed.
Lemma fin_nan (a : float) : is_finite a = true -> is_nan a = false. Proof. destruct a; cbn; intros; try discriminate; reflexivity. Qed.
Lemma refl_leb (a : float) : is_nan a = false -> Bleb a a = true. Proof. intros N. apply (leb_sat a a N N). lra. Qed.

Lemma add_mono (a b c : float) : Bleb a b = true -> is_nan (fadd a c) = false -> is_nan (fadd b c) = false -> Bleb (fadd a c) (fadd b c) = true.
Proof.
  intros L NA NB. assert (A : is_nan a = false) by (destruct a as [| | |]; [..|]; try reflexivity; discriminate NA). assert (B : is_nan b = false) by (destruct b; try reflexivity; discriminate NB).
  destruct (is_finite c) eqn:FC.
  - destruct (leb_cases a b L A B) as [E|[E|(FA & FB & LE)]]; subst.
    + replace (fadd (B754_infinity true) c) with (B754_infinity true : float); [apply lo_leb, NB|]. destruct c; try discriminate; reflexivity.
    + replace (fadd (B754_infinity false) c) with (B754_infinity false : float); [apply hi_leb, NA|]. destruct c; try discriminate; reflexivity.
    + apply (leb_sat _ _ NA NB). rewrite !sat_add by assumption. apply clamp_le, rnd_le; [exact Hp|lra].
  - assert (X : forall x, is_nan (fadd x c) = false -> fadd x c = c).
    { intros x N. destruct c as [s|s| |s m e H]; try discriminate FC; destruct x as [t|t| |t m e H]; try discriminate N; try reflexivity. cbn in *. destruct (Bool.eqb t s) eqn:E; [|discriminate]. apply eqb_prop in E. subst. reflexivity. }
    rewrite (X a NA), (X b NB). apply refl_leb. destruct c; try reflexivity. destruct a; discriminate NA.
Qed.
Lemma sub_mono (a b c : float) : Bleb a b = true -> is_nan (fsub a c) = false -> is_nan (fsub b c) = false -> Bleb (fsub a c) (fsub b c) = true.
Proof.
  intros L NA NB. assert (A : is_nan a = false) by (destruct a; try reflexivity; discriminate NA). assert (B : is_nan b = false) by (destruct b; try reflexivity; discriminate NB).
  destruct (is_finite c) eqn:FC.
  - destruct (leb_cases a b L A B) as [E|[E|(FA & FB & LE)]]; subst.
    + replace (fsub (B754_infinity true) c) with (B754_infinity true : float); [apply lo_leb, NB|]. destruct c; try discriminate; reflexivity.
    + replace (fsub (B754_infinity false) c) with (B754_infinity false : float); [apply hi_leb, NA|]. destruct c; try discriminate; reflexivity.
    + apply (leb_sat _ _ NA NB). rewrite !sat_sub by assumption. apply clamp_le, rnd_le; [exact Hp|lra].
  - assert (X : forall x, is_nan (fsub x c) = false -> fsub x c = Bopp c).
    { intros x N. destruct c as [s|s| |s m e H]; try discriminate FC; destruct x as [t|t| |t m e H]; try discriminate N; try reflexivity. cbn in *. destruct (Bool.eqb t (negb s)) eqn:E; [|discriminate]. apply eqb_prop in E. subst. reflexivity. }
    rewrite (X a NA), (X b NB). apply refl_leb. destruct c; try reflexivity. destruct a; discriminate NA.
Qed.
Lemma mul_mono (a b c : float) : Bleb a b = true -> Bsign c = false -> is_nan (fmul a c) = false -> is_nan (fmul b c) = false -> Bleb (fmul a c) (fmul b c) = true.
Proof.
  intros L S NA NB. assert (A : is_nan a = false) by (destruct a; try reflexivity; discriminate NA). assert (B : is_nan b = false) by (destruct b; try reflexivity; discriminate NB).
  assert (NC : is_nan c = false) by (destruct c; try reflexivity; destruct a; discriminate NA).
  destruct (is_finite c) eqn:FC.
  - destruct (leb_cases a b L A B) as [E|[E|(FA & FB & LE)]]; subst.
    + replace (fmul (B754_infinity true) c) with (B754_infinity true : float); [apply lo_leb, NB|]. destruct c as [s|s| |s m e H]; try discriminate. cbn in *. subst. reflexivity.
    + replace (fmul (B754_infinity false) c) with (B754_infinity false : float); [apply hi_leb, NA|]. destruct c as [s|s| |s m e H]; try discriminate. cbn in *. subst. reflexivity.
    + apply (leb_sat _ _ NA NB). rewrite !sat_mul by assumption. apply clamp_le, rnd_le; [exact Hp|]. pose proof (sign_le c FC) as SC. rewrite S in SC. nra.
  - destruct c as [s|s| |s m e H]; try discriminate. cbn in S. subst s.
    assert (X : forall x, is_nan (fmul x (B754_infinity false)) = false -> fmul x (B754_infinity false) = B754_infinity (Bsign x)).
    { intros x N. destruct x as [t|t| |t m e H]; try discriminate N; cbn; rewrite xorb_false_r; reflexivity. }
    rewrite (X a NA), (X b NB). destruct (Bsign a) eqn:SA; [apply lo_leb; reflexivity|]. destruct (Bsign b) eqn:SB; [|reflexivity]. exfalso.
    apply (leb_sat a b A B) in L. pose proof (big_pos emax) as BP. destruct a as [sa|sa| |sa ma ea Ha]; try discriminate; destruct b as [sb|sb| |sb mb eb Hb]; try discriminate; cbn [Bsign] in SA, SB; subst; cbn in L.
    + lra.
    + pose proof (fin_lt (B754_finite true mb eb Hb) eq_refl) as Y. cbn in Y. lra.
    + pose proof (fin_lt (B754_finite false ma ea Ha) eq_refl) as Y. cbn in Y. assert (0 < F2R (Float radix2 (Z.pos ma) ea)) by (apply F2R_gt_0; reflexivity). lra.
    + assert (0 < F2R (Float radix2 (Z.pos ma) ea)) by (apply F2R_gt_0; reflexivity). assert (F2R (Float radix2 (Z.neg mb) eb) < 0) by (apply F2R_lt_0; reflexivity). lra.
Qed.
Lemma div_mono (a b c : float) : Bleb a b = true -> Bsign c = false -> is_nan (fdiv a c) = false -> is_nan (fdiv b c) = false -> Bleb (fdiv a c) (fdiv b c) = true.
Proof.
  intros L S NA NB. assert (A : is_nan a = false) by (destruct a; try reflexivity; discriminate NA). assert (B : is_nan b = false) by (destruct b; try reflexivity; discriminate NB).
  destruct c as [s|s| |s m e H]; cbn in S; subst.
  - assert (X : forall x, is_nan (fdiv x (B754_zero false)) = false -> fdiv x (B754_zero false) = B754_infinity (Bsign x)).
    { intros x N. destruct x as [t|t| |t m e H]; try discriminate N; cbn; rewrite xorb_false_r; reflexivity. }
    rewrite (X a NA), (X b NB). destruct (Bsign a) eqn:SA; [apply lo_leb; reflexivity|]. destruct (Bsign b) eqn:SB; [|reflexivity]. exfalso.
    apply (leb_sat a b A B) in L. pose proof (big_pos emax) as BP. destruct a as [sa|sa| |sa ma ea Ha]; try discriminate; destruct b as [sb|sb| |sb mb eb Hb]; try discriminate; cbn [Bsign] in SA, SB; subst; cbn in L.
    + lra.
    + pose proof (fin_lt (B754_finite true mb eb Hb) eq_refl) as Y. cbn in Y. lra.
    + pose proof (fin_lt (B754_finite false ma ea Ha) eq_refl) as Y. cbn in Y. assert (0 < F2R (Float radix2 (Z.pos ma) ea)) by (apply F2R_gt_0; reflexivity). lra.
    + assert (0 < F2R (Float radix2 (Z.pos ma) ea)) by (apply F2R_gt_0; reflexivity). assert (F2R (Float radix2 (Z.neg mb) eb) < 0) by (apply F2R_lt_0; reflexivity). lra.
  - assert (X : forall x, is_nan (fdiv x (B754_infinity false)) = false -> exists t, fdiv x (B754_infinity false) = B754_zero t).
    { intros x N. destruct x as [t|t| |t m e H]; try discriminate N; cbn; eexists; reflexivity. }
    destruct (X a NA) as (ta & ->), (X b NB) as (tb & ->). reflexivity.
  - destruct a; discriminate NA.
  - set (c := B754_finite false m e H) in *. assert (NZ : B2R c <> 0) by (assert (0 < F2R (Float radix2 (Z.pos m) e)) by (apply F2R_gt_0; reflexivity); cbn; lra).
    destruct (leb_cases a b L A B) as [E|[E|(FA & FB & LE)]]; subst.
    + replace (fdiv (B754_infinity true) c) with (B754_infinity true : float); [apply lo_leb, NB|reflexivity].
    + replace (fdiv (B754_infinity false) c) with (B754_infinity false : float); [apply hi_leb, NA|reflexivity].
    + apply (leb_sat _ _ NA NB). destruct (sat_div a c FA eq_refl eq_refl NZ) as (P & ->). destruct (sat_div b c FB eq_refl eq_refl NZ) as (_ & ->). apply clamp_le, rnd_le; [exact Hp|].
      unfold Rdiv. apply Rmult_le_compat_r; [left; apply Rinv_0_lt_compat, P|exact LE].
Qed.

(* ---- signs of standard deviations ---- *)
Lemma sqrt_sign (x : float) : Bsign x = false -> Bsign (fsqrt prec emax Hp He x) = false.
Proof.
  intros S. destruct (is_nan (fsqrt prec emax Hp He x)) eqn:N; [destruct (fsqrt prec emax Hp He x); try discriminate; reflexivity|].
  unfold fsqrt in *. destruct (Bsqrt_correct prec emax Hp He mode_NE x) as (_ & _ & X). rewrite (X N). exact S.
Qed.
Lemma div_sign (x y : float) : Bsign x = false -> Bsign y = false -> Bsign (fdiv x y) = false.
Proof.
  intros S T. destruct (is_nan (fdiv x y)) eqn:N; [destruct (fdiv x y); try discriminate; reflexivity|].
  destruct (is_finite x) eqn:FX; [|destruct x as [s|s| |s m e H]; try discriminate; destruct y as [t|t| |t m e H]; try discriminate; cbn in *; subst; reflexivity].
  destruct y as [t|t| |t m e H]; cbn in T; subst.
  - destruct x as [s|s| |s m e H]; try discriminate. cbn in *. subst. reflexivity.
  - destruct x as [s|s| |s m e H]; try discriminate; cbn in *; subst; reflexivity.
  - destruct x; discriminate.
  - set (c := B754_finite false m e H) in *. assert (NZ : B2R c <> 0) by (assert (0 < F2R (Float radix2 (Z.pos m) e)) by (apply F2R_gt_0; reflexivity); cbn; lra).
    pose proof (Bdiv_correct prec emax Hp He mode_NE x c NZ) as C. unfold FloatModel.fdiv in *.
    match type of C with (if ?b then _ else _) => destruct b end.
    + destruct C as (_ & _ & C). rewrite (C N), S. reflexivity.
    + apply not_finite_overflow in C. rewrite C, S. reflexivity.
Qed.
End LinProofs.

Section Comm.
Variables prec emax : Z.
Context (Hp : Prec_gt_0 prec) (He : Prec_lt_emax prec emax).
Notation float := (binary_float prec emax).
Notation fmul := (fmul prec emax Hp He).
Lemma fmul_comm (a b : float) : fmul a b = fmul b a.
Proof.
  destruct (is_finite a) eqn:FA; [destruct (is_finite b) eqn:FB|].
  - pose proof (Bmult_correct prec emax Hp He mode_NE a b) as C. pose proof (Bmult_correct prec emax Hp He mode_NE b a) as D.
    rewrite (Rmult_comm (B2R b)) in D. unfold FloatModel.fmul.
    match type of C with (if ?c then _ else _) => destruct c end.
    + destruct C as (C1 & C2 & C3), D as (D1 & D2 & D3). rewrite FA, FB in C2, D2. apply B2R_Bsign_inj; [exact C2|exact D2|congruence|].
      rewrite C3, D3 by (apply fin_nan; assumption). apply xorb_comm.
    + apply not_finite_overflow in C. apply not_finite_overflow in D. rewrite C, D. f_equal. apply xorb_comm.
  - destruct b as [s|s| |s m e H]; try discriminate; destruct a as [t|t| |t m' e' H']; try discriminate; cbn; try reflexivity; rewrite xorb_comm; reflexivity.
  - destruct a as [t|t| |t m' e' H']; try discriminate; destruct b as [s|s| |s m e H]; cbn; try reflexivity; rewrite xorb_comm; reflexivity.
Qed.
End Comm.
