(* A column that is constant has exactly its value as mean and exactly zero as variance in floating point. *)
From Coq Require Import ZArith Reals List Lia Lra Bool.
From Flocq Require Import Core IEEE754.BinarySingleNaN.
From Verif Require Import FloatModel FloatSpec FloatProofs FloatProofs2 FloatProofs3 FloatProofs4.
Import ListNotations.
Open Scope R_scope.

Section ConstFloat.
Variables prec emax : Z.
Context (Hp : Prec_gt_0 prec) (He : Prec_lt_emax prec emax).
Notation float := (binary_float prec emax).
Notation fadd := (FloatModel.fadd prec emax Hp He).
Notation fsub := (FloatModel.fsub prec emax Hp He).
Notation fmul := (FloatModel.fmul prec emax Hp He).
Notation fdiv := (FloatModel.fdiv prec emax Hp He).
Notation f0 := (FloatModel.f0 prec emax).
Notation f1 := (FloatModel.f1 prec emax Hp He).
Notation fs_step := (FloatModel.fs_step prec emax Hp He).
Notation cnt := (FloatProofs3.cnt prec emax).

Definition zero_valued (x : float) : Prop := is_finite x = true /\ B2R x = 0.
Definition valued (c x : float) : Prop := is_finite x = true /\ B2R x = B2R c.
Lemma no_over (x : float) : is_finite x = true -> Rabs (rnd prec emax (B2R x)) < big emax.
Proof. intros _. rewrite rnd_id. apply abs_B2R_lt_emax. Qed.
Lemma big_pos : 0 < big emax. Proof. apply bpow_gt_0. Qed.
Lemma sub_zero (a b : float) : is_finite a = true -> is_finite b = true -> B2R a = B2R b -> zero_valued (fsub a b).
Proof.
  intros A B E. destruct (fsub_cases prec emax Hp He a b A B) as [(_ & F & V)|(O & _)].
  - split; [exact F|]. rewrite V, E, Rminus_diag_eq by reflexivity. apply rnd_0.
  - exfalso. rewrite E, Rminus_diag_eq, rnd_0, Rabs_R0 in O by reflexivity. pose proof big_pos. lra.
Qed.
Lemma sub_from_zero (a b : float) : is_finite a = true -> zero_valued b -> valued a (fsub a b).
Proof.
  intros A [B Z]. destruct (fsub_cases prec emax Hp He a b A B) as [(_ & F & V)|(O & _)].
  - split; [exact F|]. rewrite V, Z, Rminus_0_r. apply rnd_id.
  - exfalso. rewrite Z, Rminus_0_r in O. pose proof (no_over a A). lra.
Qed.
Lemma add_zero (a b : float) : is_finite a = true -> zero_valued b -> valued a (fadd a b).
Proof.
  intros A [B Z]. destruct (fadd_cases prec emax Hp He a b A B) as [(_ & F & V)|(O & _)].
  - split; [exact F|]. rewrite V, Z, Rplus_0_r. apply rnd_id.
  - exfalso. rewrite Z, Rplus_0_r in O. pose proof (no_over a A). lra.
Qed.
Lemma zero_add (a b : float) : zero_valued a -> is_finite b = true -> valued b (fadd a b).
Proof.
  intros [A Z] B. destruct (fadd_cases prec emax Hp He a b A B) as [(_ & F & V)|(O & _)].
  - split; [exact F|]. rewrite V, Z, Rplus_0_l. apply rnd_id.
  - exfalso. rewrite Z, Rplus_0_l in O. pose proof (no_over b B). lra.
Qed.
Lemma mul_zero (a b : float) : zero_valued a -> is_finite b = true -> zero_valued (fmul a b).
Proof.
  intros [A Z] B. destruct (fmul_cases prec emax Hp He a b A B) as [(_ & F & V)|(O & _)].
  - split; [exact F|]. rewrite V, Z, Rmult_0_l. apply rnd_0.
  - exfalso. rewrite Z, Rmult_0_l, rnd_0, Rabs_R0 in O. pose proof big_pos. lra.
Qed.
Lemma div_zero (a n : float) : zero_valued a -> cnt 1 n -> zero_valued (fdiv a n).
Proof.
  intros [A Z] [[N L]| ->].
  - destruct (fdiv_cases prec emax Hp He a n A ltac:(lra)) as [(_ & F & V)|(O & _)].
    + split; [exact F|]. rewrite V, Z. unfold Rdiv. rewrite Rmult_0_l. apply rnd_0.
    + exfalso. rewrite Z in O. unfold Rdiv in O. rewrite Rmult_0_l, rnd_0, Rabs_R0 in O. pose proof big_pos. lra.
  - destruct a as [s|s| |s m e H]; try discriminate A; split; reflexivity.
Qed.
Lemma div_one (a n : float) : is_finite a = true -> B2R n = 1 -> valued a (fdiv a n).
Proof.
  intros A N. assert (D : B2R a / B2R n = B2R a) by (rewrite N; field). destruct (fdiv_cases prec emax Hp He a n A ltac:(lra)) as [(_ & F & V)|(O & _)]; rewrite D in *.
  - split; [exact F|]. rewrite V. apply rnd_id.
  - exfalso. pose proof (no_over a A). lra.
Qed.
Lemma f0_zero : zero_valued f0. Proof. split; reflexivity. Qed.
(* the step of the running mean and sum of squares *)
Definition upd_mean (x m n : float) : float := fadd m (fdiv (fsub x m) n).
Definition upd_m2 (x m q n : float) : float := fadd q (fmul (fsub x (upd_mean x m n)) (fsub x m)).
Lemma first_step (c q n : float) : is_finite c = true -> B2R n = 1 -> zero_valued q -> valued c (upd_mean c f0 n) /\ zero_valued (upd_m2 c f0 q n).
Proof.
  intros C N [Qf Qz]. assert (V : valued c (upd_mean c f0 n)).
  { unfold upd_mean. destruct (sub_from_zero c f0 C f0_zero) as [S1 S2]. destruct (div_one _ n S1 N) as [D1 D2]. destruct (zero_add f0 _ f0_zero D1) as [A1 A2]. split; [exact A1|congruence]. }
  split; [exact V|]. unfold upd_m2. destruct V as [V1 V2]. pose proof (sub_zero c _ C V1 (eq_sym V2)) as Z1. destruct (sub_from_zero c f0 C f0_zero) as [S1 S2].
  pose proof (mul_zero _ _ Z1 S1) as Z2. destruct (add_zero q _ Qf Z2) as [A1 A2]. split; [exact A1|congruence].
Qed.
Lemma next_step (c m q n : float) : is_finite c = true -> cnt 1 n -> valued c m -> zero_valued q -> valued c (upd_mean c m n) /\ zero_valued (upd_m2 c m q n).
Proof.
  intros C N [M1 M2] [Q1 Q2]. pose proof (sub_zero c m C M1 (eq_sym M2)) as Z0. pose proof (div_zero _ n Z0 N) as Z1. destruct (add_zero m _ M1 Z1) as [A1 A2].
  assert (V : valued c (upd_mean c m n)) by (split; [exact A1|unfold upd_mean; congruence]). split; [exact V|]. destruct V as [V1 V2].
  pose proof (sub_zero c _ C V1 (eq_sym V2)) as Z2. pose proof (mul_zero _ _ Z2 (proj1 Z0)) as Z3. unfold upd_m2. destruct (add_zero q _ Q1 Z3) as [B1 B2]. split; [exact B1|congruence].
Qed.
Lemma cnt_next n : cnt 1 n -> cnt 1 (fadd n f1).
Proof. intros C. destruct (started_step prec emax Hp He n f0 f0 f0 f0 (or_introl C)) as [D|(E & _)]; [exact D|]. exfalso.
  assert (D : cnt (1 + 1) (fadd n f1)) by (apply cnt_step; [lra|replace (1 + 1) with 2 by ring; apply rnd_2; assumption|exact C]).
  rewrite E in D. destruct D as [[_ L]|L]; [cbn in L; lra|discriminate L]. Qed.
(* constant first column *)
Definition good_x (c : float) (s : fstate prec emax) : Prop := cnt 1 (s_n _ _ s) /\ valued c (s_mx _ _ s) /\ zero_valued (s_M2x _ _ s).
Definition good_y (c : float) (s : fstate prec emax) : Prop := cnt 1 (s_n _ _ s) /\ valued c (s_my _ _ s) /\ zero_valued (s_M2y _ _ s).
Lemma fold_good_x c : is_finite c = true -> forall d s, Forall (fun p => fst p = c) d -> good_x c s -> good_x c (fold_left fs_step d s).
Proof.
  intros C d. induction d as [|p d IH]; intros s F G; [exact G|]. inversion F as [|a b H1 H2]; subst. cbn [fold_left]. apply IH; [exact H2|]. destruct G as (G1 & G2 & G3).
  pose proof (cnt_next _ G1) as N. destruct (next_step (fst p) _ _ _ C N G2 G3) as [A B]. split; [exact N|]. split; [exact A|exact B].
Qed.
Lemma fold_good_y c : is_finite c = true -> forall d s, Forall (fun p => snd p = c) d -> good_y c s -> good_y c (fold_left fs_step d s).
Proof.
  intros C d. induction d as [|p d IH]; intros s F G; [exact G|]. inversion F as [|a b H1 H2]; subst. cbn [fold_left]. apply IH; [exact H2|]. destruct G as (G1 & G2 & G3).
  pose proof (cnt_next _ G1) as N. destruct (next_step (snd p) _ _ _ C N G2 G3) as [A B]. split; [exact N|]. split; [exact A|exact B].
Qed.
Lemma one_cnt : cnt 1 (fadd f0 f1). Proof. destruct (count_first prec emax Hp He) as [F V]. left. split; [exact F|lra]. Qed.
Lemma final_x c d : is_finite c = true -> d <> [] -> Forall (fun p => fst p = c) d -> good_x c (fold_left fs_step d (fs_init prec emax)).
Proof.
  intros C N F. destruct d as [|p d]; [congruence|]. inversion F as [|a b H1 H2]; subst. cbn [fold_left]. apply fold_good_x; [exact C|exact H2|].
  destruct (count_first prec emax Hp He) as [_ V]. destruct (first_step (fst p) f0 (fadd f0 f1) C V f0_zero) as [A B]. split; [exact one_cnt|]. split; [exact A|exact B].
Qed.
Lemma final_y c d : is_finite c = true -> d <> [] -> Forall (fun p => snd p = c) d -> good_y c (fold_left fs_step d (fs_init prec emax)).
Proof.
  intros C N F. destruct d as [|p d]; [congruence|]. inversion F as [|a b H1 H2]; subst. cbn [fold_left]. apply fold_good_y; [exact C|exact H2|].
  destruct (count_first prec emax Hp He) as [_ V]. destruct (first_step (snd p) f0 (fadd f0 f1) C V f0_zero) as [A B]. split; [exact one_cnt|]. split; [exact A|exact B].
Qed.
Lemma of_n_cnt n : (0 < n)%nat -> (Z.of_nat n <= 2 ^ prec)%Z -> cnt 1 (of_n prec emax Hp He n).
Proof. intros N L. destruct (of_n_exact prec emax Hp He n L) as [F V]. left. split; [exact F|]. rewrite V. apply (le_INR 1). lia. Qed.
Lemma zero_eqb x : zero_valued x -> Beqb x f0 = true.
Proof. intros [F V]. rewrite Beqb_correct by (exact F || reflexivity). rewrite V. apply Req_bool_true. reflexivity. Qed.
Lemma sqrt_zero x : zero_valued x -> zero_valued (fsqrt prec emax Hp He x).
Proof.
  intros [F V]. destruct x as [s|s| |s m e H]; try discriminate F; [split; reflexivity|]. exfalso. cbn [B2R] in V. unfold F2R in V. cbn [Fnum Fexp] in V. pose proof (bpow_gt_0 radix2 e) as P.
  assert (IZR (cond_Zopp s (Zpos m)) = 0) by (apply (Rmult_eq_reg_r (bpow radix2 e)); lra). apply eq_IZR in H0. destruct s; discriminate H0.
Qed.
End ConstFloat.
