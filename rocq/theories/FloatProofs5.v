(* min_max in IEEE 754 arithmetic. *)
From Coq Require Import ZArith Reals List Lia Lra Bool.
From Flocq Require Import Core IEEE754.BinarySingleNaN.
From Verif Require Import FloatModel FloatSpec FloatProofs.
Import ListNotations.
Open Scope R_scope.

Section FloatProofs5.
Variables prec emax : Z.
Context (Hp : Prec_gt_0 prec) (He : Prec_lt_emax prec emax).
Notation float := (binary_float prec emax).
Notation fadd := (fadd prec emax Hp He).
Notation fsub := (fsub prec emax Hp He).
Notation fmul := (fmul prec emax Hp He).
Notation fdiv := (fdiv prec emax Hp He).
Notation np_min := (np_min prec emax).
Notation np_max := (np_max prec emax).
Notation f_min_max := (f_min_max prec emax Hp He).
Notation rnd := (rnd prec emax).
Notation fin := (fun x : float => is_finite x = true).

Lemma fin_not_nan : forall a : float, is_finite a = true -> is_nan a = false.
Proof. intros [ | | | ]; cbn; intros; try discriminate; reflexivity. Qed.
Lemma np_min_spec : forall (l : list float) (x : float), fin x -> Forall fin l ->
  In (np_min x l) (x :: l) /\ Forall (fun v => B2R (np_min x l) <= B2R v) (x :: l).
Proof.
  unfold np_min. induction l as [|y r IH]; intros x Fx Fl; cbn [fold_left]; [split; [left; reflexivity|constructor; [apply Rle_refl|constructor]]|].
  inversion Fl as [|y' r' Fy Fr]; subst.
  unfold np_min2 at 2 4. rewrite (fin_not_nan x Fx), (fin_not_nan y Fy).
  rewrite Bltb_correct by assumption. destruct (Rlt_bool_spec (B2R y) (B2R x)) as [L|L].
  - destruct (IH y Fy Fr) as [I A]. split; [right; exact I|]. inversion A; subst. constructor; [lra|exact A].
  - destruct (IH x Fx Fr) as [I A]. split; [destruct I; [left; assumption|right; right; assumption]|].
    inversion A; subst. constructor; [assumption|constructor; [lra|assumption]].
Qed.
Lemma np_max_spec : forall (l : list float) (x : float), fin x -> Forall fin l ->
  In (np_max x l) (x :: l) /\ Forall (fun v => B2R v <= B2R (np_max x l)) (x :: l).
Proof.
  unfold np_max. induction l as [|y r IH]; intros x Fx Fl; cbn [fold_left]; [split; [left; reflexivity|constructor; [apply Rle_refl|constructor]]|].
  inversion Fl as [|y' r' Fy Fr]; subst.
  unfold np_max2 at 2 4. rewrite (fin_not_nan x Fx), (fin_not_nan y Fy).
  rewrite Bltb_correct by assumption. destruct (Rlt_bool_spec (B2R x) (B2R y)) as [L|L].
  - destruct (IH y Fy Fr) as [I A]. split; [right; exact I|]. inversion A; subst. constructor; [lra|exact A].
  - destruct (IH x Fx Fr) as [I A]. split; [destruct I; [left; assumption|right; right; assumption]|].
    inversion A; subst. constructor; [assumption|constructor; [lra|assumption]].
Qed.

Definition scaled (smin smax rmin rmax v : float) : float :=
  fadd (fmul (fdiv (fsub v smin) (fsub smax smin)) (fsub rmax rmin)) rmin.

Lemma fdiv_fin_denominator : forall a b : float, is_finite (fdiv a b) = true -> is_finite b = true -> B2R b <> 0.
Proof.
  intros [sa|sa| |sa ma ea Ha] [sb|sb| |sb mb eb Hb] F G; try (cbn in *; discriminate); cbn.
  all: destruct sb; cbn; intros Z; [assert (F2R (Float radix2 (Z.neg mb) eb) < 0) by (apply F2R_lt_0; reflexivity) |
       assert (0 < F2R (Float radix2 (Z.pos mb) eb)) by (apply F2R_gt_0; reflexivity)]; lra.
Qed.

Section Scaled.
Variables smin smax rmin rmax : float.
Hypothesis S : B2R smin <= B2R smax.
Hypothesis R : B2R rmin <= B2R rmax.
(* the chain of values of one result, when finite and the range of the source is finite *)
Lemma scaled_val : forall v : float, is_finite (fsub smax smin) = true -> is_finite (scaled smin smax rmin rmax v) = true ->
  0 < rnd (B2R smax - B2R smin) /\ 0 <= rnd (B2R rmax - B2R rmin) /\
  B2R (scaled smin smax rmin rmax v)
  = rnd (rnd (rnd (rnd (B2R v - B2R smin) / rnd (B2R smax - B2R smin)) * rnd (B2R rmax - B2R rmin)) + B2R rmin).
Proof.
  intros v FD F. unfold scaled in *.
  destruct (fadd_finite_inv prec emax Hp He _ _ F) as [F1 _].
  destruct (fmul_finite_inv prec emax Hp He _ _ F1) as [F2 F3].
  pose proof (fdiv_finite_inv prec emax Hp He _ _ F2) as F4.
  pose proof (fdiv_fin_denominator _ _ F2 FD) as N.
  rewrite (fadd_val prec emax Hp He _ _ F), (fmul_val prec emax Hp He _ _ F1), (fdiv_val prec emax Hp He _ _ F2 N).
  rewrite (fsub_val prec emax Hp He _ _ F4), (fsub_val prec emax Hp He _ _ F3).
  rewrite (fsub_val prec emax Hp He _ _ FD) in N |- *.
  assert (P : 0 <= rnd (B2R smax - B2R smin)) by (apply rnd_nonneg; [exact Hp|lra]).
  split; [lra|]. split; [apply rnd_nonneg; [exact Hp|lra]|reflexivity].
Qed.
Lemma scaled_mono : forall v w : float, is_finite (fsub smax smin) = true ->
  is_finite (scaled smin smax rmin rmax v) = true -> is_finite (scaled smin smax rmin rmax w) = true ->
  B2R v <= B2R w -> B2R (scaled smin smax rmin rmax v) <= B2R (scaled smin smax rmin rmax w).
Proof.
  intros v w FD Fv Fw L. destruct (scaled_val v FD Fv) as [P [Q V]]. destruct (scaled_val w FD Fw) as [_ [_ W]].
  rewrite V, W. apply rnd_le; [exact Hp|]. apply Rplus_le_compat_r. apply rnd_le; [exact Hp|].
  apply Rmult_le_compat_r; [exact Q|]. apply rnd_le; [exact Hp|]. unfold Rdiv. apply Rmult_le_compat_r; [left; apply Rinv_0_lt_compat, P|].
  apply rnd_le; [exact Hp|lra].
Qed.
Lemma scaled_min : forall v : float, is_finite (fsub smax smin) = true -> is_finite (scaled smin smax rmin rmax v) = true ->
  B2R v = B2R smin -> B2R (scaled smin smax rmin rmax v) = B2R rmin.
Proof.
  intros v FD F E. destruct (scaled_val v FD F) as [P [Q V]]. rewrite V, E.
  replace (B2R smin - B2R smin) with 0 by ring. rewrite rnd_0 by exact Hp. unfold Rdiv. rewrite Rmult_0_l, rnd_0, Rmult_0_l, rnd_0, Rplus_0_l by exact Hp.
  apply rnd_id.
Qed.
Lemma scaled_max : forall v : float, is_finite (fsub smax smin) = true -> is_finite (scaled smin smax rmin rmax v) = true ->
  B2R v = B2R smax -> B2R (scaled smin smax rmin rmax v) = rnd (rnd (B2R rmax - B2R rmin) + B2R rmin).
Proof.
  intros v FD F E. destruct (scaled_val v FD F) as [P [Q V]]. rewrite V, E.
  replace (rnd (B2R smax - B2R smin) / rnd (B2R smax - B2R smin)) with 1 by (field; lra).
  rewrite rnd_1, Rmult_1_l by assumption. f_equal. f_equal. unfold FloatProofs.rnd. apply round_generic; [auto with typeclass_instances|].
  apply generic_format_round; auto with typeclass_instances.
Qed.
End Scaled.

(* the result at a position *)
Lemma min_max_nth : forall x src r ref i v, nth_error (x :: src) i = Some v ->
  nth_error (f_min_max x src r ref) i = Some (scaled (np_min x src) (np_max x src) (np_min r ref) (np_max r ref) v).
Proof.
  intros x src r ref i v H. unfold FloatModel.f_min_max. cbv zeta. rewrite nth_error_map, H. reflexivity.
Qed.
End FloatProofs5.
