(* Lemmas about sample statistics over the reals. *)
From Verif Require Import RStats.
From Coq Require Import Lra Lia Permutation.
Open Scope R_scope.

Lemma sq_nonneg x : 0 <= x * x.
Proof. exact (Rle_0_sqr x). Qed.

Lemma rsum_app l m : rsum (l ++ m) = rsum l + rsum m.
Proof. induction l as [|x l IH]; cbn; lra. Qed.
Lemma rsum_perm l m : Permutation l m -> rsum l = rsum m.
Proof. induction 1; cbn; lra. Qed.
Lemma rsum_plus {A} (f g : A -> R) l : rsum (map (fun x => f x + g x) l) = rsum (map f l) + rsum (map g l).
Proof. induction l as [|x l IH]; cbn; lra. Qed.
Lemma rsum_minus {A} (f g : A -> R) l : rsum (map (fun x => f x - g x) l) = rsum (map f l) - rsum (map g l).
Proof. induction l as [|x l IH]; cbn; lra. Qed.
Lemma rsum_scal {A} (c : R) (f : A -> R) l : rsum (map (fun x => c * f x) l) = c * rsum (map f l).
Proof. induction l as [|x l IH]; cbn; [lra|]. rewrite IH. ring. Qed.
Lemma rlen_cons {A} (a : A) l : rlen (a :: l) = rlen l + 1.
Proof. unfold rlen. cbn [List.length]. apply S_INR. Qed.
Lemma rsum_const {A} (c : R) (l : list A) : rsum (map (fun _ => c) l) = c * rlen l.
Proof. induction l as [|x l IH]; [unfold rlen; cbn; ring|]. rewrite rlen_cons. cbn [map rsum]. rewrite IH. ring. Qed.
Lemma rsum_ext {A} (f g : A -> R) l : (forall x, In x l -> f x = g x) -> rsum (map f l) = rsum (map g l).
Proof. induction l as [|x l IH]; intros H; cbn; [reflexivity|]. rewrite (H x (or_introl eq_refl)), IH; [reflexivity|]. intros y Hy. apply H. right; exact Hy. Qed.
Lemma rsum_nonneg {A} (f : A -> R) l : (forall x, In x l -> 0 <= f x) -> 0 <= rsum (map f l).
Proof. induction l as [|x l IH]; intros H; cbn; [lra|]. pose proof (H x (or_introl eq_refl)). assert (0 <= rsum (map f l)) by (apply IH; intros y Hy; apply H; right; exact Hy). lra. Qed.
Lemma rsum_zero {A} (f : A -> R) l : (forall x, In x l -> 0 <= f x) -> rsum (map f l) = 0 -> forall x, In x l -> f x = 0.
Proof.
  induction l as [|y l IH]; intros H E x Hx; [contradiction|]. cbn in E.
  pose proof (H y (or_introl eq_refl)). assert (G : forall z, In z l -> 0 <= f z) by (intros; apply H; right; assumption).
  pose proof (rsum_nonneg f l G). destruct Hx as [<-|Hx]; [lra|]. apply IH; [exact G|lra|exact Hx].
Qed.
Lemma rsum_le {A} (f g : A -> R) l : (forall x, In x l -> f x <= g x) -> rsum (map f l) <= rsum (map g l).
Proof. induction l as [|x l IH]; intros H; cbn; [lra|]. pose proof (H x (or_introl eq_refl)). assert (rsum (map f l) <= rsum (map g l)) by (apply IH; intros y Hy; apply H; right; exact Hy). lra. Qed.
Lemma rsum_mul_r {A} (c : R) (f : A -> R) l : rsum (map (fun x => f x * c) l) = rsum (map f l) * c.
Proof. induction l as [|x l IH]; cbn; [lra|]. rewrite IH. ring. Qed.

Lemma rlen_pos {A} (l : list A) : l <> [] -> 0 < rlen l.
Proof. intros H. destruct l; [congruence|]. apply lt_0_INR. cbn. lia. Qed.
Lemma rlen_nonneg {A} (l : list A) : 0 <= rlen l.
Proof. apply pos_INR. Qed.
Lemma rlen_map {A B} (f : A -> B) l : rlen (map f l) = rlen l.
Proof. unfold rlen. rewrite map_length. reflexivity. Qed.
Lemma rlen_ne {A} (l : list A) : l <> [] -> rlen l <> 0.
Proof. intros H. pose proof (rlen_pos l H). lra. Qed.
Lemma map_ne {A B} (f : A -> B) l : l <> [] -> map f l <> [].
Proof. destruct l; [congruence|discriminate]. Qed.

Lemma rmean_sum l : l <> [] -> rsum l = rmean l * rlen l.
Proof. intros H. unfold rmean. field. apply rlen_ne, H. Qed.

Lemma rmean_affine a b l : l <> [] -> rmean (map (fun v => a * v + b) l) = a * rmean l + b.
Proof.
  intros H. unfold rmean. rewrite rlen_map, rsum_plus, rsum_const, (rsum_scal a (fun v => v)), map_id.
  field. apply rlen_ne, H.
Qed.

Lemma rmean_ext {A} (f g : A -> R) l : (forall x, In x l -> f x = g x) -> rmean (map f l) = rmean (map g l).
Proof. intros H. unfold rmean. rewrite !rlen_map, (rsum_ext f g l H). reflexivity. Qed.

Lemma var_nonneg l : 0 <= var l.
Proof.
  unfold var, rmean. rewrite rlen_map. destruct l as [|x l]; [cbn; unfold Rdiv; rewrite Rmult_0_l; lra|].
  apply Rmult_le_pos; [apply rsum_nonneg; intros; apply sq_nonneg|]. left. apply Rinv_0_lt_compat, rlen_pos. discriminate.
Qed.

Lemma var_affine a b l : l <> [] -> var (map (fun v => a * v + b) l) = a * a * var l.
Proof.
  intros H. unfold var. rewrite rmean_affine by exact H. rewrite map_map. set (m := rmean l). clearbody m.
  unfold rmean. rewrite !rlen_map.
  rewrite (rsum_ext _ (fun x => a * a * ((x - m) * (x - m)))) by (intros; ring).
  rewrite (rsum_scal (a * a)). field. apply rlen_ne, H.
Qed.

Lemma rmean_constant l u : l <> [] -> (forall v, In v l -> v = u) -> rmean l = u.
Proof.
  intros H E. unfold rmean. replace (rsum l) with (rsum (map (fun _ => u) l)).
  - rewrite rsum_const. field. apply rlen_ne, H.
  - rewrite <- (map_id l) at 2. apply rsum_ext. intros x Hx. symmetry. apply E, Hx.
Qed.

Lemma var_zero l : l <> [] -> (var l = 0 <-> constant l).
Proof.
  intros H. split.
  - intros E. unfold var, rmean in E. rewrite rlen_map in E.
    assert (E' : rsum (map (fun x => (x - rsum l / rlen l) * (x - rsum l / rlen l)) l) = 0).
    { apply (Rmult_eq_reg_r (/ rlen l)); [rewrite Rmult_0_l; exact E|]. apply Rinv_neq_0_compat, rlen_ne, H. }
    assert (Z : forall x, In x l -> (x - rsum l / rlen l) * (x - rsum l / rlen l) = 0)
      by (apply rsum_zero; [intros; apply sq_nonneg|exact E']).
    intros u v Hu Hv. pose proof (Z u Hu) as Zu. pose proof (Z v Hv) as Zv.
    apply Rmult_integral in Zu, Zv. lra.
  - intros C. destruct l as [|u l]; [congruence|].
    assert (M : rmean (u :: l) = u) by (apply rmean_constant; [discriminate|]; intros v Hv; apply C; [exact Hv|left; reflexivity]).
    unfold var. rewrite M. apply rmean_constant; [discriminate|]. intros w Hw.
    apply in_map_iff in Hw as (v & <- & Hv). rewrite (C v u Hv (or_introl eq_refl)). ring.
Qed.

Lemma std_nonneg l : 0 <= std l.
Proof. apply sqrt_pos. Qed.
Lemma std_sqr l : std l * std l = var l.
Proof. apply sqrt_sqrt, var_nonneg. Qed.
Lemma std_zero l : l <> [] -> (std l = 0 <-> constant l).
Proof.
  intros H. rewrite <- var_zero by exact H. unfold std. split; intros E.
  - apply sqrt_eq_0; [apply var_nonneg|exact E].
  - rewrite E. apply sqrt_0.
Qed.
Lemma std_affine a b l : l <> [] -> std (map (fun v => a * v + b) l) = Rabs a * std l.
Proof.
  intros H. unfold std. rewrite var_affine by exact H. rewrite sqrt_mult_alt by apply sq_nonneg.
  f_equal. rewrite <- sqrt_Rsqr_abs. reflexivity.
Qed.

(* Cauchy-Schwarz for sums of products *)
Lemma cauchy_schwarz {A} (f g : A -> R) l :
  (rsum (map (fun x => f x * g x) l))² <= rsum (map (fun x => f x * f x) l) * rsum (map (fun x => g x * g x) l).
Proof.
  set (a := rsum (map (fun x => f x * f x) l)). set (b := rsum (map (fun x => f x * g x) l)).
  set (c := rsum (map (fun x => g x * g x) l)).
  assert (Q : forall t, 0 <= a * t * t + 2 * b * t + c).
  { intros t. replace (a * t * t + 2 * b * t + c) with (rsum (map (fun x => (t * f x + g x) * (t * f x + g x)) l)).
    - apply rsum_nonneg. intros; apply sq_nonneg.
    - unfold a, b, c.
      rewrite (rsum_ext _ (fun x => (t * t) * (f x * f x) + ((2 * t) * (f x * g x) + g x * g x))) by (intros; ring).
      rewrite rsum_plus, rsum_plus, !rsum_scal. ring. }
  assert (Ha : 0 <= a) by (apply rsum_nonneg; intros; apply sq_nonneg).
  assert (Hc : 0 <= c) by (apply rsum_nonneg; intros; apply sq_nonneg).
  unfold Rsqr. destruct (Req_dec a 0) as [E|E].
  - assert (B0 : b = 0).
    { assert (Z : forall x, In x l -> f x = 0).
      { intros x Hx. assert (f x * f x = 0) by (apply (rsum_zero (fun x => f x * f x) l); [intros; apply sq_nonneg|exact E|exact Hx]).
        apply Rmult_integral in H. tauto. }
      unfold b. rewrite (rsum_ext _ (fun _ => 0)) by (intros x Hx; rewrite (Z x Hx); ring). rewrite rsum_const. ring. }
    rewrite B0. nra.
  - assert (0 < a) by lra. pose proof (Q (- b / a)) as Qt.
    assert (X : a * (- b / a) * (- b / a) + 2 * b * (- b / a) + c = (a * c - b * b) / a) by (field; exact E).
    rewrite X in Qt. assert (0 <= a * c - b * b).
    { apply (Rmult_le_reg_r (/ a)); [apply Rinv_0_lt_compat; exact H|]. rewrite Rmult_0_l. exact Qt. }
    lra.
Qed.
