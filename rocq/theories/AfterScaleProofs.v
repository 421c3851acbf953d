(* Lemmas for C130: pairs of rational series as real pairs, and their moments. *)
From Coq Require Import Reals Lra Qreals QArith Qabs List Lia.
From Verif Require Import Base CdfModel CdfSpec ScalingModel CdfFitProofs ScalingProofs MetricsModel MetricsSpec RStatsProofs MetricsProofs MetricsProofs2 MeanStdModel.
Import ListNotations.
Open Scope R_scope.
Open Scope list_scope.

(* the pairs of a reference and another series *)
Definition beside (ref other : list R) : pairs := combine ref other.
Definition besideq (ref other : list Q) : pairs := beside (map Q2R ref) (map Q2R other).

Lemma beside_xs ref other : List.length other = List.length ref -> xs (beside ref other) = ref.
Proof.
  unfold xs, beside. revert other; induction ref as [|r ref IH]; intros [|o other] L; try discriminate; [reflexivity|].
  cbn [combine map fst]. injection L as L. rewrite (IH other L). reflexivity.
Qed.
Lemma beside_ys ref other : List.length other = List.length ref -> ys (beside ref other) = other.
Proof.
  unfold ys, beside. revert other; induction ref as [|r ref IH]; intros [|o other] L; try discriminate; [reflexivity|].
  cbn [combine map snd]. injection L as L. rewrite (IH other L). reflexivity.
Qed.
Lemma beside_scale a b ref other : beside ref (map (fun v => a * v + b) other) = scale_y a b (beside ref other).
Proof.
  unfold beside, scale_y. revert other; induction ref as [|r ref IH]; intros [|o other]; try reflexivity.
  cbn [combine map fst snd]. rewrite IH. reflexivity.
Qed.

(* ---- sums of rationals as reals ---- *)
Lemma q2r_sum l : Q2R (qsum l) = rsum (map Q2R l).
Proof. induction l as [|q l IH]; [unfold Q2R; cbn; lra|]. cbn [qsum map rsum]. rewrite Q2R_plus, IH. reflexivity. Qed.
Lemma q2r_len {A} (l : list A) : Q2R (qlen l) = rlen l.
Proof. unfold qlen, rlen, Q2R, inject_Z. cbn [Qnum Qden]. rewrite <- INR_IZR_INZ. change (IZR (Z.pos 1)) with 1. field. Qed.
Lemma q2r_mean l : l <> [] -> Q2R (qmean l) = rmean (map Q2R l).
Proof.
  intros N. unfold qmean, rmean. pose proof (qlen_pos l N) as P. rewrite Q2R_div by (intros E; rewrite E in P; apply (Qlt_irrefl 0), P).
  rewrite q2r_sum, q2r_len, rlen_map. reflexivity.
Qed.
Lemma q2r_dot l m : Q2R (dotq l m) = rsum (map (fun p => fst p * snd p) (combine (map Q2R l) (map Q2R m))).
Proof.
  unfold dotq. revert m; induction l as [|x l IH]; intros [|y m]; try (unfold Q2R; cbn; lra).
  cbn [map2 qsum map combine fst snd rsum]. rewrite Q2R_plus, Q2R_mult, IH. reflexivity.
Qed.
Lemma combine_map {A B C D} (f : A -> C) (g : B -> D) l : forall m, combine (map f l) (map g m) = map (fun p => (f (fst p), g (snd p))) (combine l m).
Proof. induction l as [|a l IH]; intros [|b m]; try reflexivity. cbn [combine map fst snd]. rewrite IH. reflexivity. Qed.

Lemma q2r_zero q : Q2R q = 0 <-> (q == 0)%Q.
Proof. split; intros H; [apply eqR_Qeq; rewrite H; unfold Q2R; cbn; lra|]. apply Qeq_eqR in H. rewrite H. unfold Q2R; cbn; lra. Qed.

(* ---- the regression line in terms of the moments ---- *)
Lemma q2r_centred l : l <> [] -> map Q2R (ScalingModel.centred l) = map (fun v => v - rmean (map Q2R l)) (map Q2R l).
Proof.
  intros N. unfold ScalingModel.centred. rewrite !map_map. apply map_ext. intros v. rewrite Q2R_minus, q2r_mean by exact N. reflexivity.
Qed.
Lemma combine_swap {A B} (l : list A) : forall (m : list B), combine l m = map (fun p => (snd p, fst p)) (combine m l).
Proof. induction l as [|a l IH]; intros [|b m]; try reflexivity. cbn [combine map fst snd]. rewrite IH. reflexivity. Qed.
Lemma combine_same {A} (l : list A) : combine l l = map (fun x => (x, x)) l.
Proof. induction l as [|a l IH]; [reflexivity|]. cbn [combine map]. rewrite IH. reflexivity. Qed.

Lemma q2r_cov src ref : src <> [] -> List.length src = List.length ref ->
  Q2R (dotq (ScalingModel.centred src) (ScalingModel.centred ref)) = rlen src * cov (besideq ref src).
Proof.
  intros N L. assert (Nr : ref <> []) by (destruct src, ref; try discriminate; congruence).
  assert (LR : List.length (map Q2R src) = List.length (map Q2R ref)) by (rewrite !map_length; exact L).
  unfold cov. unfold besideq at 1 2 3. rewrite beside_xs, beside_ys by exact LR.
  rewrite q2r_dot, !q2r_centred by assumption. unfold beside. rewrite (combine_map (fun v => v - rmean (map Q2R src)) (fun v => v - rmean (map Q2R ref))).
  rewrite combine_swap, !map_map. cbn [fst snd].
  assert (E : rlen (combine (map Q2R ref) (map Q2R src)) = rlen src) by (unfold rlen; rewrite combine_length, !map_length; f_equal; lia).
  rewrite (rsum_ext _ (fun p => (fst p - rmean (map Q2R ref)) * (snd p - rmean (map Q2R src)))) by (intros; ring).
  assert (NC : map (fun p => (fst p - rmean (map Q2R ref)) * (snd p - rmean (map Q2R src))) (combine (map Q2R ref) (map Q2R src)) <> [])
    by (destruct src, ref; try congruence; try discriminate).
  rewrite rmean_sum by exact NC. rewrite rlen_map, E. ring.
Qed.
Lemma q2r_var src : src <> [] -> Q2R (dotq (ScalingModel.centred src) (ScalingModel.centred src)) = rlen src * var (map Q2R src).
Proof.
  intros N. rewrite q2r_dot, q2r_centred by exact N. rewrite combine_same, map_map. cbn [fst snd]. rewrite map_map.
  unfold var. rewrite map_map. rewrite rmean_sum by (apply map_ne, N). rewrite rlen_map. ring.
Qed.

Lemma line src ref s i : linreg_params src ref = Ok (s, i) ->
  src <> [] /\ List.length src = List.length ref /\ 0 < var (map Q2R src) /\
  Q2R s * var (map Q2R src) = cov (besideq ref src) /\ Q2R i = rmean (map Q2R ref) - Q2R s * rmean (map Q2R src).
Proof.
  intros H. destruct (linreg_ok _ _ _ _ H) as [N I]. revert H. unfold linreg_params.
  destruct (Nat.eqb_spec (List.length src) (List.length ref)) as [L|]; [|discriminate].
  destruct (Qeq_bool _ 0) eqn:E; [discriminate|]. apply Qeq_bool_neq in E. intros H.
  assert (S : s = (dotq (ScalingModel.centred src) (ScalingModel.centred ref) / dotq (ScalingModel.centred src) (ScalingModel.centred src))%Q) by congruence.
  assert (Nr : ref <> []) by (destruct src, ref; try discriminate; congruence).
  pose proof (rlen_pos src N) as P. pose proof (q2r_var src N) as V. pose proof (q2r_cov src ref N L) as C.
  assert (V0 : var (map Q2R src) <> 0).
  { intros Z. apply E. apply q2r_zero. rewrite V, Z. ring. }
  pose proof (var_nonneg (map Q2R src)) as V1. assert (SR : Q2R s = cov (besideq ref src) / var (map Q2R src)).
  { rewrite S, Q2R_div by exact E. rewrite V, C. field. split; lra. }
  split; [exact N|]. split; [exact L|]. split; [lra|]. split.
  - rewrite SR. field. exact V0.
  - rewrite I, Q2R_minus, Q2R_mult, !q2r_mean by assumption. reflexivity.
Qed.

(* ---- moments after rescaling ---- *)
Lemma xs_scale_y a b d : xs (scale_y a b d) = xs d.
Proof. unfold xs, scale_y. rewrite map_map. reflexivity. Qed.
Lemma ys_scale_y a b d : ys (scale_y a b d) = map (fun v => a * v + b) (ys d).
Proof. unfold ys, scale_y. rewrite !map_map. reflexivity. Qed.
Lemma cov_scale_y a b d : d <> [] -> cov (scale_y a b d) = a * cov d.
Proof. intros N. rewrite scale_y_swap, cov_swap, cov_scale_x, cov_swap by (apply swap_ne, N). reflexivity. Qed.
Lemma msd_scale_y a b d : d <> [] ->
  mean_square_diff (scale_y a b d) = var (xs d) + a * a * var (ys d) - 2 * a * cov d + (rmean (xs d) - (a * rmean (ys d) + b)) ^ 2.
Proof.
  intros N. assert (N' : scale_y a b d <> []) by (apply map_ne, N). pose proof (ys_ne d N) as Ny.
  rewrite msdiff_moments by exact N'. rewrite xs_scale_y, ys_scale_y, cov_scale_y, var_affine, rmean_affine by assumption. ring.
Qed.
