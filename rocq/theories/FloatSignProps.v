(* C132: changing the sign of the series, in IEEE 754 arithmetic.  The format is any binary format;
   the examples use double precision. *)
From Coq Require Import ZArith Reals List Lia Lra Bool.
From Flocq Require Import Core IEEE754.BinarySingleNaN.
From Verif Require Import FloatModel FloatSpec FloatProofs FloatProofs2 FloatProofs4 FloatProps FloatSignProofs.
Import ListNotations.
Open Scope R_scope.

(* with the signs of both series changed the bias changes its sign and nothing else of it; RSS, MSD,
   RMSD and ubRMSD are the same to the last bit, whatever the data are (NaN and infinities included) *)
Theorem C132_both :
  forall (prec emax : Z) (Hp : Prec_gt_0 prec) (He : Prec_lt_emax prec emax) (d : list (binary_float prec emax * binary_float prec emax)),
    let d' := map (fun p => (Bopp (fst p), Bopp (snd p))) d in
    opposite prec emax (f_bias prec emax Hp He d) (f_bias prec emax Hp He d')
    /\ f_RSS prec emax Hp He d' = f_RSS prec emax Hp He d
    /\ f_msd prec emax Hp He d' = f_msd prec emax Hp He d
    /\ f_rmsd prec emax Hp He d' = f_rmsd prec emax Hp He d
    /\ f_ubrmsd prec emax Hp He d' = f_ubrmsd prec emax Hp He d.
Proof.
  intros prec emax Hp He d d'. split; [apply bias_flip2|]. split; [apply RSS_flip2|]. split; [apply msd_flip2|].
  split; [apply rmsd_flip2|apply ubrmsd_flip2].
Qed.
Example C132_both_case :
  let d := tenths [(6, 6); (7, 5); (5, 4)]%Z in
  let d' := map (fun p => (Bopp (fst p), Bopp (snd p))) d in
  B2SF (dbl f_ubrmsd d') = B2SF (dbl f_ubrmsd d) /\ is_finite (dbl f_ubrmsd d) = true
  /\ B2SF (dbl f_bias d') = B2SF (Bopp (dbl f_bias d)) /\ B2SF (dbl f_bias d) <> B2SF (Bopp (dbl f_bias d)).
Proof. cbv zeta. split; [vm_compute; reflexivity|]. split; [vm_compute; reflexivity|]. split; [vm_compute; reflexivity|]. vm_compute. discriminate. Qed.

(* with the sign of one series changed the correlation changes exactly its sign and the p-value stays
   the same to the last bit, if the covariance divided by the standard deviations is not NaN *)
Theorem C132_correlation :
  forall (prec emax : Z) (Hp : Prec_gt_0 prec) (He : Prec_lt_emax prec emax) betainc (d d' : list (binary_float prec emax * binary_float prec emax)),
    let m := f_moments prec emax Hp He d in
    is_nan (fdiv prec emax Hp He (fm_cov _ _ m) (fsqrt prec emax Hp He (fmul prec emax Hp He (fm_vx _ _ m) (fm_vy _ _ m)))) = false ->
    d' = map (fun p => (fst p, Bopp (snd p))) d \/ d' = map (fun p => (Bopp (fst p), snd p)) d ->
    opposite prec emax (fst (f_pearson_of prec emax Hp He betainc d)) (fst (f_pearson_of prec emax Hp He betainc d'))
    /\ snd (f_pearson_of prec emax Hp He betainc d') = snd (f_pearson_of prec emax Hp He betainc d).
Proof.
  intros prec emax Hp He betainc d d' m N [-> | ->]; [apply pearson_of_flip, N|apply pearson_of_flipx, N].
Qed.
Example C132_correlation_case :
  let d := tenths [(6, 6); (7, 5); (5, 4)]%Z in
  let m := dbl f_moments d in
  is_nan (dbl fdiv (fm_cov _ _ m) (dbl fsqrt (dbl fmul (fm_vx _ _ m) (fm_vy _ _ m)))) = false
  /\ B2SF (fst (dbl f_pearson_of no_p (map (fun p => (fst p, Bopp (snd p))) d))) = B2SF (Bopp (fst (dbl f_pearson_of no_p d)))
  /\ B2SF (fst (dbl f_pearson_of no_p d)) <> B2SF (Bopp (fst (dbl f_pearson_of no_p d))).
Proof. cbv zeta. split; [vm_compute; reflexivity|]. split; [vm_compute; reflexivity|]. vm_compute. discriminate. Qed.

(* without that condition it fails: series with a missing value have correlation -1, and -1 again
   after the sign of one series is changed *)
Theorem C132_correlation_refuted :
  exists d, B2SF (fst (dbl f_pearson_of no_p d)) = B2SF (dbl fm1)
    /\ B2SF (fst (dbl f_pearson_of no_p (map (fun p => (fst p, Bopp (snd p))) d))) = B2SF (dbl fm1).
Proof. exists with_missing. split; vm_compute; reflexivity. Qed.

(* a series and its opposite: correlation exactly -1 with p-value 0, unless the square of the variance
   underflows or overflows *)
Theorem C132_opposite_series :
  forall (prec emax : Z) (Hp : Prec_gt_0 prec) (He : Prec_lt_emax prec emax) betainc (l : list (binary_float prec emax)),
    let v := fm_vx _ _ (f_moments prec emax Hp He (map (fun x => (x, x)) l)) in
    is_finite (fmul prec emax Hp He v v) = true -> bpow radix2 (2 - emax) <= B2R v * B2R v ->
    f_pearson_of prec emax Hp He betainc (map (fun x => (x, Bopp x)) l) = (fm1 prec emax Hp He, f0 prec emax).
Proof.
  intros prec emax Hp He betainc l v F B.
  pose proof (C83_self_correlation prec emax Hp He betainc l F B) as S1. cbv zeta in S1.
  set (d := map (fun x => (x, x)) l) in *.
  assert (E : map (fun x : binary_float prec emax => (x, Bopp x)) l = map (fun p => (fst p, Bopp (snd p))) d)
    by (unfold d; rewrite map_map; reflexivity).
  destruct (f1_val prec emax Hp He) as [F1 V1]. destruct (fm1_val prec emax Hp He) as [Fm Vm].
  assert (N : is_nan (fdiv prec emax Hp He (fm_cov _ _ (f_moments prec emax Hp He d)) (fsqrt prec emax Hp He
      (fmul prec emax Hp He (fm_vx _ _ (f_moments prec emax Hp He d)) (fm_vy _ _ (f_moments prec emax Hp He d))))) = false).
  { destruct (is_nan _) eqn:N; [|reflexivity]. exfalso.
    destruct (quotient_nan prec emax Hp He betainc d N) as [X|X]; rewrite S1 in X; cbn [fst] in X.
    - rewrite X in F1. discriminate.
    - rewrite X in V1. lra. }
  destruct (C132_correlation prec emax Hp He betainc d _ N (or_introl eq_refl)) as [O P].
  rewrite <- E in O, P. rewrite S1 in O, P. cbn [fst snd] in O, P.
  destruct (f_pearson_of prec emax Hp He betainc (map (fun x => (x, Bopp x)) l)) as [r p]. cbn [fst snd] in O, P. subst p.
  f_equal. destruct O as [O|[_ [_ [O _]]]]; [exact O|exfalso; lra].
Qed.
Example C132_opposite_series_case :
  let v := fm_vx _ _ (dbl f_moments (map (fun x => (x, x)) ramp)) in
  is_finite (dbl fmul v v) = true /\ bpow radix2 (2 - 1024) <= B2R v * B2R v.
Proof. cbv zeta. split; [vm_compute; reflexivity|]. apply small_bound; vm_compute; reflexivity. Qed.

Print Assumptions C132_both.
Print Assumptions C132_correlation.
Print Assumptions C132_correlation_refuted.
Print Assumptions C132_opposite_series.
