(* C132: changing the sign of one or both series, correlations without conditions and rolling metrics,
   in IEEE 754 arithmetic. *)
From Coq Require Import ZArith Reals List Lia Lra Bool.
From Flocq Require Import Core IEEE754.BinarySingleNaN.
From Verif Require Import FloatModel FloatSpec FloatProofs FloatProofs2 FloatProps FloatSignProofs FloatSignProofs3.
Import ListNotations.
Open Scope R_scope.

(* whatever the data are: with the sign of one series changed, the correlation changes its sign and the
   p-value is the same, or both are reported as correlation -1 with p-value 0 *)
Theorem C132_correlation_always :
  forall (prec emax : Z) (Hp : Prec_gt_0 prec) (He : Prec_lt_emax prec emax) betainc (d : list (binary_float prec emax * binary_float prec emax)),
    let r := f_pearson_of prec emax Hp He betainc d in
    let r' := f_pearson_of prec emax Hp He betainc (map (fun p => (fst p, Bopp (snd p))) d) in
    (opposite prec emax (fst r) (fst r') /\ snd r' = snd r)
    \/ (r = (fm1 prec emax Hp He, f0 prec emax) /\ r' = (fm1 prec emax Hp He, f0 prec emax)).
Proof.
  intros prec emax Hp He betainc d. cbv zeta. unfold f_pearson_of. cbv zeta. rewrite map_length.
  destruct (flip_moments prec emax Hp He d) as (_ & _ & VX & VY & CC). unfold flip in *. rewrite VX.
  exact (pearson_turned prec emax Hp He betainc _ _ _ _ _ (Z.of_nat (length d)) VY CC).
Qed.

(* the same for every row of the rolling metrics *)
Theorem C132_rolling_one :
  forall (prec emax : Z) (Hp : Prec_gt_0 prec) (He : Prec_lt_emax prec emax) betainc ts d window center min_periods,
    Forall2 (fun a b => (opposite prec emax (fst (fst a)) (fst (fst b)) /\ snd (fst b) = snd (fst a))
                        \/ (fst a = (fm1 prec emax Hp He, f0 prec emax) /\ fst b = (fm1 prec emax Hp He, f0 prec emax)))
      (f_rolling prec emax Hp He betainc ts d window center min_periods)
      (f_rolling prec emax Hp He betainc ts (map (fun p => (fst p, Bopp (snd p))) d) window center min_periods).
Proof. intros. apply roll_turned. Qed.
(* with the signs of both series changed correlation, p-value and RMSD of every row are the same *)
Theorem C132_rolling_both :
  forall (prec emax : Z) (Hp : Prec_gt_0 prec) (He : Prec_lt_emax prec emax) betainc ts d window center min_periods,
    Forall2 (fun a b => (fst (fst b) = fst (fst a)
                         \/ (is_finite (fst (fst a)) = true /\ is_finite (fst (fst b)) = true /\ B2R (fst (fst a)) = 0 /\ B2R (fst (fst b)) = 0))
                        /\ snd (fst b) = snd (fst a) /\ snd b = snd a)
      (f_rolling prec emax Hp He betainc ts d window center min_periods)
      (f_rolling prec emax Hp He betainc ts (map (fun p => (Bopp (fst p), Bopp (snd p))) d) window center min_periods).
Proof.
  intros prec emax Hp He betainc ts d window center min_periods.
  pose proof (roll_kept prec emax Hp He betainc ts d window center min_periods) as F.
  induction F as [|a b l m [[E|E] [P Q]] F IH]; constructor; try exact IH; (split; [|split; [exact P|exact Q]]).
  - left. symmetry. exact E.
  - right. exact E.
Qed.
Definition days : list double := [dec 1 1; dec 2 1; dec 3 1; dec 4 1].
Definition some_pairs : list (double * double) := tenths [(6, 6); (7, 5); (5, 4); (9, 8)]%Z.
Example C132_rolling_case :
  let rows d := map (fun row => B2SF (fst (fst row))) (dbl f_rolling no_p days d (dec 2 1) false 2) in
  rows (map (fun p => (Bopp (fst p), Bopp (snd p))) some_pairs) = rows some_pairs
  /\ rows (map (fun p => (fst p, Bopp (snd p))) some_pairs) = map (fun row => B2SF (Bopp (fst (fst row)))) (dbl f_rolling no_p days some_pairs (dec 2 1) false 2)
  /\ rows (map (fun p => (fst p, Bopp (snd p))) some_pairs) <> rows some_pairs.
Proof. cbv zeta. split; [vm_compute; reflexivity|]. split; [vm_compute; reflexivity|]. vm_compute. discriminate. Qed.

Print Assumptions C132_correlation_always.
Print Assumptions C132_rolling_one.
Print Assumptions C132_rolling_both.
