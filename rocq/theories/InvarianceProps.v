(* C91: the pairwise metrics depend neither on the order of the observations nor on the unit. *)
From Coq Require Import Reals List Lra Permutation.
From Verif Require Import RStats RStatsProofs MetricsModel MetricsSpec MetricsProofs TcolModel InvarianceProofs.
Open Scope R_scope.

(* The order of the pairs of observations plays no role. *)
Theorem C91_order betainc d e ddof : Permutation d e ->
  bias d = bias e /\ aad d = aad e /\ mad d = mad e /\ RSS d = RSS e /\ msd d = msd e /\ rmsd d ddof = rmsd e ddof /\ nrmsd d ddof = nrmsd e ddof /\
  ubrmsd d ddof = ubrmsd e ddof /\ mse_corr d = mse_corr e /\ mse_var d = mse_var e /\ mse_bias d = mse_bias e /\ mse_decomposition d = mse_decomposition e /\
  pearson_of betainc d = pearson_of betainc e /\ index_of_agreement d = index_of_agreement e /\ nash_sutcliffe d = nash_sutcliffe e /\
  forall s, pearsonr_recursive s d = pearsonr_recursive s e.
Proof.
  intros P. assert (M := welford_perm d e P).
  split; [apply bias_perm, P|]. split; [apply np_mean_perm, Permutation_map, P|]. split; [apply np_median_perm, Permutation_map, P|].
  split; [apply RSS_perm, P|]. split; [apply msd_perm, P|]. split; [apply rmsd_perm, P|]. split; [apply nrmsd_perm, P|]. split; [apply ubrmsd_perm, P|].
  split; [unfold mse_corr; rewrite M; reflexivity|]. split; [unfold mse_var; rewrite M; reflexivity|]. split; [unfold mse_bias; rewrite (bias_perm d e P); reflexivity|].
  split; [unfold mse_decomposition; rewrite M; reflexivity|]. split; [unfold pearson_of; rewrite M, (rlen_perm d e P); reflexivity|].
  split; [apply ioa_perm, P|]. split; [apply nse_perm, P|]. intros s. apply recursive_perm, P.
Qed.
(* nor does the order of the triplets in triple collocation *)
Theorem C91_order_triples r s ref : Permutation r s -> tcol_metrics r ref = tcol_metrics s ref.
Proof. exact (tcol_perm r s ref). Qed.

(* the same data in another unit: both series multiplied by a > 0, with another zero point *)
Definition other_unit (a b : R) (d : pairs) : pairs := map (fun p => (a * fst p + b, a * snd p + b)) d.

(* Differences are measured in the new unit, squared differences in its square; the normalised
   measures stay as they are, and so does the correlation if the series change their units separately. *)
Theorem C91_unit betainc a b d ddof : 0 < a ->
  let times k := omap (Rmult k) in
  bias (other_unit a b d) = times a (bias d) /\ aad (other_unit a b d) = times a (aad d) /\ mad (other_unit a b d) = times a (mad d) /\
  rmsd (other_unit a b d) ddof = times a (rmsd d ddof) /\ ubrmsd (other_unit a b d) ddof = times a (ubrmsd d ddof) /\
  RSS (other_unit a b d) = a * a * RSS d /\ msd (other_unit a b d) = times (a * a) (msd d) /\
  mse_corr (other_unit a b d) = times (a * a) (mse_corr d) /\ mse_var (other_unit a b d) = times (a * a) (mse_var d) /\
  mse_bias (other_unit a b d) = times (a * a) (mse_bias d) /\
  nrmsd (other_unit a b d) ddof = nrmsd d ddof /\ index_of_agreement (other_unit a b d) = index_of_agreement d /\
  nash_sutcliffe (other_unit a b d) = nash_sutcliffe d /\
  forall c e, 0 < c -> pearson_of betainc (map (fun p => (a * fst p + b, c * snd p + e)) d) = pearson_of betainc d.
Proof.
  intros A times. change other_unit with in_unit.
  split; [apply bias_unit|]. split; [apply aad_unit, A|]. split; [apply mad_unit, A|]. split; [apply rmsd_unit, A|]. split; [apply ubrmsd_unit, A|].
  split; [apply RSS_unit|]. split; [apply msd_unit|]. split; [apply mse_corr_unit, A|]. split; [apply mse_var_unit, A|]. split; [apply mse_bias_unit|].
  split; [apply nrmsd_unit, A|]. split; [apply ioa_unit, A|]. split; [apply nse_unit; lra|].
  intros c e C. rewrite <- (pearson_unit betainc a b c e d A C). f_equal. unfold scale_x, scale_y. rewrite map_map. reflexivity.
Qed.
(* reversing the direction of both series keeps the Nash-Sutcliffe efficiency and turns the bias round *)
Theorem C91_reversed d b : bias (other_unit (-1) b d) = omap Ropp (bias d) /\ nash_sutcliffe (other_unit (-1) b d) = nash_sutcliffe d.
Proof.
  change other_unit with in_unit. split; [|apply nse_unit; lra]. rewrite bias_unit. destruct (bias d); cbn; [f_equal; ring|reflexivity].
Qed.
(* values to which this applies: four pairs, reversed, in degrees Fahrenheit instead of Celsius *)
Definition celsius : pairs := [(10, 12); (20, 19); (15, 15); (12, 11)].
Example C91_ex : Permutation celsius (rev celsius) /\ bias celsius = Some 0 /\ RSS celsius = 6 /\
  other_unit (9 / 5) 32 celsius = [(50, 12 * (9 / 5) + 32); (68, 19 * (9 / 5) + 32); (59, 59); (12 * (9 / 5) + 32, 11 * (9 / 5) + 32)].
Proof.
  split; [apply Permutation_rev|]. split; [|split].
  - rewrite bias_correct by discriminate. f_equal. unfold rmean, rlen, xs, ys, celsius; cbn [map rsum fst snd List.length INR]. lra.
  - unfold RSS, celsius; cbn [fold_left fst snd]. lra.
  - unfold other_unit, celsius; cbn [map fst snd]. repeat (apply f_equal2; [apply f_equal2; lra|]). reflexivity.
Qed.
Print Assumptions C91_order.
Print Assumptions C91_order_triples.
Print Assumptions C91_unit.
Print Assumptions C91_reversed.
