(* C134, continued: what follows for common offsets and for equal columns. *)
From Coq Require Import ZArith Reals List Lia Lra Bool.
From Flocq Require Import Core IEEE754.BinarySingleNaN.
From Verif Require Import FloatModel FloatSpec FloatProofs FloatProofs4 FloatProps TypedModel ExpFloatModel ExpFloatSpec ExpFloatProofs BoxFloatProofs GridSpec GridProofs GridProps.
Import ListNotations.
Open Scope R_scope.

(* An offset added to both columns (a change from degrees Celsius to another zero, say) changes neither bias nor RSS, MSD and RMSD,
   to the last bit, as long as all values stay on the grid. *)
Theorem C134_offset :
  forall e c (m : list (Z * Z)) (d d' : list (double * double)),
    pairs_on_grid e m d -> pairs_on_grid e (map (fun q => (fst q + c, snd q + c)%Z) m) d' -> d <> [] ->
    (Z.of_nat (List.length d) <= 2 ^ 53)%Z -> (z_size (differences m) <= 2 ^ 53)%Z -> (z_sum (squares (differences m)) <= 2 ^ 53)%Z -> (-537 <= e <= 475)%Z ->
    B2R (dbl f_bias d') = B2R (dbl f_bias d) /\ B2R (dbl f_RSS d') = B2R (dbl f_RSS d) /\ B2R (dbl f_msd d') = B2R (dbl f_msd d) /\ B2R (dbl f_rmsd d') = B2R (dbl f_rmsd d).
Proof.
  intros e c m d d' F F' N LN B1 B2 E.
  assert (D : differences (map (fun q => (fst q + c, snd q + c)%Z) m) = differences m) by (unfold differences; rewrite map_map; apply map_ext; intros q; cbn [fst snd]; lia).
  assert (LE : List.length d' = List.length d) by (rewrite <- (len2 _ _ _ F), <- (len2 _ _ _ F'); apply map_length).
  assert (N' : d' <> []) by (intros ->; destruct d; [congruence|discriminate LE]).
  destruct (C134_bias e m d F N LN B1 ltac:(lia)) as [_ V1]. destruct (C134_bias e _ d' F' N' ltac:(rewrite LE; exact LN) ltac:(rewrite D; exact B1) ltac:(lia)) as [_ V1'].
  destruct (C134_rss e m d F B2 E) as [_ V2]. destruct (C134_rss e _ d' F' ltac:(rewrite D; exact B2) E) as [_ V2'].
  destruct (C134_msd e m d F N LN B2 E) as ((_ & V3) & V4). destruct (C134_msd e _ d' F' N' ltac:(rewrite LE; exact LN) ltac:(rewrite D; exact B2) E) as ((_ & V3') & V4').
  rewrite V1, V1', V2, V2', V3, V3', V4, V4', D, LE. repeat split.
Qed.
Print Assumptions C134_offset.
Example C134_offset_case :
  let m' := map (fun q => (fst q + 273, snd q + 273)%Z) counts in
  pairs_on_grid 0 counts count_pairs /\ pairs_on_grid 0 m' (map (fun q => (z64 (fst q), z64 (snd q))) m') /\ m' = [(276, 274); (278, 282); (1278, 1273)]%Z.
Proof.
  cbv zeta. split; [apply C134_pairs_case|]. split; [|reflexivity]. unfold counts. cbn [map fst snd]. repeat constructor; cbn [fst snd]; apply z64_grid; vm_compute; discriminate.
Qed.
(* Off the grid it does: the values 0.1 and 0.3 against 0, and all of them 1000 higher. *)
Theorem C134_offset_refuted :
  let d := [(dec 1 10, dec 0 1); (dec 3 10, dec 0 1)] in
  let d' := map (fun p => (add64 (fst p) (z64 1000), add64 (snd p) (z64 1000))) d in
  Beqb (dbl f_bias d) (dbl f_bias d') = false /\ is_finite (dbl f_bias d) = true /\ is_finite (dbl f_bias d') = true.
Proof. cbv zeta. repeat split; vm_compute; reflexivity. Qed.
Print Assumptions C134_offset_refuted.

(* The residual sum of squares is zero exactly if the columns are equal; so is the mean square difference unless it is tiny. *)
Lemma squares_zero l : z_sum (squares l) = 0%Z <-> forall z, In z l -> z = 0%Z.
Proof.
  induction l as [|z l IH]; [split; [intros _ z []|reflexivity]|]. change (z_sum (squares (z :: l))) with (z * z + z_sum (squares l))%Z. pose proof (squares_nonneg l). pose proof (Z.square_nonneg z). split.
  - intros H1 y [<-|I]; [nia|]. apply IH; [lia|exact I].
  - intros H1. rewrite (H1 z (or_introl eq_refl)). rewrite (proj2 IH); [reflexivity|]. intros y I. apply H1. right. exact I.
Qed.
Theorem C134_rss_zero :
  forall e (m : list (Z * Z)) (d : list (double * double)),
    pairs_on_grid e m d -> (z_sum (squares (differences m)) <= 2 ^ 53)%Z -> (-537 <= e <= 475)%Z ->
    (B2R (dbl f_RSS d) = 0 <-> forall p, In p d -> B2R (fst p) = B2R (snd p)).
Proof.
  intros e m d F B E. destruct (C134_rss e m d F B E) as [_ V]. rewrite V.
  assert (Z0 : IZR (z_sum (squares (differences m))) * bpow radix2 (2 * e) = 0 <-> z_sum (squares (differences m)) = 0%Z).
  { pose proof (bpow_gt_0 radix2 (2 * e)). split; [intros H0; apply eq_IZR; nra|intros ->; ring]. }
  rewrite Z0, squares_zero. clear Z0 V B. pose proof (bpow_gt_0 radix2 e) as P. unfold differences. split.
  - induction F as [|q p m d [[_ A1] [_ A2]] F IH]; intros H; [intros p []|]. intros p' [<-|I]; [|apply IH; [intros z Iz; apply H; right; exact Iz|exact I]].
    rewrite A1, A2. assert (fst q - snd q = 0)%Z by (apply H; left; reflexivity). replace (fst q) with (snd q) by lia. reflexivity.
  - induction F as [|q p m d [[_ A1] [_ A2]] F IH]; intros H; [intros z []|]. intros z [<-|I]; [|apply IH; [intros p' Ip; apply H; right; exact Ip|exact I]].
    pose proof (H p (or_introl eq_refl)) as Ep. rewrite A1, A2 in Ep. assert (IZR (fst q) = IZR (snd q)) by nra. apply eq_IZR in H0. lia.
Qed.
Print Assumptions C134_rss_zero.
Example C134_rss_zero_case :
  (z_sum (squares (differences counts)) <= 2 ^ 53)%Z /\ pairs_on_grid 0 counts count_pairs /\ squares (differences counts) = [4; 16; 25]%Z.
Proof. split; [vm_compute; discriminate|]. split; [apply C134_pairs_case|reflexivity]. Qed.
(* Without a grid, squares can underflow: two columns that differ by 2^-600 have an RSS of zero. *)
Theorem C134_rss_zero_refuted :
  let x := FloatProps.dyad 1 (-600) in
  Beqb (dbl f_RSS [(x, dec 0 1)]) (dec 0 1) = true /\ Beqb x (dec 0 1) = false.
Proof. cbv zeta. split; vm_compute; reflexivity. Qed.
Print Assumptions C134_rss_zero_refuted.
