(* Dates with an error, and Julian dates. *)
From Coq Require Import ZArith Reals List Lia Lra Bool.
From Flocq Require Import Core IEEE754.BinarySingleNaN.
From Verif Require Import FloatModel FloatSpec FloatProofs FloatProofs4 TypedModel TypedProofs ExpFloatModel ExpFloatSpec ExpFloatProofs JdProofs2 BoxFloatModel BoxFloatSpec BoxFloatProofs.
Import ListNotations.
Open Scope R_scope.

Lemma present_missing nan x : present nan x <-> f_missing nan x = false.
Proof. unfold present, f_missing. rewrite orb_false_iff. tauto. Qed.
Lemma missing_present nan x : ~ present nan x <-> f_missing nan x = true.
Proof. rewrite present_missing. destruct (f_missing nan x); split; intros; congruence || tauto. Qed.

(* members of the scans, for series in any order *)
Lemma picks_in nan ser limit ti ks k : In k (picks nan ser limit ti ks) -> In k ks /\ f_missing nan (value_of ser k) = false.
Proof.
  induction ks as [|j r IH]; cbn [picks]; [intros []|]. unfold missing. destruct (f_missing nan (value_of ser j)) eqn:M; [intros I; apply IH in I as (A & B); split; [right; exact A|exact B]|].
  destruct (near ser limit ti j); [|intros []]. intros [<-|I]; [split; [left; reflexivity|exact M]|]. apply IH in I as (A & B). split; [right; exact A|exact B].
Qed.
Lemma picks_length nan ser limit ti ks : (length (picks nan ser limit ti ks) <= length ks)%nat.
Proof. induction ks as [|j r IH]; cbn [picks length]; [lia|]. destruct (missing nan ser j); [lia|]. destruct (near ser limit ti j); cbn [length]; lia. Qed.
Lemma chosen_in nan limit ser i k : (i < length ser)%nat -> In k (chosen nan limit ser i) -> (k < length ser)%nat /\ f_missing nan (value_of ser k) = false.
Proof.
  intros L I. unfold chosen in I. apply in_app_or in I as [I|I]; apply picks_in in I as (A & B); (split; [|exact B]); [apply in_seq in A; lia|apply in_rev, in_seq in A; lia].
Qed.
Lemma chosen_length nan limit ser i : (i < length ser)%nat -> (length (chosen nan limit ser i) <= length ser)%nat.
Proof.
  intros L. unfold chosen. rewrite app_length. pose proof (picks_length nan ser limit (time_of ser i) (seq i (length ser - i))) as A. pose proof (picks_length nan ser limit (time_of ser i) (rev (seq 0 i))) as B.
  rewrite seq_length in A. rewrite rev_length, seq_length in B. lia.
Qed.
Lemma mean_nil : f_mean 53 1024 p53 e1024 [] = B754_nan. Proof. vm_compute. reflexivity. Qed.

(* the value at position i, given the selection *)
Lemma value_close nan w fillna mo ser i : moderate nan ser -> (Z.of_nat (length ser) < 2 ^ 31)%Z -> (i < length ser)%nat ->
  let sel := chosen nan (f_limit w) ser i in
  exists r, nth_error (f_boxcar nan w fillna mo ser) i = Some r /\
    (~ present nan (value_of ser i) -> fillna = false -> r = B754_nan) /\
    (present nan (value_of ser i) \/ fillna = true ->
       ((Z.of_nat (length sel) < mo)%Z \/ sel = [] -> r = B754_nan) /\
       ((mo <= Z.of_nat (length sel))%Z -> sel <> [] -> close_to_mean r (map (value_of ser) sel))).
Proof.
  intros MD LN L sel. eexists. split; [apply box_at, L|]. fold sel. rewrite missing_present, present_missing. split.
  { intros -> ->. reflexivity. }
  intros C. replace (negb (f_missing nan (value_of ser i)) || fillna) with true by (destruct C as [-> | ->]; [reflexivity|symmetry; apply orb_true_r]).
  split.
  - intros [H|H]; [replace (mo <=? Z.of_nat (length sel))%Z with false by (symmetry; apply Z.leb_gt; lia); reflexivity|]. rewrite H. cbn [map]. rewrite mean_nil. destruct (_ <=? _)%Z; reflexivity.
  - intros H NE. replace (mo <=? Z.of_nat (length sel))%Z with true by (symmetry; apply Z.leb_le; lia). pose proof (chosen_length nan (f_limit w) ser i L) as CL. fold sel in CL.
    apply mean_close; [intros E; apply map_eq_nil in E; contradiction|rewrite map_length; lia|]. intros x I. apply in_map_iff in I as (k & <- & I). destruct (chosen_in nan (f_limit w) ser i k L I) as (K & M).
    apply MD; [exact K|apply present_missing, M].
Qed.

(* the single precision window *)
Lemma window_single (w : double) : is_finite w = true -> bp (-126) <= B2R w <= bp 127 -> is_finite (to_single w) = true /\ Rabs (B2R (to_single w) - B2R w) <= bp (-24) * B2R w.
Proof.
  intros F B. pose proof (bpow_gt_0 radix2 (-126)) as P.
  destruct (to_single_error w F) as (F1 & E1); [rewrite Rabs_pos_eq by lra; lra|rewrite Rabs_pos_eq by lra; lra|]. rewrite (Rabs_pos_eq (B2R w)) in E1 by lra. split; [exact F1|exact E1].
Qed.

(* distances that are rounded *)
Lemma rnd_near d : Rabs (rnd64 d - d) <= eps * Rabs d + bp (-1075).
Proof.
  pose proof (err_any 53 1024 p53 d) as E. unfold unit_roundoff, tiny in E.
  change (bp (1 - 53)) with (/ IZR (2 ^ 52)) in E. change (2 ^ 52)%Z with 4503599627370496%Z in E.
  replace (/ 2 * bp (3 - 1024 - 53)) with (bp (-1075)) in E.
  2:{ change (3 - 1024 - 53)%Z with (1 + -1075)%Z. rewrite bpow_plus. change (bp 1) with 2. field. }
  eapply Rle_trans; [exact E|]. unfold eps. right. lra.
Qed.
Lemma within_out d w l : bp (-126) <= w -> Rabs (l - w) <= bp (-24) * w -> Rabs (rnd64 d) <= l / 2 -> Rabs d <= w / 2 + w * bp (-24).
Proof.
  intros W L N. pose proof (rnd_near d) as E. assert (T : bp (-1075) <= bp (-126) * bp (-60)) by (rewrite <- bpow_plus; apply bpow_le; lia).
  change (bp (-60)) with (/ IZR (2 ^ 60)) in T. change (bp (-24)) with (/ IZR (2 ^ 24)) in *. change (2 ^ 60)%Z with 1152921504606846976%Z in T. change (2 ^ 24)%Z with 16777216%Z in *.
  pose proof (bpow_gt_0 radix2 (-126)). assert (Rabs d <= Rabs (rnd64 d) + Rabs (rnd64 d - d)) by (replace d with (rnd64 d - (rnd64 d - d)) at 1 by ring; unfold Rminus at 1; eapply Rle_trans; [apply Rabs_triang|]; rewrite Rabs_Ropp; lra).
  apply Rabs_le_inv in L. unfold eps in E. pose proof (Rabs_pos d). lra.
Qed.
Lemma within_in d w l : bp (-126) <= w -> Rabs (l - w) <= bp (-24) * w -> Rabs d <= w / 2 - w * bp (-24) -> Rabs (rnd64 d) <= l / 2.
Proof.
  intros W L N. pose proof (rnd_near d) as E. assert (T : bp (-1075) <= bp (-126) * bp (-60)) by (rewrite <- bpow_plus; apply bpow_le; lia).
  change (bp (-60)) with (/ IZR (2 ^ 60)) in T. change (bp (-24)) with (/ IZR (2 ^ 24)) in *. change (2 ^ 60)%Z with 1152921504606846976%Z in T. change (2 ^ 24)%Z with 16777216%Z in *.
  pose proof (bpow_gt_0 radix2 (-126)). assert (Rabs (rnd64 d) <= Rabs d + Rabs (rnd64 d - d)) by (replace (rnd64 d) with (d + (rnd64 d - d)) at 1 by ring; apply Rabs_triang).
  apply Rabs_le_inv in L. unfold eps in E. pose proof (Rabs_pos d). lra.
Qed.

(* ---- Julian dates between 2097152 and 4194304 ---- *)
Lemma julian_grid (t : double) : 2097152 <= B2R t < 4194304 -> B2R t = IZR (ZnearestE (B2R t * 2147483648)) * / 2147483648.
Proof. intros H. rewrite <- round_binade by exact H. symmetry. apply rnd_fmt, fmt64. Qed.
Lemma grid_diff a b : (Z.abs (a - b) <= 2 ^ 53)%Z -> rnd64 (IZR a * / 2147483648 - IZR b * / 2147483648) = IZR (a - b) * / 2147483648.
Proof.
  intros H. replace (IZR a * / 2147483648 - IZR b * / 2147483648) with (IZR (a - b) * / 2147483648) by (rewrite minus_IZR; ring). apply rnd_fmt.
  change (/ 2147483648) with (bp (-31)). apply mult_fmt; [exact H|lia].
Qed.
Lemma grid_range x : 2097152 <= x < 4194304 -> (2097152 * 2147483648 <= ZnearestE (x * 2147483648) <= 4194304 * 2147483648)%Z.
Proof.
  intros H. pose proof (Znearest_half (fun n => negb (Z.even n)) (x * 2147483648)) as N. apply Rabs_le_inv in N. split.
  - apply Z.lt_succ_r. apply lt_IZR. rewrite succ_IZR. change (2097152 * 2147483648)%Z with 4503599627370496%Z. lra.
  - apply Z.lt_succ_r. apply lt_IZR. rewrite succ_IZR. change (4194304 * 2147483648)%Z with 9007199254740992%Z. lra.
Qed.
Lemma julian_diff (t s : double) : 2097152 <= B2R t < 4194304 -> 2097152 <= B2R s < 4194304 -> rnd64 (B2R t - B2R s) = B2R t - B2R s.
Proof.
  intros A B. pose proof (grid_range _ A) as GA. pose proof (grid_range _ B) as GB. rewrite (julian_grid t A), (julian_grid s B). rewrite grid_diff by lia. rewrite minus_IZR. ring.
Qed.

(* correctly rounded dates and half a window of k times 2^-30 days: the distance of the rounded dates *)
Lemma rounded_in X Y k : 2097152 <= X < 4194304 -> 2097152 <= Y < 4194304 -> Rabs (X - Y) <= IZR k * / 1073741824 -> Rabs (rnd64 X - rnd64 Y) <= IZR k * / 1073741824.
Proof.
  intros A B H. rewrite !round_binade by assumption. apply Rabs_le_inv in H.
  assert (MONO : forall u v, u <= v -> (ZnearestE u <= ZnearestE v)%Z) by (intros; apply Zrnd_le; [apply valid_rnd_N|assumption]).
  assert (G1 : (ZnearestE (X * 2147483648) <= ZnearestE (Y * 2147483648) + 2 * k)%Z) by (rewrite <- nearest_shift; apply MONO; rewrite mult_IZR; lra).
  assert (G2 : (ZnearestE (Y * 2147483648) <= ZnearestE (X * 2147483648) + 2 * k)%Z) by (rewrite <- nearest_shift; apply MONO; rewrite mult_IZR; lra).
  apply IZR_le in G1, G2. rewrite plus_IZR, mult_IZR in G1, G2. apply Rabs_le. lra.
Qed.
Lemma rounded_out X Y h : 2097152 <= X < 4194304 -> 2097152 <= Y < 4194304 -> Rabs (rnd64 X - rnd64 Y) <= h -> Rabs (X - Y) <= h + / 2147483648.
Proof.
  intros A B H. rewrite !round_binade in H by assumption. pose proof (Znearest_half (fun n => negb (Z.even n)) (X * 2147483648)) as N. pose proof (Znearest_half (fun n => negb (Z.even n)) (Y * 2147483648)) as M.
  apply Rabs_le_inv in H, N, M. apply Rabs_le. lra.
Qed.
Lemma rounded_range X : 2097152 <= X < 4194304 - / 2147483648 -> 2097152 <= rnd64 X < 4194304.
Proof.
  intros A. rewrite round_binade by lra. pose proof (grid_range X ltac:(lra)) as G. pose proof (Znearest_half (fun n => negb (Z.even n)) (X * 2147483648)) as N. apply Rabs_le_inv in N.
  destruct G as (G & _). apply IZR_le in G. change (IZR (2097152 * 2147483648)) with 4503599627370496 in G. lra.
Qed.
