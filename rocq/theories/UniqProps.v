(* C87: making the values of an array unique (src/pytesmo/utils.py, interp_uniq). *)
From Coq Require Import Lqa Lia.
From Flocq Require Import Core IEEE754.BinarySingleNaN.
From Verif Require Import Base FloatModel UniqModel UniqProofs UniqProofs2 UniqProofs3 UniqProofs4 UniqProofs5.
Import ListNotations.
Open Scope Q_scope.

(* the function on exact numbers, on integer arrays and on doubles; fuel bounds the number of sweeps of
   the while loop, and None means that the loop is still running *)
Definition interp_uniq_Q := interp_uniq Qeq_bool Qeq_bool q_lt q_half.
Definition interp_uniq_Z := interp_uniq Z.eqb Z.eqb Z.ltb z_half.
Definition p53 : Prec_gt_0 53 := eq_refl.
Definition e1024 : Prec_lt_emax 53 1024 := eq_refl.
Notation double := (binary_float 53 1024).
Definition d_half (a b : double) : double := fdiv 53 1024 p53 e1024 (fadd 53 1024 p53 e1024 a b) (of_z 53 1024 p53 e1024 2).
(* np.unique takes all NaN for one value *)
Definition d_same (a b : double) : bool := Beqb a b || (BinarySingleNaN.is_nan a && BinarySingleNaN.is_nan b).
Definition interp_uniq_d := interp_uniq d_same (@Beqb 53 1024) (@Bltb 53 1024) d_half.

Lemma while_more {T} (same eqb ltb : T -> T -> bool) half f : forall st r k, while same eqb ltb half f st = Some r -> while same eqb ltb half (f + k) st = Some r.
Proof.
  induction f as [|f IH]; intros st r k H.
  - cbn [while] in H. destruct (Nat.eqb (List.length (snd st)) (List.length (fst st))) eqn:E; [|discriminate]. destruct k; cbn [Nat.add while]; rewrite E; exact H.
  - cbn [Nat.add while] in *. destruct (Nat.eqb (List.length (snd st)) (List.length (fst st))); [exact H|]. destruct (sweep same eqb ltb half st); [apply IH, H|exact H].
Qed.
Lemma strict_between s : (forall j, (S j < List.length s)%nat -> strict_at s j = true) -> forall i j a b, (i < j)%nat -> nth_error s i = Some a -> nth_error s j = Some b -> a < b.
Proof.
  intros S i j a b L. revert b. induction L as [|j L IH]; intros b Ha Hb.
  - pose proof (nth_some_lt _ _ _ Hb) as Lb. specialize (S i Lb). unfold strict_at in S. rewrite Ha, Hb in S. apply q_lt_spec. exact S.
  - pose proof (nth_some_lt _ _ _ Hb) as Lb. destruct (nth_lt s j ltac:(lia)) as (c & Hc). specialize (S j Lb). unfold strict_at in S. rewrite Hc, Hb in S. apply q_lt_spec in S. specialize (IH c Ha Hc). lra.
Qed.

(* sorted numbers that are not all the same: the loop ends, with a strictly increasing array of the same
   length, with the same first and last value, in which every value that was already unique is where it was *)
Theorem C87_unique_values :
  forall src : list Q,
    (forall i j a b, (i <= j)%nat -> nth_error src i = Some a -> nth_error src j = Some b -> a <= b) ->
    (forall a b, nth_error src 0 = Some a -> nth_error src (List.length src - 1) = Some b -> (2 <= List.length src)%nat -> a < b) ->
    exists out,
      (forall fuel, (List.length src <= fuel)%nat -> interp_uniq_Q fuel src = Some (Ok out)) /\
      List.length out = List.length src /\
      (forall i j a b, (i < j)%nat -> nth_error out i = Some a -> nth_error out j = Some b -> a < b) /\
      nth_error out 0 = nth_error src 0 /\ nth_error out (List.length src - 1) = nth_error src (List.length src - 1) /\
      (forall i x, nth_error src i = Some x -> (forall j y, j <> i -> nth_error src j = Some y -> ~ y == x) -> nth_error out i = Some x).
Proof.
  intros src A SP. assert (A' : ascending src) by (intros j a b Ha Hb; exact (A j (S j) a b ltac:(lia) Ha Hb)).
  destruct (le_lt_dec 2 (List.length src)) as [L|L].
  - destruct (nth_lt src 0 ltac:(lia)) as (a & Ha). destruct (nth_lt src (List.length src - 1) ltac:(lia)) as (b & Hb).
    assert (SR : spread src) by (exists a, b; repeat (split; [assumption|]); exact (SP a b Ha Hb L)).
    destruct (while_done (List.length src) src A' SR ltac:(lia)) as (out & E & P & F). exists out. split; [|split; [|split; [|split; [|split]]]].
    + intros fuel Hf. unfold interp_uniq_Q, interp_uniq. rewrite (unique_starts src A'). replace fuel with (List.length src + (fuel - List.length src))%nat by lia. apply while_more, E.
    + apply (st_len _ _ P).
    + apply strict_between. intros j Hj. apply full_strict; [rewrite (st_len _ _ P); exact F|exact Hj].
    + apply (st_first _ _ P).
    + apply (st_last _ _ P).
    + intros i x Hx U. rewrite (st_iso _ _ P i); [exact Hx|]. pose proof (nth_some_lt _ _ _ Hx) as Li. split; [exact Li|]. split.
      * destruct i as [|i]; [auto|right]. replace (S i - 1)%nat with i by lia. destruct (nth_lt src i ltac:(lia)) as (y & Hy). unfold strict_at. rewrite Hy, Hx. apply q_lt_spec.
        pose proof (A' i y x Hy Hx) as K. pose proof (U i y ltac:(lia) Hy). apply Qle_lteq in K as [K|K]; [exact K|contradiction].
      * destruct (Nat.eq_dec (S i) (List.length src)) as [Z|Z]; [auto|right]. destruct (nth_lt src (S i) ltac:(lia)) as (y & Hy). unfold strict_at. rewrite Hy, Hx. apply q_lt_spec.
        pose proof (A' i x y Hx Hy) as K. pose proof (U (S i) y ltac:(lia) Hy). apply Qle_lteq in K as [K|K]; [exact K|]. symmetry in K. contradiction.
  - exists src. split; [|split; [reflexivity|split; [|split; [reflexivity|split; [reflexivity|auto]]]]].
    + intros fuel _. destruct src as [|x [|y src]]; [destruct fuel; reflexivity|destruct fuel; reflexivity|cbn in L; lia].
    + intros i j a b Hij Ha Hb. pose proof (nth_some_lt _ _ _ Hb). lia.
Qed.
(* percentiles 0, 0, 0, 1, 2, 2, 2, 5, 5 *)
Example C87_unique_values_ex :
  option_map (mapR (map Qred)) (interp_uniq_Q 9 [0; 0; 0; 1; 2; 2; 2; 5; 5]) =
  Some (Ok [0; 1 # 4; 1 # 2; 1; 3 # 2; 7 # 4; 2; 7 # 2; 5]).
Proof. vm_compute. reflexivity. Qed.

(* an array whose first and last values are equal (so, of the sorted ones, exactly the constant ones): the
   function never returns an array *)
Theorem C87_equal_ends_refuted :
  forall (src : list Q) a b, (2 <= List.length src)%nat -> nth_error src 0 = Some a -> nth_error src (List.length src - 1) = Some b -> a == b ->
  forall fuel out, interp_uniq_Q fuel src <> Some (Ok out).
Proof. intros src a b L Ha Hb E. apply never_closed_ends. exists a, b. auto. Qed.
Example C87_equal_ends_ex : interp_uniq_Q 50 [0; 0; 0; 0] = None /\ interp_uniq_Q 50 [1; 2; 1] = None.
Proof. split; vm_compute; reflexivity. Qed.

(* integer arrays: with more elements than integers between the smallest and the largest value, the
   function never returns an array, although the mean of two numbers lies between them *)
Theorem C87_integers_refuted :
  forall (src : list Z) lo hi, src <> [] -> Forall (fun x => (lo <= x <= hi)%Z) src -> (hi - lo + 1 < Z.of_nat (List.length src))%Z ->
  forall fuel out, interp_uniq_Z fuel src <> Some (Ok out).
Proof. exact never_integers. Qed.
Example C87_integers_ex : interp_uniq_Z 50 [1; 1; 2]%Z = None /\ option_map (mapR (map Qred)) (interp_uniq_Q 3 [1; 1; 2]) = Some (Ok [1; 3 # 2; 2]) /\
  interp_uniq_Z 50 [1; 1; 5]%Z = Some (Ok [1; 3; 5]%Z).
Proof. repeat split; vm_compute; reflexivity. Qed.

(* doubles: two neighbouring values of which one is repeated have no double between them; the function
   never returns an array *)
Definition one : double := f1 53 1024 p53 e1024.
Definition next : double := binary_normalize 53 1024 p53 e1024 mode_NE 4503599627370497 (-52) false.
Lemma d_half_11 : d_half one one = one. Proof. apply B2SF_inj. vm_compute. reflexivity. Qed.
Lemma d_half_1n : d_half one next = one. Proof. apply B2SF_inj. vm_compute. reflexivity. Qed.
Lemma d_half_n1 : d_half next one = one. Proof. apply B2SF_inj. vm_compute. reflexivity. Qed.
Lemma d_half_nn : d_half next next = next. Proof. apply B2SF_inj. vm_compute. reflexivity. Qed.
Theorem C87_doubles_refuted : forall fuel out, interp_uniq_d fuel [one; one; next] <> Some (Ok out).
Proof.
  apply (never_closed _ _ _ d_half (fun x => x = one \/ x = next) [one; next]).
  - intros a b [-> | ->] [-> | ->]; [left; apply d_half_11|left; apply d_half_1n|left; apply d_half_n1|right; apply d_half_nn].
  - intros x [-> | ->]; vm_compute; reflexivity.
  - assert (N : d_same one next = false) by (vm_compute; reflexivity). assert (N2 : d_same next one = false) by (vm_compute; reflexivity).
    assert (R : d_same one one = true) by (vm_compute; reflexivity). assert (R2 : d_same next next = true) by (vm_compute; reflexivity).
    intros x y z [-> | ->] [-> | ->] [<- | [<- | []]] Hx Hy; congruence.
  - constructor; [left; reflexivity|]. constructor; [left; reflexivity|]. constructor; [right; reflexivity|]. constructor.
  - cbn. lia.
Qed.
(* the loop does end for doubles that are further apart: 0, 0, 1 becomes 0, 1/2, 1 *)
Example C87_doubles_ex :
  option_map (mapR (map B2SF)) (interp_uniq_d 3 [B754_zero false; B754_zero false; one]) =
  Some (Ok (map B2SF [B754_zero false; fdiv 53 1024 p53 e1024 one (of_z 53 1024 p53 e1024 2); one])) /\ Bltb one next = true.
Proof. split; vm_compute; reflexivity. Qed.
(* Arrays with missing values (None is NaN).  np.unique takes all NaN for one value, but NaN == NaN is false,
   so that a repeated NaN is noticed and never replaced. *)
Definition interp_uniq_nan := interp_uniq n_same n_eqb n_lt n_half.
(* without missing values this is the function on exact numbers *)
Theorem C87_no_missing fuel src : interp_uniq_nan fuel (map Some src) = option_map (mapR (map Some)) (interp_uniq_Q fuel src).
Proof. apply interp_uniq_hom; reflexivity. Qed.
(* whatever is returned has the same length, missing values where they were, and no value twice (not even NaN) *)
Theorem C87_missing fuel (src out : list (option Q)) : interp_uniq_nan fuel src = Some (Ok out) ->
  List.length out = List.length src /\
  (forall i, nth_error src i = Some None -> nth_error out i = Some None) /\
  (forall i j, i <> j -> nth_error out i = Some None -> nth_error out j <> Some None) /\
  (forall i j a b, i <> j -> nth_error out i = Some (Some a) -> nth_error out j = Some (Some b) -> ~ a == b).
Proof.
  intros E. destruct (result_missing fuel src out E) as (A & B & C). split; [exact A|]. split; [exact B|]. split.
  - intros i j N Hi Hj. destruct (Nat.lt_gt_cases i j) as [K _]. destruct (K N) as [L|L]; [pose proof (C _ _ _ _ L Hi Hj)|pose proof (C _ _ _ _ L Hj Hi)]; discriminate.
  - intros i j a b N Hi Hj X. destruct (Nat.lt_gt_cases i j) as [K _]. destruct (K N) as [L|L]; [pose proof (C _ _ _ _ L Hi Hj) as D|pose proof (C _ _ _ _ L Hj Hi) as D]; cbn in D;
      apply Bool.not_true_iff_false in D; apply D, Qeq_bool_iff; [symmetry|]; exact X.
Qed.
Example C87_missing_ex : option_map (mapR (map (option_map Qred))) (interp_uniq_nan 4 [Some 0; Some 0; Some 1; None]) = Some (Ok [Some 0; Some (1 # 2); Some 1; None]).
Proof. vm_compute. reflexivity. Qed.
(* two missing values: the function never returns an array; one missing value behind a repeated number
   becomes a second one *)
Theorem C87_missing_refuted : forall (src : list (option Q)) i j, i <> j -> nth_error src i = Some None -> nth_error src j = Some None ->
  forall fuel out, interp_uniq_nan fuel src <> Some (Ok out).
Proof.
  intros src i j N Hi Hj. destruct (Nat.lt_gt_cases i j) as [K _]. destruct (K N) as [L|L]; [exact (never_missing src i j L Hi Hj)|exact (never_missing src j i L Hj Hi)].
Qed.
Example C87_missing_refuted_ex : interp_uniq_nan 40 [Some 0; None; None] = None /\ interp_uniq_nan 40 [Some 0; Some 1; Some 1; None] = None.
Proof. split; vm_compute; reflexivity. Qed.
Print Assumptions C87_no_missing.
Print Assumptions C87_missing.
Print Assumptions C87_missing_refuted.
Print Assumptions C87_unique_values.
Print Assumptions C87_equal_ends_refuted.
Print Assumptions C87_integers_refuted.
Print Assumptions C87_doubles_refuted.
