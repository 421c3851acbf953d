(* Medians of an even number, climatologies without a time span (C97), boolean frames of the masking adapter (C98) and
   the characters of column names (C99). *)
From Coq Require Import List Lia ZArith QArith String Ascii Sorting.Sorted Sorting.Permutation.
From Verif Require Import Base AdaptersModel ClimModel ClimProofs ClimProps DfWrapModel.
From Verif Require OwnModel.
Import ListNotations.
Open Scope nat_scope.

Lemma q_insert_perm x l : Permutation (x :: l) (q_insert x l).
Proof. induction l as [|y l IH]; cbn [q_insert]; [reflexivity|]. destruct (Qle_bool x y); [reflexivity|]. rewrite <- IH. apply perm_swap. Qed.
Lemma q_sort_perm l : Permutation l (q_sort l).
Proof. induction l as [|x l IH]; cbn; [reflexivity|]. fold (q_sort l). rewrite <- q_insert_perm. now constructor. Qed.

(* the median of an even number of values is the mean of the two in the middle, of an odd number the one in the middle *)
Theorem C97_median_even :
  forall l, l <> [] -> exists s, Permutation l s /\ StronglySorted Qle s /\
    (forall k, List.length l = 2 * k -> median_agg l = Some ((nth (k - 1) s 0 + nth k s 0) / 2)%Q) /\
    (forall k, List.length l = 2 * k + 1 -> median_agg l = Some (nth k s 0)%Q).
Proof.
  intros l N. exists (q_sort l). split; [apply q_sort_perm|]. split; [apply sort_sorted|].
  assert (L : List.length (q_sort l) = List.length l) by apply q_sort_length.
  assert (Z0 : List.length l <> 0) by (destruct l; [congruence|discriminate]).
  split; intros k E; unfold median_agg; cbv zeta; rewrite L, E.
  - replace (Nat.eqb (2 * k) 0) with false by (symmetry; apply Nat.eqb_neq; lia).
    replace (Nat.even (2 * k)) with true by (symmetry; apply Nat.even_spec; exists k; lia).
    replace (2 * k / 2) with k by (symmetry; rewrite Nat.mul_comm; apply Nat.div_mul; lia). reflexivity.
  - replace (Nat.eqb (2 * k + 1) 0) with false by (symmetry; apply Nat.eqb_neq; lia).
    replace (Nat.even (2 * k + 1)) with false by (symmetry; rewrite <- Nat.negb_odd; replace (Nat.odd (2 * k + 1)) with true; [reflexivity|symmetry; apply Nat.odd_spec; exists k; lia]).
    replace ((2 * k + 1) / 2) with k by (rewrite Nat.mul_comm, Nat.div_add_l by lia; reflexivity || (cbn; lia)). reflexivity.
Qed.
(* no time span: the whole series *)
Theorem C97_no_span :
  forall agg agg_std o ser, calc_climatology_span agg agg_std o None ser = calc_climatology agg agg_std o ser.
Proof. reflexivity. Qed.
Example C97_ex_even : median_agg [5; 1; 4; 2]%Q = Some ((2 + 4) / 2)%Q.
Proof. reflexivity. Qed.

(* the masking adapter returns a new frame without a time zone, with the same columns and times as the answer of the
   comparison, 1 where it holds and 0 where it does not; the frame that was read stays *)
Theorem C98_mask_frame :
  forall f threshold n h r t b, nth_error h r = Some (OwnModel.mkObj t false) -> masking_adapter f threshold n (Some t) = Ok b ->
  exists t', OwnModel.eff_adapt (OwnModel.AMask f threshold n) h (Some r) = (h ++ [OwnModel.mkObj t' false], Ok (List.length h)) /\
    tcols t' = fst b /\ List.length (trows t') = List.length (snd b) /\
    forall i, i < List.length (snd b) -> exists time flags values, nth_error (snd b) i = Some (time, flags) /\ nth_error (trows t') i = Some (time, values) /\
      Forall2 (fun (x : bool) c => (x = true /\ c = Some 1%Q) \/ (x = false /\ c = Some 0%Q)) flags values.
Proof.
  intros f threshold n h r t b G M. exists (OwnModel.of_bools b). unfold OwnModel.eff_adapt, OwnModel.eff_basic, OwnModel.get. rewrite G. cbn [OwnModel.o_zone]. rewrite G. cbn [OwnModel.o_tab]. rewrite M.
  split; [reflexivity|]. split; [reflexivity|]. split; [cbn; apply map_length|].
  intros i Hi. destruct (nth_error (snd b) i) as [[time flags]|] eqn:E; [|apply nth_error_None in E; lia].
  exists time, flags, (map (fun x : bool => Some (if x then 1 else 0)%Q) flags). split; [reflexivity|]. split; [cbn; rewrite nth_error_map, E; reflexivity|].
  induction flags as [|x flags IH] in |- *; [constructor|]. cbn. constructor; [destruct x; auto|exact IH].
Qed.
Example C98_ex_mask_frame :
  let t := mkTab ["a"%string] [(Some 1%Q, [Some 5%Q]); (Some 2%Q, [Some 7%Q])] in
  exists h', OwnModel.eff_adapt (OwnModel.AMask (OpName "<") (Some 6%Q) None) [OwnModel.mkObj t false] (Some 0) = (h', Ok 1).
Proof. eexists. vm_compute. reflexivity. Qed.

(* the characters of the names that pairs of columns can have *)
Definition same_on_all (p q : ascii -> bool) : bool := forallb (fun n => Bool.eqb (p (ascii_of_nat n)) (q (ascii_of_nat n))) (seq 0 256).
Lemma same_on_all_ok p q : same_on_all p q = true -> forall c, p c = q c.
Proof.
  intros H c. unfold same_on_all in H. rewrite forallb_forall in H.
  specialize (H (nat_of_ascii c)). rewrite ascii_nat_embedding in H. apply Bool.eqb_prop, H.
  apply in_seq. pose proof (nat_ascii_bounded c). lia.
Qed.
Definition among (s : string) (c : ascii) : bool := existsb (Ascii.eqb c) (list_ascii_of_string s).
Lemma among_in s c : among s c = true <-> In c (list_ascii_of_string s).
Proof. unfold among. rewrite existsb_exists. split; [intros (x & I & E); apply Ascii.eqb_eq in E; now subst|intros I; exists c; split; [exact I|apply Ascii.eqb_refl]]. Qed.
Theorem C99_characters :
  (forall c, letter c = true <-> In c (list_ascii_of_string "ABCDEFGHIJKLMNOPQRSTUVWXYZ_abcdefghijklmnopqrstuvwxyz")) /\
  (forall c, digit c = true <-> In c (list_ascii_of_string "0123456789")).
Proof.
  assert (A : forall c, letter c = among "ABCDEFGHIJKLMNOPQRSTUVWXYZ_abcdefghijklmnopqrstuvwxyz" c) by (apply same_on_all_ok; vm_compute; reflexivity).
  assert (B : forall c, digit c = among "0123456789" c) by (apply same_on_all_ok; vm_compute; reflexivity).
  split; intros c; rewrite <- among_in; [rewrite A|rewrite B]; reflexivity.
Qed.
Example C99_ex_characters : letter "z" = true /\ letter "_" = true /\ letter "0" = false /\ digit "9" = true.
Proof. repeat split; reflexivity. Qed.

Print Assumptions C97_median_even.
Print Assumptions C97_no_span.
Print Assumptions C98_mask_frame.
Print Assumptions C99_characters.
