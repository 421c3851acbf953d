(* C72: the calendar used by anomalies, climatologies and grouping. *)
From Coq Require Import Znumtheory Lia.
From Verif Require Import Base Calendar GroupingModel GroupingProofs.
Ltac Zify.zify_post_hook ::= Z.div_mod_to_equations.

Lemma mod0 a b : 0 < b -> (a mod b =? 0) = true <-> (b | a).
Proof. intros B. rewrite Z.eqb_eq. apply Z.mod_divide. lia. Qed.

(* a leap year is divisible by 4, and by 400 if it is divisible by 100 *)
Theorem C72_leap_years y : leap y = true <-> (4 | y) /\ ((100 | y) -> (400 | y)).
Proof.
  unfold leap. rewrite Bool.orb_true_iff, Bool.andb_true_iff, Bool.negb_true_iff, mod0, mod0 by lia. split.
  - intros [[A B]|A].
    + split; [exact A|]. intros C. apply mod0 in C; [|lia]. congruence.
    + split; [|auto]. destruct A as [k ->]. exists (100 * k). lia.
  - intros [A B]. destruct (y mod 100 =? 0) eqn:E; [right; apply B; apply mod0; [lia|exact E]|left; auto].
Qed.
(* the calendar repeats after 400 years, 97 of them leap years *)
Theorem C72_cycle y : leap (y + 400) = leap y.
Proof.
  unfold leap. replace ((y + 400) mod 4) with (y mod 4) by lia. replace ((y + 400) mod 100) with (y mod 100) by lia.
  replace ((y + 400) mod 400) with (y mod 400) by lia. reflexivity.
Qed.
Definition leap_count (y : Z) (n : nat) : Z := fold_right Z.add 0 (map (fun i => if leap (y + Z.of_nat i) then 1 else 0) (seq 0 n)).
Lemma count_shift n : forall y, leap_count y (S n) = leap_count y n + (if leap (y + Z.of_nat n) then 1 else 0).
Proof.
  intros y. unfold leap_count. rewrite seq_S, map_app, Nat.add_0_l. cbn [map].
  generalize (map (fun i => if leap (y + Z.of_nat i) then 1 else 0) (seq 0 n)). intros l. induction l as [|a l IH]; cbn; lia.
Qed.
Lemma count_tail n : forall y, leap_count y (S n) = (if leap y then 1 else 0) + leap_count (y + 1) n.
Proof.
  intros y. unfold leap_count. cbn [seq map fold_right]. rewrite Z.add_0_r. f_equal. f_equal. rewrite <- seq_shift, map_map. apply map_ext.
  intros i. replace (y + Z.of_nat (S i)) with (y + 1 + Z.of_nat i) by lia. reflexivity.
Qed.
Lemma count_step y : leap_count (y + 1) 400 = leap_count y 400.
Proof.
  pose proof (count_shift 400 y) as A. pose proof (count_tail 400 y) as B. change (Z.of_nat 400) with 400 in A. rewrite C72_cycle in A. lia.
Qed.
Theorem C72_leap_years_in_cycle y : leap_count y 400 = 97.
Proof.
  assert (P : forall n : nat, leap_count (Z.of_nat n) 400 = 97).
  { induction n as [|n IH]; [reflexivity|]. rewrite Nat2Z.inj_succ. unfold Z.succ. rewrite count_step. exact IH. }
  assert (N : forall n : nat, leap_count (- Z.of_nat n) 400 = 97).
  { induction n as [|n IH]; [reflexivity|]. rewrite <- IH, <- (count_step (- Z.of_nat (S n))). f_equal. lia. }
  destruct (Z.le_gt_cases 0 y) as [L|L]; [rewrite <- (Z2Nat.id y) by lia; apply P|].
  replace y with (- Z.of_nat (Z.to_nat (- y))) by lia. apply N.
Qed.

(* the lengths of the months *)
Theorem C72_month_lengths y m : 1 <= m <= 12 ->
  (days_in_month y m = 31 <-> In m [1; 3; 5; 7; 8; 10; 12]) /\ (days_in_month y m = 30 <-> In m [4; 6; 9; 11]) /\
  (days_in_month y 2 = if leap y then 29 else 28).
Proof.
  intros M. unfold days_in_month, month_len. assert (C : m = 1 \/ m = 2 \/ m = 3 \/ m = 4 \/ m = 5 \/ m = 6 \/ m = 7 \/ m = 8 \/ m = 9 \/ m = 10 \/ m = 11 \/ m = 12) by lia.
  repeat split; try (intros H; revert H); destruct C as [->|[->|[->|[->|[->|[->|[->|[->|[->|[->|[->| ->]]]]]]]]]]]; destruct (leap y); cbn; intros; try tauto; try lia.
Qed.

(* days from the start of the year up to the end of month m *)
Definition days_before (y : Z) (n : nat) : Z := fold_right Z.add 0 (map (fun i => days_in_month y (Z.of_nat i)) (seq 1 n)).
(* doy with a year: the number of days from the first of January to the date, both included *)
Theorem C72_day_of_year d : valid_date d ->
  doy_year (dm d) (dd d) (dy d) = days_before (dy d) (Z.to_nat (dm d - 1)) + dd d.
Proof.
  intros [M D]. destruct d as [y m n]. cbn [dm dd dy] in *. clear D.
  assert (C : m = 1 \/ m = 2 \/ m = 3 \/ m = 4 \/ m = 5 \/ m = 6 \/ m = 7 \/ m = 8 \/ m = 9 \/ m = 10 \/ m = 11 \/ m = 12) by lia.
  enough (H : (if negb (leap y) && (2 <? m) then days_past m - 1 else days_past m) = days_before y (Z.to_nat (m - 1))).
  { rewrite <- H. unfold doy_year. destruct (_ && _); lia. }
  unfold days_before, days_in_month. destruct C as [->|[->|[->|[->|[->|[->|[->|[->|[->|[->|[->| ->]]]]]]]]]]]; destruct (leap y); reflexivity.
Qed.
(* it is between 1 and the length of the year, and 31 December is the last day *)
Theorem C72_day_of_year_range d : valid_date d -> 1 <= doy_year (dm d) (dd d) (dy d) <= (if leap (dy d) then 366 else 365).
Proof.
  intros [M D]. destruct d as [y m n]. cbn [dm dd dy] in *. unfold days_in_month in D.
  assert (C : m = 1 \/ m = 2 \/ m = 3 \/ m = 4 \/ m = 5 \/ m = 6 \/ m = 7 \/ m = 8 \/ m = 9 \/ m = 10 \/ m = 11 \/ m = 12) by lia.
  assert (B : 0 <= (if negb (leap y) && (2 <? m) then days_past m - 1 else days_past m) /\
    (if negb (leap y) && (2 <? m) then days_past m - 1 else days_past m) + month_len (leap y) m <= (if leap y then 366 else 365)).
  { clear D. destruct C as [->|[->|[->|[->|[->|[->|[->|[->|[->|[->|[->| ->]]]]]]]]]]]; destruct (leap y); split; vm_compute; discriminate. }
  unfold doy_year. destruct (_ && _); lia.
Qed.
(* without a year: the number of the date in a leap year *)
Theorem C72_day_without_year m d y : leap y = true -> doy m d = doy_year m d y.
Proof. intros L. unfold doy, doy_year. rewrite L. reflexivity. Qed.
(* different dates of a year have different numbers, in the order of the dates *)
Theorem C72_day_of_year_order a b : valid_date a -> valid_date b -> dy a = dy b ->
  (doy_year (dm a) (dd a) (dy a) < doy_year (dm b) (dd b) (dy b) <-> date_lt a b).
Proof.
  intros VA VB E. rewrite !C72_day_of_year by assumption. destruct a as [y m d], b as [y' m' d']. cbn [dm dd dy] in *. subst y'.
  destruct VA as [M D], VB as [M' D']. cbn [dm dd dy] in *. unfold date_lt. cbn [dm dd dy].
  assert (MONO : forall a b : nat, (a < b)%nat -> (b <= 11)%nat -> days_before y a + days_in_month y (Z.of_nat (S a)) <= days_before y b).
  { intros i j IJ J. clear - IJ J. assert (L : forall m, 28 <= days_in_month y m) by (intros m; unfold days_in_month, month_len; destruct (leap y); repeat destruct (_ =? _); cbn; lia).
    assert (STEP : forall i, days_before y (S i) = days_before y i + days_in_month y (Z.of_nat (S i))).
    { intros k. unfold days_before. rewrite seq_S, map_app. cbn [map]. replace (1 + k)%nat with (S k) by lia.
      generalize (map (fun i => days_in_month y (Z.of_nat i)) (seq 1 k)) (days_in_month y (Z.of_nat (S k))). intros l z. induction l as [|a l IH]; cbn; lia. }
    induction IJ as [|j IJ IH]; [rewrite STEP; lia|]. rewrite STEP. specialize (L (Z.of_nat (S j))). specialize (IH ltac:(lia)). lia. }
  destruct (Z.lt_trichotomy m m') as [L|[->|L]].
  - split; [lia|]. intros _. specialize (MONO (Z.to_nat (m - 1)) (Z.to_nat (m' - 1)) ltac:(lia) ltac:(lia)).
    replace (Z.of_nat (S (Z.to_nat (m - 1)))) with m in MONO by lia. lia.
  - split; lia.
  - split; [|lia]. intros H. specialize (MONO (Z.to_nat (m' - 1)) (Z.to_nat (m - 1)) ltac:(lia) ltac:(lia)).
    replace (Z.of_nat (S (Z.to_nat (m' - 1)))) with m' in MONO by lia. lia.
Qed.
Print Assumptions C72_leap_years.
Print Assumptions C72_leap_years_in_cycle.
Print Assumptions C72_month_lengths.
Print Assumptions C72_day_of_year.
Print Assumptions C72_day_of_year_order.
Example C72_ex : valid_date (mkDate 2000 12 31) /\ valid_date (mkDate 1900 3 1) /\ map leap [1900; 2000; 2004; 2023] = [false; true; true; false] /\
  doy_year 12 31 2000 = 366 /\ doy_year 3 1 1900 = 60 /\ doy 3 1 = 61 /\ ~ valid_date (mkDate 1900 2 29).
Proof. repeat split; try (cbn; lia). intros [_ [_ H]]. cbn in H. lia. Qed.
