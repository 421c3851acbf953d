(* Property theorems C114: time stamps of stored time series survive the result file. *)
From Coq Require Import Reals Lra Lia ZArith List.
From Flocq Require Import Core IEEE754.BinarySingleNaN.
From Verif Require Import FloatModel FloatProps JdProofs TimeNumModel TimeNumSpec TimeNumProofs.
Import ListNotations.
Open Scope Z_scope.

Lemma cut_div t : cut t (to_pydatetime t * 1000).
Proof. unfold cut, to_pydatetime. pose proof (Z_div_mod_eq_full t 1000). pose proof (Z.mod_pos_bound t 1000 ltac:(lia)). split; [exists (t / 1000); reflexivity|lia]. Qed.
Lemma cut_whole t r : whole_microsecond t -> cut t r -> r = t.
Proof. intros [k ->] [[j ->] L]. lia. Qed.
Lemma usual_us t : usual t -> Z.abs (to_pydatetime t) < 65536 * us_per_day \/ to_pydatetime t = - (65536 * us_per_day).
Proof. unfold usual, ns_day, us_per_day, to_pydatetime. intros L. pose proof (Z_div_mod_eq_full t 1000). pose proof (Z.mod_pos_bound t 1000 ltac:(lia)). lia. Qed.
Lemma far_us t : far t -> Z.abs (to_pydatetime t) <= 2 ^ 53 - 2 ^ 24.
Proof. unfold far, to_pydatetime. intros L. pose proof (Z_div_mod_eq_full t 1000). pose proof (Z.mod_pos_bound t 1000 ltac:(lia)). lia. Qed.
Lemma usual_far t : usual t -> far t.
Proof. unfold usual, far, ns_day. lia. Qed.

(* every time stamp is read back up to the microsecond *)
Theorem C114_times_read_back : forall times, Forall usual times ->
  Forall2 cut times (times_read (stored_numbers times)).
Proof.
  intros times. induction times as [|t r IH]; intros F; [constructor|]. inversion_clear F as [|? ? U Ur]. constructor; [|apply IH; exact Ur].
  assert (E : num2date 53 1024 64 16384 x64 x16384 (date2num 53 1024 p53 e1024 (to_pydatetime t)) = to_pydatetime t).
  { destruct (usual_us t U) as [L|L]; [apply round_trip; exact L|].
    pose proof (half_hours (-65536 * 48)) as H. replace (-65536 * 48 * 1800000000) with (to_pydatetime t) in H by (rewrite L; reflexivity).
    apply H. rewrite L. unfold us_per_day. lia. }
  cbv beta. rewrite E. apply cut_div.
Qed.
(* so that time stamps without nanoseconds come back unchanged *)
Theorem C114_unchanged : forall times, Forall usual times -> Forall whole_microsecond times ->
  times_read (stored_numbers times) = times.
Proof.
  intros times U W. pose proof (C114_times_read_back times U) as F. clear U. revert F W. generalize (times_read (stored_numbers times)) as l.
  intros l F. induction F as [|t r ts rs C F IH]; intros W; [reflexivity|]. inversion_clear W as [|? ? Wt Wr]. rewrite (cut_whole t r Wt C), (IH Wr). reflexivity.
Qed.
(* full and half hours come back unchanged far beyond that range *)
Theorem C114_half_hours : forall times, Forall far times -> Forall half_hour times ->
  times_read (stored_numbers times) = times.
Proof.
  intros times. induction times as [|t r IH]; intros F H; [reflexivity|]. inversion_clear F as [|? ? Ft Fr]. inversion_clear H as [|? ? [k E] Hr].
  unfold times_read, read_back, stored_numbers, written in *. cbn [map]. rewrite (IH Fr Hr). f_equal.
  pose proof (far_us t Ft) as L. assert (Q : to_pydatetime t = k * 1800000000) by (unfold to_pydatetime; rewrite E; replace (k * (1800 * 1000000000)) with (k * 1800000000 * 1000) by ring; apply Z.div_mul; lia).
  rewrite Q in *. rewrite half_hours by exact L. rewrite E. ring.
Qed.
(* and any other time stamp there within one microsecond *)
Theorem C114_near : forall times, Forall far times -> Forall whole_microsecond times ->
  Forall2 (fun t r => r = t - 1000 \/ r = t \/ r = t + 1000) times (times_read (stored_numbers times)).
Proof.
  intros times. induction times as [|t r IH]; intros F W; [constructor|]. inversion_clear F as [|? ? Ft Fr]. inversion_clear W as [|? ? Wt Wr].
  constructor; [|apply IH; assumption]. pose proof (near_trip _ (far_us t Ft)) as N. pose proof (cut_whole t _ Wt (cut_div t)) as C. lia.
Qed.
(* later time stamps never get smaller numbers; in the usual range different microseconds get different numbers *)
Theorem C114_order : forall s t, far s -> far t ->
  (s <= t -> forall a b, stored_numbers [s; t] = [a; b] -> Bleb a b = true) /\
  (usual s -> usual t -> whole_microsecond s -> whole_microsecond t -> s < t -> forall a b, stored_numbers [s; t] = [a; b] -> Bltb a b = true).
Proof.
  intros s t Fs Ft. pose proof (far_us s Fs) as Ls. pose proof (far_us t Ft) as Lt.
  destruct (num_val (to_pydatetime s) ltac:(lia)) as [Ns _]. destruct (num_val (to_pydatetime t) ltac:(lia)) as [Nt _].
  assert (M : s <= t -> (B2R (num (to_pydatetime s)) <= B2R (num (to_pydatetime t)))%R).
  { intros L. apply num_le; [unfold to_pydatetime; apply Z.div_le_mono; lia|lia|lia]. }
  split.
  - intros L a b E. unfold stored_numbers, written in E. cbn [map] in E.
    assert (A : a = num (to_pydatetime s)) by congruence. assert (B : b = num (to_pydatetime t)) by congruence. subst a b.
    rewrite Bleb_correct by assumption. apply Rle_bool_true, M, L.
  - intros Us Ut Ws Wt L a b E. pose proof (C114_unchanged [s; t] ltac:(repeat (constructor; [assumption|]); constructor) ltac:(repeat (constructor; [assumption|]); constructor)) as R.
    rewrite E in R. unfold stored_numbers, written in E. cbn [map] in E.
    assert (A : a = num (to_pydatetime s)) by congruence. assert (B : b = num (to_pydatetime t)) by congruence.
    assert (Fa : is_finite a = true) by (rewrite A; exact Ns). assert (Fb : is_finite b = true) by (rewrite B; exact Nt).
    rewrite Bltb_correct by assumption. apply Rlt_bool_true. destruct (Rle_lt_or_eq_dec (B2R a) (B2R b)) as [Q|Q]; [rewrite A, B; apply M; lia|exact Q|].
    exfalso. unfold times_read, read_back in R. cbn [map] in R.
    assert (R1 : num2date 53 1024 64 16384 x64 x16384 a * 1000 = s) by congruence. assert (R2 : num2date 53 1024 64 16384 x64 x16384 b * 1000 = t) by congruence.
    destruct (Z.eq_dec (to_pydatetime s) (to_pydatetime t)) as [Z|Z].
    + rewrite A, Z, <- B in R1. lia.
    + assert (X : date2num 53 1024 p53 e1024 (to_pydatetime s) = date2num 53 1024 p53 e1024 (to_pydatetime t) \/ B2R a = 0%R).
      { destruct (Req_dec (B2R a) 0) as [Q0|Q0]; [right; exact Q0|left]. rewrite <- A, <- B. apply B2R_inj; [|clear -Q Q0|exact Q].
        - clear -Fa Q0. destruct a; try discriminate; [cbn in Q0; lra|reflexivity].
        - rewrite Q in Q0. destruct b; try reflexivity; cbn in Q0; lra. }
      destruct X as [X|X]; [rewrite <- A, <- B in X; rewrite X in R1; lia|].
      assert (Y : B2R b = 0%R) by (rewrite <- Q; exact X).
      assert (Zr : forall f : binary_float 53 1024, is_finite f = true -> B2R f = 0%R -> num2date 53 1024 64 16384 x64 x16384 f = 0).
      { intros f Ff Q1. destruct (date_val f Ff) as (p & P & ->); [rewrite Q1, Rabs_R0, Rmult_0_l; apply bpow_gt_0|].
        rewrite Q1, Rmult_0_l, Rminus_0_r in P. apply Znearest_imp. rewrite Rminus_0_r. lra. }
      rewrite (Zr a Fa X) in R1. rewrite (Zr b Fb Y) in R2. lia.
Qed.
(* midnights are stored as whole numbers of days *)
Theorem C114_midnight : forall k, Z.abs k <= 65536 -> forall a, stored_numbers [k * ns_day] = [a] -> B2R a = IZR k.
Proof.
  intros k L a E. unfold stored_numbers, written in E. cbn [map] in E. assert (A : a = num (to_pydatetime (k * ns_day))) by congruence. rewrite A.
  replace (to_pydatetime (k * ns_day)) with (k * us_per_day); [apply num_day; exact L|].
  unfold to_pydatetime, ns_day, us_per_day. replace (k * (86400 * 1000000000)) with (k * (86400 * 10 ^ 6) * 1000) by ring. symmetry. apply Z.div_mul. lia.
Qed.
(* from 2079-06-07 on whole minutes can come back wrong (2079-06-07 00:03:00 is read as 00:03:00.000001), and two different
   time stamps can get the same number *)
Theorem C114_after_2079_refuted :
  ~ (forall times, Forall far times -> Forall whole_microsecond times -> times_read (stored_numbers times) = times) /\
  ~ (forall s t, far s -> far t -> whole_microsecond s -> whole_microsecond t -> s <> t -> stored_numbers [s] <> stored_numbers [t]).
Proof.
  split; intros H.
  - specialize (H [(65536 * 86400 + 180) * 1000000000]). assert (E : times_read (stored_numbers [(65536 * 86400 + 180) * 1000000000]) = [(65536 * 86400 + 180) * 1000000000 + 1000]) by (vm_compute; reflexivity).
    rewrite E in H. discriminate H.
    + constructor; [unfold far; lia|constructor].
    + constructor; [exists ((65536 * 86400 + 180) * 1000000); lia|constructor].
  - apply (H 5662310400000002000 5662310400000003000); [unfold far; lia|unfold far; lia|exists 5662310400000002; reflexivity|exists 5662310400000003; reflexivity|lia|].
    assert (B : match stored_numbers [5662310400000002000], stored_numbers [5662310400000003000] with [a], [b] => Beqb a b | _, _ => false end = true) by (vm_compute; reflexivity).
    unfold stored_numbers, written in *. cbn [map] in *. f_equal.
    destruct (num_val (to_pydatetime 5662310400000002000) ltac:(unfold to_pydatetime; reflexivity || (vm_compute; discriminate))) as [F1 _].
    destruct (num_val (to_pydatetime 5662310400000003000) ltac:(vm_compute; discriminate)) as [F2 _].
    rewrite Beqb_correct in B by assumption. unfold Raux.Req_bool in B. destruct (Rcompare_spec (B2R (num (to_pydatetime 5662310400000002000))) (B2R (num (to_pydatetime 5662310400000003000)))) as [C|C|C]; try discriminate B.
    assert (S1 : is_finite_strict (num (to_pydatetime 5662310400000002000)) = true) by (vm_compute; reflexivity).
    assert (S2 : is_finite_strict (num (to_pydatetime 5662310400000003000)) = true) by (vm_compute; reflexivity).
    apply B2R_inj; assumption.
Qed.
Print Assumptions C114_times_read_back.
Print Assumptions C114_unchanged.
Print Assumptions C114_half_hours.
Print Assumptions C114_near.
Print Assumptions C114_order.
Print Assumptions C114_midnight.
Print Assumptions C114_after_2079_refuted.

(* 2020-01-01 00:10:00, 00:10:00.000001 and a time stamp with nanoseconds *)
Definition ex_times : list Z := [3786912600000000000; 3786912600000001000; 3786912600000001234].
Example C114_ex : Forall usual ex_times /\ times_read (stored_numbers ex_times) = [3786912600000000000; 3786912600000001000; 3786912600000001000].
Proof. split; [repeat (constructor; [unfold usual, ns_day; lia|]); constructor|vm_compute; reflexivity]. Qed.
(* 2100-06-15 12:30 *)
Example C114_half_hour_ex : half_hour ((73213 * 86400 + 45000) * 1000000000) /\ far ((73213 * 86400 + 45000) * 1000000000) /\
  times_read (stored_numbers [(73213 * 86400 + 45000) * 1000000000]) = [(73213 * 86400 + 45000) * 1000000000].
Proof. split; [exists (73213 * 48 + 25); lia|]. split; [unfold far; lia|vm_compute; reflexivity]. Qed.
