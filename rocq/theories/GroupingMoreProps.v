(* C14: YearlessDatetime.from_datetime. *)
From Coq Require Import Lia.
From Verif Require Import Base Calendar GroupingModel GroupingSpec GroupingProofs DistributorProofs.
Ltac Zify.zify_post_hook ::= Z.div_mod_to_equations.

(* month and day are kept; hour, minute and second are those of the time of day, what is below a second is dropped *)
Theorem C14_from_datetime t : valid_ts t -> let y := yl_from_datetime t in
  valid_yl y /\ yl_month y = dm (t_date t) /\ yl_day y = dd (t_date t) /\
  0 <= yl_hour y < 24 /\ 0 <= yl_minute y < 60 /\ 0 <= yl_second y < 60 /\
  0 <= t_ns t - (yl_hour y * 3600 + yl_minute y * 60 + yl_second y) * 1000000000 < 1000000000.
Proof.
  intros [[M D] NS]. unfold day_ns, second_ns in NS. unfold yl_from_datetime, second_ns. cbv zeta.
  assert (S : exists s, s = t_ns t / 1000000000 /\ 0 <= s < 86400 /\ 0 <= t_ns t - s * 1000000000 < 1000000000) by (eexists; split; [reflexivity|lia]).
  destruct S as (s & <- & S1 & S2). cbn [yl_month yl_day yl_hour yl_minute yl_second].
  assert (H : 0 <= s / 3600 < 24) by lia. assert (Mi : 0 <= s / 60 mod 60 < 60) by lia. assert (Se : 0 <= s mod 60 < 60) by lia.
  assert (E : s / 3600 * 3600 + s / 60 mod 60 * 60 + s mod 60 = s) by lia.
  split; [|rewrite E; repeat split; lia]. unfold valid_yl. cbn [yl_month yl_day yl_hour yl_minute yl_second].
  assert (D2 : dd (t_date t) <= month_len true (dm (t_date t))).
  { destruct D as [_ D]. unfold days_in_month, month_len in *. destruct (leap _), (dm (t_date t) =? 2); lia. }
  repeat split; try lia; exact D2.
Qed.
(* to_datetime brings a datetime in whole seconds back to its own year *)
Theorem C14_from_datetime_round_trip t : valid_ts t -> whole_second t -> yl_in_year (yl_from_datetime t) (dy (t_date t)) = Ok (Some t).
Proof.
  intros V [k K]. destruct (C14_from_datetime t V) as (VY & EM & ED & _ & _ & _ & NS).
  assert (NF : ~ (yl_is_feb29 (yl_from_datetime t) /\ leap (dy (t_date t)) = false)).
  { intros [[F1 F2] L]. rewrite EM in F1. rewrite ED in F2. destruct V as [[_ D] _]. rewrite F1, F2 in D. unfold days_in_month in D. rewrite L in D. cbn in D. lia. }
  rewrite yl_in_year_some; [|exact VY|destruct (leap (dy (t_date t))) eqn:E; [left; reflexivity|right; intros F; apply NF; split; [exact F|reflexivity]]].
  f_equal. f_equal. destruct t as [[y m d] ns]. cbn [t_date dy dm dd t_ns] in *. rewrite EM, ED. f_equal. unfold yl_time, second_ns in *. lia.
Qed.
Print Assumptions C14_from_datetime.
Print Assumptions C14_from_datetime_round_trip.
Example C14_from_datetime_ex : let t := mkTs (mkDate 2020 2 29) (((13 * 60 + 5) * 60 + 59) * second_ns) in
  valid_ts t /\ whole_second t /\ yl_from_datetime t = mkYl 2 29 13 5 59 /\ yl_in_year (yl_from_datetime t) 2021 = Ok None.
Proof. cbv zeta. split; [repeat split; vm_compute; congruence|]. split; [eexists; reflexivity|]. split; reflexivity. Qed.
