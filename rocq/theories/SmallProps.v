(* Smaller theorems that pin down single tables and conventions: time units (C42), flag columns (C03),
   the share used by BCa (C65), metrics with analytical intervals (C56). *)
From Coq Require Import Reals List Lra Lia.
From Verif Require Import Base BaseProofs RStats RStatsProofs MetricsModel MetricsSpec MetricsProofs MetricsProofs2 RollingModel ConfintModel ConfintProofs AdaptersModel.
From Verif Require Import TemporalModel TemporalSpec TemporalProofs.
Open Scope Z_scope.

(* C42: the units of offset fields in nanoseconds; any other unit is refused *)
Theorem C42_units u k : unit_of u = Ok k <->
  In (u, k) [("W", 7 * 24 * 3600 * 1000000000); ("D", 24 * 3600 * 1000000000); ("h", 3600 * 1000000000); ("m", 60 * 1000000000); ("s", 1000000000);
             ("ms", 1000000); ("us", 1000); ("ns", 1)]%string.
Proof.
  unfold unit_of. split.
  - unfold unit_ns. intros H.
    repeat (match goal with H : match (match ?s with EmptyString => _ | String _ _ => _ end) with _ => _ end = _ |- _ => destruct s as [|[[] [] [] [] [] [] [] []] ?] end; try discriminate).
    all: injection H as <-; cbn; tauto.
  - intros H. cbn in H. repeat (destruct H as [H|H]; [injection H as <- <-; reflexivity|]). destruct H.
Qed.
Theorem C42_unknown_unit u : ~ In u ["W"; "D"; "h"; "m"; "s"; "ms"; "us"; "ns"]%string -> unit_of u = Err EValue.
Proof.
  intros H. destruct (unit_of u) as [k|e] eqn:E.
  - exfalso. apply H. apply C42_units in E. apply (in_map fst) in E. exact E.
  - revert E. unfold unit_of. destruct (unit_ns u); congruence.
Qed.
Print Assumptions C42_units.
Example C42_units_ex : unit_of "h"%string = Ok 3600000000000 /\ unit_of "min"%string = Err EValue.
Proof. split; reflexivity. Qed.

(* C03: a flag column flags the observations with a value different from zero, and those without a value *)
Theorem C03_flag_column c other nref l : List.length (frows other) = nref -> In c (fcols other) -> NoDup (fcols other) ->
  eval_flag (FlagCol c) other nref = Ok (Some l) <->
  exists i, nth_error (fcols other) i = Some c /\
    Forall2 (fun tr b => b = true <-> nth i (snd tr) None = None \/ exists q, nth i (snd tr) None = Some q /\ ~ (q == 0)%Q) (frows other) l.
Proof.
  intros L I ND.
  assert (P : exists i, col_pos c (fcols other) = Some i /\ nth_error (fcols other) i = Some c).
  { clear - I. induction (fcols other) as [|x r IH]; [destruct I|]. cbn [col_pos]. destruct (String.eqb_spec c x) as [->|NE]; [exists 0%nat; auto|].
    destruct I as [I|I]; [congruence|]. destruct (IH I) as (i & -> & E). exists (S i). auto. }
  destruct P as (i & P & N). unfold eval_flag. rewrite P. unfold col_values. rewrite map_map.
  match goal with |- context [Nat.eqb ?x nref] => assert (LL : x = nref) by (rewrite map_length; exact L); rewrite LL, Nat.eqb_refl; clear LL end.
  assert (CT : forall (x : cell) b, b = cell_true x <-> (b = true <-> x = None \/ exists q, x = Some q /\ ~ (q == 0)%Q)).
  { intros x b. destruct x as [q|]; cbn.
    - destruct (Qeq_bool q 0) eqn:Q; cbn.
      + apply Qeq_bool_iff in Q. split; [intros ->; split; [discriminate|intros [C|(q' & E & C)]; [discriminate|injection E as <-; contradiction]]|].
        intros [H _]. destruct b; [|reflexivity]. destruct (H eq_refl) as [C|(q' & E & C)]; [discriminate|injection E as <-; contradiction].
      + apply Qeq_bool_neq in Q. split; [intros ->; split; [intros _; right; exists q; auto|reflexivity]|]. intros [_ H]. apply H. right. exists q. auto.
    - split; [intros ->; tauto|]. intros [_ H]. apply H. auto. }
  split.
  - intros E. assert (l = map (fun x => cell_true (nth i (snd x) None)) (frows other)) by congruence. subst l. exists i. split; [exact N|].
    clear - CT. induction (frows other) as [|tr r IH]; cbn [map]; constructor; [|exact IH]. apply CT. reflexivity.
  - intros (j & NJ & F). assert (j = i).
    { apply (proj1 (NoDup_nth_error (fcols other)) ND); [apply nth_error_Some; congruence|congruence]. }
    subst j. f_equal. f_equal. clear - F CT. induction F as [|tr b r l H F IH]; [reflexivity|]. cbn [map]. rewrite IH. f_equal. symmetry. apply CT. exact H.
Qed.
Print Assumptions C03_flag_column.
Example C03_flag_column_ex :
  eval_flag (FlagCol "f"%string) (mkFrame ["x"; "f"]%string [(1, [Some 5%Q; Some 0%Q]); (2, [Some 6%Q; None]); (3, [None; Some 2%Q])]) 3 = Ok (Some [false; true; true]).
Proof. reflexivity. Qed.

(* C65: the bias correction counts the bootstrapped values up to the estimate; NaN values are not counted
   but belong to the total *)
Open Scope R_scope.
Lemma share_sum (m : R) bs : rsum (map (not_above (Some m)) bs) = INR (List.length (filter (fun v => if Rle_dec v m then true else false) (vals bs))).
Proof.
  induction bs as [|b bs IH]; [reflexivity|]. cbn [map rsum]. rewrite IH. destruct b as [v|]; cbn [not_above].
  - change (vals (Some v :: bs)) with (v :: vals bs). cbn [filter]. destruct (Rle_dec v m); [|lra]. cbn [List.length]. rewrite S_INR. lra.
  - change (vals (None :: bs)) with (vals bs). lra.
Qed.
Theorem C65_share bs (m : R) : bs <> [] -> share_not_above bs (Some m) =
  Some (INR (List.length (filter (fun v => if Rle_dec v m then true else false) (vals bs))) / INR (List.length bs)).
Proof.
  intros NE. unfold share_not_above, np_mean. assert (RM : rlen (map (not_above (Some m)) bs) = rlen bs) by (unfold rlen; rewrite map_length; reflexivity).
  pose proof (rlen_pos bs NE) as RP. rewrite fdiv_some by (rewrite RM; lra). rewrite RM, share_sum. reflexivity.
Qed.
Theorem C65_no_estimate ppf cdf bs alpha jk : bs <> [] -> ppf 0 = None ->
  BCa_bs_ci ppf cdf bs None alpha jk = Err EValue.
Proof.
  intros NE P0. unfold BCa_bs_ci. assert (S0 : share_not_above bs None = Some 0).
  { unfold share_not_above, np_mean. assert (Z : rsum (map (not_above None) bs) = 0) by (clear; induction bs as [|b bs IH]; [reflexivity|]; cbn [map rsum]; rewrite IH; destruct b; cbn; lra).
    assert (RM : rlen (map (not_above None) bs) = rlen bs) by (unfold rlen; rewrite map_length; reflexivity). pose proof (rlen_pos bs NE) as RP.
    rewrite fdiv_some by (rewrite RM; lra). rewrite Z. f_equal. field. rewrite RM. lra. }
  rewrite S0. cbn [obind]. rewrite P0. reflexivity.
Qed.
Print Assumptions C65_share.
Example C65_share_ex : share_not_above [Some 0; None; Some 2; Some 1] (Some 1) = Some (2 / 4).
Proof.
  rewrite C65_share by discriminate. cbn [vals]. unfold vals. cbn [flat_map app filter]. 
  destruct (Rle_dec 0 1), (Rle_dec 2 1), (Rle_dec 1 1); try lra. cbn [List.length INR]. f_equal. field.
Qed.

(* C56: exactly the metrics with a function <name>_ci have an analytical interval; the others are refused *)
Theorem C56_analytical_interval attributes name m ci :
  (In (name ++ "_ci")%string attributes -> with_analytical_ci attributes name m ci = Ok (m, fst (ci m), snd (ci m))) /\
  (~ In (name ++ "_ci")%string attributes -> with_analytical_ci attributes name m ci = Err EValue).
Proof.
  unfold with_analytical_ci, has_analytical_ci. split; intros H.
  - assert (X : existsb (String.eqb (name ++ "_ci")%string) attributes = true) by (apply existsb_exists; eexists; split; [exact H|apply String.eqb_refl]). rewrite X. reflexivity.
  - destruct (existsb _ _) eqn:X; [|reflexivity]. apply existsb_exists in X as (x & I & E). apply String.eqb_eq in E. subst x. contradiction.
Qed.
Print Assumptions C56_analytical_interval.
Example C56_analytical_ex : In ("bias" ++ "_ci")%string ["bias"; "bias_ci"]%string /\ ~ In ("mse" ++ "_ci")%string ["bias"; "bias_ci"]%string.
Proof. split; [cbn; auto|]. cbn. intuition discriminate. Qed.
