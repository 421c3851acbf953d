(* Tightened after mutation tests: the BCa intervals of triple collocation leave out every observation once (C65). *)
From Coq Require Import Reals List Lra Lia String.
From Verif Require Import Base BaseProofs RStats RStatsProofs MetricsModel MetricsProofs RollingModel TcolModel TcolSpec TcolProofs TcolProofs2 TcolProps ConfintModel ConfintProofs ConfintProofs2 ConfintProps.
Import ListNotations.
Open Scope R_scope.

Lemma seqR_parts {A} (l : list (res A)) out : seqR l = Ok out -> List.length l = List.length out /\ forall k e, nth_error l k = Some e -> exists a, e = Ok a /\ nth_error out k = Some a.
Proof.
  revert out. induction l as [|e l IH]; intros out; cbn [seqR]; [intros E; injection E as <-; split; [reflexivity|intros [|k] e E; discriminate E]|].
  destruct e as [a|x]; cbn [bindR]; [|discriminate]. destruct (seqR l) as [o|x]; cbn [bindR]; [|discriminate]. intros E. injection E as <-. destruct (IH o eq_refl) as [L H].
  split; [cbn; rewrite L; reflexivity|]. intros [|k] e E; cbn in E; [injection E as <-; exists a; split; reflexivity|apply H, E].
Qed.
Lemma nth_seq n : forall s k, (k < n)%nat -> nth_error (seq s n) k = Some (s + k)%nat.
Proof. induction n as [|n IH]; intros s [|k] L; try lia; cbn [seq nth_error]; [f_equal; lia|]. rewrite IH by lia. f_equal. lia. Qed.
Lemma seqR_of {A} (l : list (res A)) out : List.length out = List.length l -> (forall k e, nth_error l k = Some e -> exists a, e = Ok a /\ nth_error out k = Some a) -> seqR l = Ok out.
Proof.
  revert out. induction l as [|e l IH]; intros [|o out] L H; try discriminate L; [reflexivity|]. cbn [seqR]. destruct (H 0%nat e eq_refl) as (a & -> & E). injection E as ->. cbn [bindR].
  rewrite (IH out); [reflexivity|injection L as ->; reflexivity|]. intros k e N. exact (H (S k) e N).
Qed.
Lemma nth_three i : (i < 3)%nat -> nth_error [0; 1; 2]%nat i = Some i.
Proof. destruct i as [|[|[|i]]]; [reflexivity|reflexivity|reflexivity|lia]. Qed.
Lemma nth_three_inv k x : nth_error [0; 1; 2]%nat k = Some x -> x = k /\ (k < 3)%nat.
Proof. destruct k as [|[|[|k]]]; cbn; intros E; [injection E as <-; lia|injection E as <-; lia|injection E as <-; lia|destruct k; discriminate]. Qed.
(* the estimates without row n, for every n, in the order of the rows, are what the acceleration is computed from (those of
   all three datasets together, see C65_own_dataset_refuted); intervals are returned exactly if all of them exist *)
Theorem C65_tcol_BCa : forall ppf cdf (rows : list (nat -> R)) ref alpha garbage minimum draws, rows <> [] -> (ref < 3)%nat -> (minimum <= List.length rows)%nat ->
  exists orig bs jk, tcol_metrics rows ref = Ok orig /\
    Forall2 (fun idx t => tcol_metrics (take_rows rows idx) ref = Ok t) draws bs /\
    List.length jk = List.length rows /\
    (forall before row after, rows = before ++ row :: after -> exists t, nth_error jk (List.length before) = Some t /\ tcol_metrics (before ++ after) ref = Ok t) /\
    forall r, tcol_with_bootstrapped_ci ppf cdf rows ref alpha "BCa" garbage minimum draws = Ok r <->
      List.length r = 3%nat /\
      forall k, (k < 3)%nat -> exists itv, nth_error r k = Some (component k orig, itv) /\ List.length itv = 3%nat /\
        forall i, (i < 3)%nat ->
          if andb (Nat.eqb k 2) (Nat.eqb i ref) then nth_error itv i = Some (Some 1, Some 1)
          else exists ci, nth_error itv i = Some ci /\
               BCa_bs_ci ppf cdf (map (fun t => nth i (component k t) None) bs) (nth i (component k orig) None) alpha (List.concat (map (component k) jk)) = Ok ci.
Proof.
  intros ppf cdf rows ref alpha garbage minimum draws NE R3 M. unfold tcol_with_bootstrapped_ci. apply Nat.ltb_ge in M. rewrite M.
  exists (tc_of rows ref), (map (fun idx => tc_of (take_rows rows idx) ref) draws), (map (fun i => tc_of (leave_out i rows) ref) (seq 0 (List.length rows))).
  set (bs := map (fun idx => tc_of (take_rows rows idx) ref) draws). set (jk := map (fun i => tc_of (leave_out i rows) ref) (seq 0 (List.length rows))).
  assert (SQ : forall (X : Type) (f : X -> list (nat -> R)) l, seqR (map (fun a => tcol_metrics (f a) ref) l) = Ok (map (fun a => tc_of (f a) ref) l)).
  { intros X f l. induction l as [|a l IH]; [reflexivity|]. cbn [map seqR]. rewrite tc_of_ok by exact R3. cbn [bindR]. rewrite IH. reflexivity. }
  split; [apply tc_of_ok, R3|]. split; [unfold bs; clear - R3; induction draws; cbn; constructor; [apply tc_of_ok, R3|assumption]|]. split; [unfold jk; rewrite map_length, seq_length; reflexivity|]. split.
  - intros before row after E. exists (tc_of (before ++ after) ref). split; [|apply tc_of_ok, R3]. unfold jk. rewrite E, nth_error_map, nth_seq by (rewrite app_length; cbn; lia). cbn [option_map plus]. do 2 f_equal.
    unfold leave_out. rewrite firstn_app, Nat.sub_diag, firstn_all, app_nil_r.
    replace (S (List.length before)) with (List.length (before ++ [row])) by (rewrite app_length; cbn; lia). change (row :: after) with ([row] ++ after). rewrite app_assoc, skipn_app, Nat.sub_diag, skipn_all. reflexivity.
  - intros r. rewrite tc_of_ok by exact R3. cbn [bindR]. change (String.eqb "BCa" "BCa") with true. cbv iota. rewrite (SQ nat (fun i => leave_out i rows)). cbn [bindR]. fold jk.
    assert (EQ : forall (A : Type) (a b : A), match List.length rows, draws with O, _ :: _ => a | _, _ => b end = b) by (intros; destruct rows; [congruence|cbn; destruct draws; reflexivity]).
    rewrite EQ, (SQ (list nat) (fun idx => take_rows rows idx)). cbn [bindR]. fold bs. clearbody bs jk.
    assert (PART : forall k i, tcol_part ppf cdf "BCa" garbage ref alpha bs (tc_of rows ref) jk k i =
      if andb (Nat.eqb k 2) (Nat.eqb i ref) then Ok (Some 1, Some 1) else BCa_bs_ci ppf cdf (map (fun t => nth i (component k t) None) bs) (nth i (component k (tc_of rows ref)) None) alpha (List.concat (map (component k) jk))).
    { intros k i. unfold tcol_part. change (orb (String.eqb "BCa" "percentile") _) with true. rewrite Bool.andb_true_r. destruct (andb (Nat.eqb k 2) (Nat.eqb i ref)); [reflexivity|].
      unfold tcol_interval. rewrite map_map. reflexivity. }
    split.
    + intros H. apply seqR_parts in H as [LR ER]. split; [symmetry; exact LR|]. intros k K.
      destruct (ER k _ (map_nth_error _ k _ (nth_three k K))) as (p & E1 & E2).
      destruct (seqR (map (tcol_part ppf cdf "BCa" garbage ref alpha bs (tc_of rows ref) jk k) [0; 1; 2]%nat)) as [cis|e] eqn:EC; cbn [mapR bindR] in E1; [|discriminate]. injection E1 as <-.
      exists cis. split; [exact E2|]. apply seqR_parts in EC as [LC EC]. split; [symmetry; exact LC|]. intros i I0. destruct (EC i _ (map_nth_error _ i _ (nth_three i I0))) as (ci & C1 & C2).
      rewrite PART in C1. destruct (andb (Nat.eqb k 2) (Nat.eqb i ref)); [rewrite C2; congruence|]. exists ci. auto.
    + intros [LR H]. apply seqR_of; [exact LR|]. intros k e E. rewrite nth_error_map in E. destruct (nth_error [0; 1; 2]%nat k) as [x|] eqn:N; [|discriminate]. apply nth_three_inv in N as [-> K]. cbn [option_map] in E. match type of E with Some ?v = Some e => assert (X : e = v) by congruence; rewrite X; clear X E e end.
      destruct (H k K) as (itv & I1 & I2 & I3). exists (component k (tc_of rows ref), itv). split; [|exact I1].
      rewrite (seqR_of _ itv); [reflexivity|exact I2|]. intros i e E. rewrite nth_error_map in E. destruct (nth_error [0; 1; 2]%nat i) as [x|] eqn:N; [|discriminate]. apply nth_three_inv in N as [-> I0]. cbn [option_map] in E. match type of E with Some ?v = Some e => assert (X : e = v) by congruence; rewrite X; clear X E e end.
      specialize (I3 i I0). rewrite PART. destruct (andb (Nat.eqb k 2) (Nat.eqb i ref)); [exists (Some 1, Some 1); auto|]. destruct I3 as (ci & C1 & C2). exists ci. auto.
Qed.
Print Assumptions C65_tcol_BCa.
Example C65_ex_tcol_BCa : let rows := map (fun i j => INR (i * i + j)) (seq 0 4) in
  rows <> [] /\ (4 <= List.length rows)%nat /\ rows = firstn 2 rows ++ (fun j => INR (2 * 2 + j)) :: skipn 3 rows.
Proof. cbn. split; [discriminate|]. split; [lia|reflexivity]. Qed.
