(* C102: the incremental rolling metrics and the direct computation kept for testing them. *)
From Coq Require Import Reals List Lra Lia ZArith.
From Verif Require Import RStats RStatsProofs MetricsModel MetricsSpec MetricsProofs MetricsProofs2 RollingModel RollingSpec RollingProofs RollingProps RollRefModel RollRefProofs.

(* an entry of the incremental version as the three stored values R, p, RMSD *)
Definition stored (o : rout) : ref_row :=
  RefRow (option_map fst (fst o)) (option_map snd (fst o)) (snd o).

Definition distinct_times (ts : list R) : Prop :=
  forall j k, (j < k)%nat -> (k < List.length ts)%nat -> nth j ts 0 < nth k ts 0.
Lemma distinct_chron ts : distinct_times ts -> chronological ts.
Proof. intros D i j L J. destruct (Nat.eq_dec i j) as [->|N]; [lra|]. pose proof (D i j ltac:(lia) J). lra. Qed.

(* the samples of the window of position i *)
Definition window_of (ts : list R) (d : pairs) (w : R) (c : bool) (i : nat) : pairs :=
  if c then centred_window ts d w (nth i ts 0) else trailing_window ts d w i.
(* the window has enough samples and varies in both series *)
Definition well_filled (mp : Z) (win : pairs) : Prop :=
  (mp <= Z.of_nat (List.length win))%Z /\ ~ constant (xs win) /\ ~ constant (ys win).

Lemma stored_nth betainc ts d w c mp i : List.length ts = List.length d -> chronological ts -> 0 < w -> (i < List.length ts)%nat ->
  nth i (rolling_pr_rmsd betainc ts d w c mp) (None, None) = window_metrics betainc mp (window_of ts d w c i).
Proof.
  intros L C W I. rewrite rolling_ok; [|exact L|exact C|left; exact W].
  rewrite (nth_indep _ (None, None) (expected betainc ts d w c mp 0)) by (rewrite map_length, seq_length; exact I).
  rewrite map_nth, seq_nth by exact I. cbn [Nat.add]. reflexivity.
Qed.
Lemma ref_nth betainc junk ts d w c mp i v : List.length ts = List.length d -> distinct_times ts -> 0 < w -> (i < List.length ts)%nat ->
  nth i (ref_rolling betainc junk ts d w c mp) v = ref_expected ts d w c betainc junk mp i /\ window_of ts d w c i <> [].
Proof.
  intros L D W I. pose proof (distinct_chron ts D) as C.
  destruct (ref_step_ok ts d w c L C (or_introl W) (or_intror D) betainc junk mp i I) as [NE E].
  split; [|exact NE]. unfold ref_rolling.
  rewrite (nth_indep _ v (ref_step betainc junk ts d w c mp 0)) by (rewrite map_length, seq_length; exact I).
  rewrite map_nth, seq_nth by exact I. cbn [Nat.add]. exact E.
Qed.

(* both give the same three values wherever the window has enough samples and varies *)
Theorem C102_agree betainc junk ts d w c mp i v : List.length ts = List.length d -> distinct_times ts -> 0 < w -> (i < List.length ts)%nat ->
  well_filled mp (window_of ts d w c i) ->
  nth i (ref_rolling betainc junk ts d w c mp) v = stored (nth i (rolling_pr_rmsd betainc ts d w c mp) (None, None)).
Proof.
  intros L D W I (N & CX & CY). destruct (ref_nth betainc junk ts d w c mp i v L D W I) as [-> NE].
  rewrite stored_nth by (try apply distinct_chron; assumption). unfold ref_expected, window_metrics.
  change (the_window ts d w c i) with (window_of ts d w c i). set (win := window_of ts d w c i) in *.
  destruct (Z.ltb_spec (Z.of_nat (List.length win)) mp); [lia|].
  rewrite corrcoef_some, pearson_some by assumption. cbn [stored fst snd option_map]. rewrite ref_p_some. reflexivity.
Qed.

(* centred windows: also with samples of equal time *)
Theorem C102_agree_centred betainc junk ts d w mp i v : List.length ts = List.length d -> chronological ts -> 0 <= w -> (i < List.length ts)%nat ->
  well_filled mp (centred_window ts d w (nth i ts 0)) ->
  nth i (ref_rolling betainc junk ts d w true mp) v = stored (nth i (rolling_pr_rmsd betainc ts d w true mp) (None, None)).
Proof.
  intros L C W I (N & CX & CY).
  assert (W' : 0 < w \/ (true = true /\ 0 <= w)) by (right; split; [reflexivity|exact W]).
  destruct (ref_step_ok ts d w true L C W' (or_introl eq_refl) betainc junk mp i I) as [NE E].
  unfold ref_rolling. rewrite (nth_indep _ v (ref_step betainc junk ts d w true mp 0)) by (rewrite map_length, seq_length; exact I).
  rewrite map_nth, seq_nth by exact I. cbn [Nat.add]. rewrite E.
  rewrite rolling_ok; [|exact L|exact C|exact W'].
  rewrite (nth_indep _ (None, None) (expected betainc ts d w true mp 0)) by (rewrite map_length, seq_length; exact I).
  rewrite map_nth, seq_nth by exact I. cbn [Nat.add]. unfold ref_expected, expected.
  change (the_window ts d w true i) with (centred_window ts d w (nth i ts 0)) in *. set (win := centred_window ts d w (nth i ts 0)) in *.
  destruct (Z.ltb_spec (Z.of_nat (List.length win)) mp); [lia|].
  rewrite corrcoef_some, pearson_some by assumption. cbn [stored fst snd option_map]. rewrite ref_p_some. reflexivity.
Qed.

(* the RMSD needs no variation *)
Theorem C102_rmsd betainc junk ts d w c mp i v : List.length ts = List.length d -> distinct_times ts -> 0 < w -> (i < List.length ts)%nat ->
  (mp <= Z.of_nat (List.length (window_of ts d w c i)))%Z ->
  ref_rmsd (nth i (ref_rolling betainc junk ts d w c mp) v) = snd (nth i (rolling_pr_rmsd betainc ts d w c mp) (None, None)) /\
  ref_R (nth i (ref_rolling betainc junk ts d w c mp) v) = option_map fst (fst (nth i (rolling_pr_rmsd betainc ts d w c mp) (None, None))).
Proof.
  intros L D W I N. destruct (ref_nth betainc junk ts d w c mp i v L D W I) as [-> NE].
  rewrite stored_nth by (try apply distinct_chron; assumption). unfold ref_expected, window_metrics.
  change (the_window ts d w c i) with (window_of ts d w c i). set (win := window_of ts d w c i) in *.
  destruct (Z.ltb_spec (Z.of_nat (List.length win)) mp); [lia|]. cbn [ref_rmsd ref_R fst snd]. split; [reflexivity|].
  destruct (pearson_of betainc win) as [[r p]|] eqn:P.
  - assert (X : ~ (win = [] \/ constant (xs win) \/ constant (ys win))) by (rewrite <- (pearson_none betainc), P; discriminate).
    rewrite corrcoef_some by tauto. rewrite pearson_some in P by tauto. cbn [option_map fst]. congruence.
  - apply pearson_none in P. destruct P as [P|P]; [contradiction|]. rewrite corrcoef_none by assumption. reflexivity.
Qed.

(* too few samples: the direct computation leaves the RMSD as the memory held it *)
Theorem C102_few_refuted betainc : exists junk ts d w c mp i v,
  List.length ts = List.length d /\ distinct_times ts /\ 0 < w /\ (i < List.length ts)%nat /\
  ref_rmsd (nth i (ref_rolling betainc junk ts d w c mp) v) = Some 7 /\
  snd (nth i (rolling_pr_rmsd betainc ts d w c mp) (None, None)) = None.
Proof.
  exists (fun _ => Some 7), [0; 1], [(1, 2); (3, 5)], (1 / 2), true, 2%Z, 0%nat, (RefRow None None None).
  assert (D : distinct_times [0; 1]) by (intros [|[|j]] [|[|k]] J K; cbn in *; try lia; lra).
  assert (E : window_of [0; 1] [(1, 2); (3, 5)] (1 / 2) true 0 = [(1, 2)]).
  { unfold window_of, centred_window; cbn. rewrite (Rabs_pos_eq (0 - 0)), (Rabs_pos_eq (1 - 0)) by lra. dec_all. reflexivity. }
  repeat split; try exact D; try lra; try (cbn; lia).
  - destruct (ref_nth betainc (fun _ => Some 7) [0; 1] [(1, 2); (3, 5)] (1 / 2) true 2 0 (RefRow None None None) eq_refl D ltac:(lra) ltac:(cbn; lia)) as [-> _].
    unfold ref_expected. change (the_window [0; 1] [(1, 2); (3, 5)] (1 / 2) true 0) with (window_of [0; 1] [(1, 2); (3, 5)] (1 / 2) true 0). rewrite E. reflexivity.
  - rewrite stored_nth by (try apply distinct_chron; try exact D; try reflexivity; try lra; cbn; lia). rewrite E. reflexivity.
Qed.

(* a constant series: no correlation in either version, but the direct computation still has a p-value *)
Theorem C102_constant_refuted betainc : exists junk ts d w c mp i v,
  List.length ts = List.length d /\ distinct_times ts /\ 0 < w /\ (i < List.length ts)%nat /\
  ref_R (nth i (ref_rolling betainc junk ts d w c mp) v) = None /\
  ref_pR (nth i (ref_rolling betainc junk ts d w c mp) v) = Some (betainc (1 / 2 * (3 - 2)) (1 / 2) 1) /\
  fst (nth i (rolling_pr_rmsd betainc ts d w c mp) (None, None)) = None.
Proof.
  set (ts := [0; 1; 2]). set (d := [(1, 4); (2, 4); (5, 4)] : pairs).
  exists (fun _ => None), ts, d, 3, false, 2%Z, 2%nat, (RefRow None None None).
  assert (D : distinct_times ts) by (intros [|[|[|j]]] [|[|[|k]]] J K; cbn in *; try lia; lra).
  assert (E : window_of ts d 3 false 2 = d).
  { unfold window_of, trailing_window, ts, d; cbn. dec_all. reflexivity. }
  assert (CY : constant (ys d)) by (intros u v U V; cbn in U, V; destruct U as [<-|[<-|[<-|[]]]], V as [<-|[<-|[<-|[]]]]; reflexivity).
  destruct (ref_nth betainc (fun _ => None) ts d 3 false 2 2 (RefRow None None None) eq_refl D ltac:(lra) ltac:(cbn; lia)) as [X NE].
  rewrite X. unfold ref_expected. change (the_window ts d 3 false 2) with (window_of ts d 3 false 2).
  rewrite stored_nth by (try apply distinct_chron; try exact D; try reflexivity; try lra; cbn; lia). unfold window_metrics. rewrite E in *.
  rewrite corrcoef_none by (try exact NE; right; exact CY).
  assert (P : pearson_of betainc d = None) by (apply pearson_none; right; right; exact CY). rewrite P.
  split; [reflexivity|]. split; [exact D|]. split; [lra|]. split; [cbn; lia|]. cbn [List.length Z.of_nat Z.ltb Z.compare Pos.of_succ_nat Pos.succ Pos.compare Pos.compare_cont ref_R ref_pR fst].
  split; [reflexivity|]. split; [|reflexivity]. assert (N3 : rlen d = 3) by (unfold rlen, d; cbn; lra). rewrite N3. reflexivity.
Qed.

(* trailing windows with samples of equal time: the direct computation also uses the later sample *)
Theorem C102_ties_refuted betainc : exists junk ts d w mp i v,
  List.length ts = List.length d /\ chronological ts /\ 0 < w /\ (i < List.length ts)%nat /\
  ref_rmsd (nth i (ref_rolling betainc junk ts d w false mp) v) = Some 2 /\
  snd (nth i (rolling_pr_rmsd betainc ts d w false mp) (None, None)) = Some 0.
Proof.
  set (d := [(1, 1); (3, 3 + sqrt 8)] : pairs).
  exists (fun _ => None), [5; 5], d, 1, 1%Z, 0%nat, (RefRow None None None).
  assert (C : chronological [5; 5]) by (intros [|[|j]] [|[|k]] J K; cbn in *; try lia; lra).
  split; [reflexivity|]. split; [exact C|]. split; [lra|]. split; [cbn; lia|]. split.
  - unfold ref_rolling, ref_step, inside_idx, inside_window, ref_time, d. cbn. dec_all. cbn. unfold rlen; cbn.
    assert (S8 : sqrt 8 * sqrt 8 = 8) by (apply sqrt_sqrt; lra).
    rewrite fdiv_some by lra. cbn [obind].
    match goal with |- np_sqrt ?x = _ => assert (EX : x = 2 * 2) end.
    { match goal with |- ?a / ?b = _ => assert (EA : a = sqrt 8 * sqrt 8) by ring; assert (EB : b = 2) by lra; rewrite EA, EB, S8 end. lra. }
    rewrite EX, np_sqrt_some by lra. rewrite sqrt_square by lra. reflexivity.
  - rewrite stored_nth by (try exact C; try reflexivity; try lra; cbn; lia). unfold window_metrics, window_of.
    assert (E : trailing_window [5; 5] d 1 0 = [(1, 1)]) by (unfold trailing_window, d; cbn; dec_all; reflexivity).
    rewrite E. cbn [List.length Z.of_nat Z.ltb Z.compare Pos.of_succ_nat Pos.compare Pos.compare_cont snd].
    rewrite rmsd_correct by discriminate. f_equal. unfold mean_square_diff, rmean, rlen; cbn. replace ((1 - 1) * (1 - 1)) with 0 by lra.
    replace ((0 + 0) / 1) with 0 by lra. apply sqrt_0.
Qed.

(* a concrete case of the hypotheses *)
Example C102_case : List.length ts4 = List.length d4 /\ distinct_times ts4 /\ well_filled 2 (window_of ts4 d4 1 true 1).
Proof.
  split; [reflexivity|]. split; [intros [|[|[|[|j]]]] [|[|[|[|k]]]] J K; cbn in *; try lia; lra|].
  unfold window_of. change (nth 1 ts4 0) with 1. rewrite (proj2 C50_windows). split; [cbn; lia|]. split; intros C.
  - pose proof (C 1 2 ltac:(cbn; tauto) ltac:(cbn; tauto)). lra.
  - pose proof (C 2 5 ltac:(cbn; tauto) ltac:(cbn; tauto)). lra.
Qed.
Print Assumptions C102_agree.
Print Assumptions C102_agree_centred.
Print Assumptions C102_rmsd.
Print Assumptions C102_few_refuted.
Print Assumptions C102_constant_refuted.
Print Assumptions C102_ties_refuted.
