(* C50: rolling metrics equal the metrics of each window. *)
From Coq Require Import Reals List Lra Lia ZArith.
From Verif Require Import RStats RStatsProofs MetricsModel MetricsSpec MetricsProofs MetricsProofs2 RollingModel RollingSpec RollingProofs.

(* what is reported for one window *)
Definition window_metrics (betainc : R -> R -> R -> R) (min_periods : Z) (win : pairs) : option (R * R) * option R :=
  if Z.ltb (Z.of_nat (List.length win)) min_periods then (None, None) else (pearson_of betainc win, rmsd win 0).

Theorem C50_centred betainc ts d w mp : List.length ts = List.length d -> chronological ts -> 0 <= w ->
  rolling_pr_rmsd betainc ts d w true mp = map (fun t => window_metrics betainc mp (centred_window ts d w t)) ts.
Proof.
  intros L C W. rewrite rolling_ok; [|exact L|exact C|right; split; [reflexivity|exact W]].
  assert (E : forall l, map (fun i => nth i l 0) (seq 0 (List.length l)) = l).
  { intros l. induction l as [|x l IH]; [reflexivity|]. cbn [List.length seq map nth]. f_equal. rewrite <- seq_shift, map_map. exact IH. }
  transitivity (map (fun t => window_metrics betainc mp (centred_window ts d w t)) (map (fun i => nth i ts 0) (seq 0 (List.length ts)))); [rewrite map_map; reflexivity|]. rewrite E. reflexivity.
Qed.

Theorem C50_trailing betainc ts d w mp : List.length ts = List.length d -> chronological ts -> 0 < w ->
  rolling_pr_rmsd betainc ts d w false mp = map (fun i => window_metrics betainc mp (trailing_window ts d w i)) (seq 0 (List.length ts)).
Proof. intros L C W. rewrite rolling_ok; [|exact L|exact C|left; exact W]. reflexivity. Qed.

(* with distinct time stamps the trailing window is the half-open interval (t - w, t] *)
Theorem C50_trailing_interval ts d w i : List.length ts = List.length d -> (i < List.length ts)%nat ->
  (forall j k, (j < k)%nat -> (k < List.length ts)%nat -> nth j ts 0 < nth k ts 0) ->
  trailing_window ts d w i =
  map snd (filter (fun s => andb (if Rlt_dec (nth i ts 0 - w) (fst s) then true else false) (if Rle_dec (fst s) (nth i ts 0) then true else false)) (combine ts d)).
Proof.
  intros L I SI. unfold trailing_window. f_equal. rewrite <- (firstn_skipn (S i) (combine ts d)) at 2. rewrite filter_app.
  assert (LC : List.length (combine ts d) = List.length ts) by (rewrite combine_length, <- L; apply Nat.min_id).
  assert (NF : forall j, fst (nth j (combine ts d) (0, (0, 0))) = nth j ts 0) by (intros; rewrite combine_nth by exact L; reflexivity).
  assert (F1 : forall s, In s (firstn (S i) (combine ts d)) -> fst s <= nth i ts 0).
  { intros s Hs. destruct (In_nth _ _ (0, (0, 0)) Hs) as (j & J & <-). rewrite firstn_length in J.
    assert (NN : nth j (firstn (S i) (combine ts d)) (0, (0, 0)) = nth j (combine ts d) (0, (0, 0))).
    { rewrite <- (firstn_skipn (S i) (combine ts d)) at 2. rewrite app_nth1; [reflexivity|]. rewrite firstn_length. lia. }
    rewrite NN, NF. destruct (Nat.eq_dec j i) as [->|]; [lra|]. left. apply SI; lia. }
  assert (F2 : forall s, In s (skipn (S i) (combine ts d)) -> nth i ts 0 < fst s).
  { intros s Hs. destruct (In_nth _ _ (0, (0, 0)) Hs) as (j & J & <-). rewrite skipn_length in J.
    assert (NN : nth j (skipn (S i) (combine ts d)) (0, (0, 0)) = nth (S i + j) (combine ts d) (0, (0, 0))).
    { rewrite <- (firstn_skipn (S i) (combine ts d)) at 2. rewrite app_nth2; rewrite firstn_length; [|lia]. f_equal. lia. }
    rewrite NN, NF. apply SI; lia. }
  rewrite (filter_ext_in (fun s => andb _ _) (fun s => if Rlt_dec (nth i ts 0 - w) (fst s) then true else false) (firstn (S i) (combine ts d))).
  - assert (E : filter (fun s => andb (if Rlt_dec (nth i ts 0 - w) (fst s) then true else false) (if Rle_dec (fst s) (nth i ts 0) then true else false)) (skipn (S i) (combine ts d)) = []).
    { induction (skipn (S i) (combine ts d)) as [|s r IH]; [reflexivity|]. cbn [filter].
      destruct (Rle_dec (fst s) (nth i ts 0)) as [X|X]; [pose proof (F2 s (or_introl eq_refl)); lra|].
      rewrite Bool.andb_false_r. apply IH. intros; apply F2; right; assumption. }
    rewrite E, app_nil_r. reflexivity.
  - intros s Hs. destruct (Rle_dec (fst s) (nth i ts 0)) as [X|X]; [apply Bool.andb_true_r|]. exfalso. apply X, F1, Hs.
Qed.

(* one result per time stamp *)
Theorem C50_length betainc ts d w c mp : List.length ts = List.length d -> chronological ts -> 0 < w ->
  List.length (rolling_pr_rmsd betainc ts d w c mp) = List.length ts.
Proof. intros L C W. destruct c; [rewrite C50_centred by (assumption || lra); apply map_length|rewrite C50_trailing by assumption; rewrite map_length; apply seq_length]. Qed.

(* a concrete case: four samples, windows of one to three samples *)
Definition ts4 : list R := [0; 1; 2; 9].
Definition d4 : pairs := [(1, 2); (2, 5); (6, 2); (3, 3)].
Example ts4_chron : List.length ts4 = List.length d4 /\ chronological ts4.
Proof.
  split; [reflexivity|]. intros i j I J. cbn in J.
  destruct i as [|[|[|[|i]]]], j as [|[|[|[|j]]]]; cbn; try lra; lia.
Qed.
Ltac dec_all := repeat (match goal with |- context [Rlt_dec ?a ?b] => destruct (Rlt_dec a b); try lra
                      | |- context [Rle_dec ?a ?b] => destruct (Rle_dec a b); try lra end).
Example C50_windows : trailing_window ts4 d4 (3 / 2) 2 = [(2, 5); (6, 2)] /\ centred_window ts4 d4 1 1 = [(1, 2); (2, 5); (6, 2)].
Proof.
  split.
  - unfold trailing_window, ts4, d4; cbn. dec_all. reflexivity.
  - unfold centred_window, ts4, d4; cbn. rewrite (Rabs_left (0 - 1)) by lra. rewrite (Rabs_pos_eq (1 - 1)), (Rabs_pos_eq (2 - 1)), (Rabs_pos_eq (9 - 1)) by lra. dec_all. reflexivity.
Qed.
Example C50_example betainc : nth 1 (rolling_pr_rmsd betainc ts4 d4 1 true 2) (None, None) = (pearson_of betainc [(1, 2); (2, 5); (6, 2)], rmsd [(1, 2); (2, 5); (6, 2)] 0).
Proof.
  destruct ts4_chron as [L C]. rewrite C50_centred by (assumption || lra). unfold ts4 at 2. cbn [map nth].
  destruct C50_windows as [_ ->]. reflexivity.
Qed.
(* samples of equal time: the trailing window of the first one does not contain the second one *)
Example C50_trailing_ties : trailing_window [5; 5] [(1, 2); (3, 4)] 1 0 = [(1, 2)].
Proof. unfold trailing_window; cbn. dec_all. reflexivity. Qed.
Print Assumptions C50_centred.
Print Assumptions C50_trailing.
Print Assumptions C50_trailing_interval.
