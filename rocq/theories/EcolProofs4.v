(* The dictionary of the extended collocation in terms of the estimates. *)
From Verif Require Import Base NamesModel GroupingModel MatchersModel RStats RStatsProofs TcolModel TcolSpec DfMetricsModel EcolModel EcolSpec EcolProofs EcolProofs2 EcolProofs3.
From Coq Require Import Reals Qreals Lia Lra.
Import ListNotations.
Open Scope R_scope.

Lemma nth_some (l : list R) i : (i < List.length l)%nat -> nth i (map Some l) None = Some (nth i l 0).
Proof. intros H. rewrite (nth_indep _ None (Some 0)) by (rewrite map_length; exact H). apply map_nth. Qed.
Lemma tags_length cols co : List.length (tags cols co) = (3 * List.length cols + 2 * List.length co)%nat.
Proof. unfold tags. rewrite !app_length, !map_length. lia. Qed.

Lemma entries_lemma lstsq cols C co ec ae r : NoDup cols -> columns_of (List.length cols) co -> known_of (List.length cols) ec ->
  existsb zerob (divisors (List.length cols) (subtract C ec) co) = false ->
  ecol_from_cov lstsq (List.length cols) C co ec ae = Ok r ->
  exists d, ecol_cov lstsq cols (Some C) (named cols co) (named_known cols ec) ae = Ok d /\
    (forall k, dict_get d k <> None <-> In k (tags cols (named cols co))) /\
    (forall i, (i < List.length cols)%nat ->
       dict_get d ("sig_" ++ name cols i)%string = Some (Some (nth i (e_sig r) 0)) /\
       dict_get d ("snr_" ++ name cols i)%string = Some (nth i (e_snr r) None) /\
       (own_key (name cols i) (named cols co) -> dict_get d ("err_" ++ name cols i)%string = Some (Some (nth i (e_err r) 0)))) /\
    (forall k p, nth_error (named cols co) k = Some p ->
       (forall j q, (k < j)%nat -> nth_error (named cols co) j = Some q -> cov_key q <> cov_key p) ->
       dict_get d (cov_key p) = Some (Some (nth k (e_cov r) 0)) /\ dict_get d (corr_key p) = Some (nth k (e_corr r) None)).
Proof.
  intros ND PO KN NZ ER. destruct (arrange_result lstsq (List.length cols) C co ec ae r PO NZ ER) as (x & SO & AR & L1 & L2 & L3 & L4 & L5).
  set (cor := named cols co). assert (LC : List.length cor = List.length co) by apply map_length.
  exists (to_dict (combine (tags cols cor) (map Some (e_sig r) ++ map Some (e_err r) ++ e_snr r ++ map Some (e_cov r) ++ e_corr r))).
  split.
  { unfold ecol_cov. rewrite ec_named by assumption. cbn [bindR]. unfold cor. rewrite pairs_of_names by assumption. cbn [bindR]. rewrite SO. cbn [bindR]. rewrite AR. reflexivity. }
  assert (M1 : List.length (map Some (e_sig r)) = List.length cols) by (rewrite map_length; exact L1).
  assert (M2 : List.length (map Some (e_err r)) = List.length cols) by (rewrite map_length; exact L2).
  assert (M4 : List.length (map Some (e_cov r)) = List.length cor) by (rewrite map_length, LC; exact L4).
  assert (M5 : List.length (e_corr r) = List.length cor) by (rewrite LC; exact L5).
  split; [|split].
  - intros k. rewrite to_dict_none, map_fst_combine; [reflexivity|]. rewrite tags_length, !app_length, M1, M2, L3, M4, M5. lia.
  - intros i Hi. split; [|split].
    + rewrite get_sig by assumption. rewrite nth_some by lia. reflexivity.
    + rewrite get_snr by assumption. reflexivity.
    + intros OK. rewrite get_err by assumption. rewrite nth_some by lia. reflexivity.
  - intros k p HP LA. assert (K : (k < List.length cor)%nat) by (apply nth_error_Some; intros Z; fold cor in HP; rewrite Z in HP; discriminate). split.
    + rewrite (get_cov cols cor _ _ _ _ _ M1 M2 L3 M4 M5 k p HP LA). rewrite nth_some by lia. reflexivity.
    + rewrite (get_corr cols cor _ _ _ _ _ M1 M2 L3 M4 M5 k p HP LA). reflexivity.
Qed.

(* ---- rows ---- *)
Lemma frame_of_rows f g : rectangular f -> rectangular g -> map fst f = map fst g -> complete_rows f = complete_rows g -> dropna f = dropna g.
Proof.
  intros RF RG N C. rewrite !dropna_rows by assumption. rewrite N, C. replace (List.length f) with (List.length g); [reflexivity|].
  rewrite <- (map_length fst g), <- N. apply map_length.
Qed.
Lemma dropna_twice f : rectangular f -> dropna (dropna f) = dropna f.
Proof. intros RE. destruct (dropna_complete f RE) as [A B]. apply dropna_full; assumption. Qed.
Lemma few_rows (f : frame) : (nrows f < 2)%nat -> np_cov (rows f) = None.
Proof. unfold rows. destruct (nrows f) as [|[|k]]; intros H; [reflexivity|reflexivity|lia]. Qed.
Lemma many_rows (f : frame) : (2 <= nrows f)%nat -> np_cov (rows f) = Some (cov1 (rows f)).
Proof. unfold rows. destruct (nrows f) as [|[|k]]; intros H; [lia|lia|reflexivity]. Qed.
Lemma rows_count f : List.length (rows f) = nrows f.
Proof. unfold rows. rewrite map_length. apply seq_length. Qed.
