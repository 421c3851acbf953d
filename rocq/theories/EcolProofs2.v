(* The entries of the dictionary, and the rows that are used. *)
From Verif Require Import Base NamesModel GroupingModel MatchersModel TcolModel TcolSpec DfMetricsModel EcolModel EcolSpec EcolProofs.
From Coq Require Import Reals Qreals Lia Lra.
Import ListNotations.
Open Scope R_scope.

(* ---- positions of names ---- *)
Lemma position_name cols i : NoDup cols -> (i < List.length cols)%nat -> position cols (name cols i) = Some i.
Proof.
  revert i. induction cols as [|c cols IH]; intros i ND Hi; [cbn in Hi; lia|]. apply NoDup_cons_iff in ND as [N1 N2]. unfold name. cbn [position nth].
  destruct i as [|i]; cbn [nth]; [rewrite String.eqb_refl; reflexivity|]. cbn in Hi.
  destruct (String.eqb_spec c (nth i cols ""%string)) as [E|_]; [exfalso; apply N1; rewrite E; apply nth_In; lia|]. fold (name cols i). rewrite IH by (assumption || lia). reflexivity.
Qed.
Lemma pair_of_names cols a b : NoDup cols -> (a < List.length cols)%nat -> (b < List.length cols)%nat -> pair_of cols (name cols a, name cols b) = Ok (a, b).
Proof. intros ND Ha Hb. unfold pair_of, known. cbn [fst snd]. rewrite !position_name by assumption. reflexivity. Qed.
Lemma pairs_of_names cols co : NoDup cols -> columns_of (List.length cols) co -> seqR (map (pair_of cols) (named cols co)) = Ok co.
Proof.
  intros ND. induction co as [|[a b] co IH]; intros PO; [reflexivity|]. cbn [named map seqR fst snd]. destruct (PO (a, b) (or_introl eq_refl)) as [H1 H2]. cbn [fst snd] in H1, H2.
  rewrite pair_of_names by assumption. cbn [bindR]. fold (named cols co). rewrite IH by (intros p I; apply PO; right; exact I). reflexivity.
Qed.
Lemma position_none cols s : ~ In s cols -> position cols s = None.
Proof.
  induction cols as [|c cols IH]; intros N; [reflexivity|]. cbn [position]. destruct (String.eqb_spec c s) as [E|_]; [exfalso; apply N; left; exact E|].
  rewrite IH by (intros I; apply N; right; exact I). reflexivity.
Qed.
Lemma position_lt cols s i : position cols s = Some i -> (i < List.length cols)%nat /\ name cols i = s.
Proof.
  revert i. induction cols as [|c cols IH]; intros i; cbn [position]; [discriminate|]. destruct (String.eqb_spec c s) as [E|_].
  - intros H. injection H as <-. cbn. split; [lia|exact E].
  - destruct (position cols s) as [j|]; cbn [omap]; [|discriminate]. intros H. injection H as <-. destruct (IH j eq_refl) as [L E]. cbn. split; [lia|exact E].
Qed.

(* ---- the solution ---- *)
Lemma ec_named cols ec : NoDup cols -> known_of (List.length cols) ec ->
  match named_known cols ec with
  | None => Ok None
  | Some (a, b, v) => mapR (fun p : nat * nat => Some (fst p, snd p, v)) (pair_of cols (a, b))
  end = Ok ec.
Proof.
  intros ND K. destruct ec as [[[a b] v]|]; [|reflexivity]. cbn [named_known]. destruct K as [K1 K2]. rewrite pair_of_names by assumption. reflexivity.
Qed.
Lemma no_zero n C co : columns_of n co -> (forall i j, (i < n)%nat -> (j < n)%nat -> i <> j -> C i j <> 0) -> existsb zerob (divisors n C co) = false.
Proof.
  intros PO NZ. destruct (existsb zerob (divisors n C co)) eqn:E; [|reflexivity]. exfalso. apply existsb_exists in E as (v & I & Z).
  unfold zerob in Z. destruct (Req_EM_T v 0) as [->|]; [|discriminate]. unfold divisors in I. apply in_app_or in I as [I|I].
  - apply in_flat_map in I as (c & Hc & I). apply in_map_iff in I as ([a b] & E & I). apply filter_In in I as [I _]. cbn [fst snd] in E.
    assert (G : forall l, In (a, b) (comb2 l) -> NoDup l -> In a l /\ In b l /\ a <> b).
    { induction l as [|x l IH]; intros J ND; [destruct J|]. apply NoDup_cons_iff in ND as [N1 N2]. cbn [comb2] in J. apply in_app_or in J as [J|J].
      - apply in_map_iff in J as (y & J & Y). injection J as -> ->. split; [left; reflexivity|]. split; [right; exact Y|]. intros ->. contradiction.
      - destruct (IH J N2) as (A & B & N). split; [right; exact A|]. split; [right; exact B|exact N]. }
    destruct (G _ I ltac:(apply NoDup_filter, seq_NoDup)) as (A & B & N). apply filter_In in A as [A _]. apply filter_In in B as [B _]. apply in_seq in A. apply in_seq in B.
    apply (NZ a b); [lia|lia|exact N|exact E].
  - apply in_flat_map in I as (p & Hp & I). apply in_map_iff in I as ([a b] & E & I). apply filter_In in I as [I _]. cbn [fst snd] in E. unfold perm2 in I.
    apply in_flat_map in I as (x & A & I). apply in_map_iff in I as (y & J & B). injection J as -> ->. apply filter_In in B as [B N]. apply filter_In in A as [A _]. apply filter_In in B as [B _].
    apply in_seq in A. apply in_seq in B. apply Bool.negb_true_iff, Nat.eqb_neq in N. apply (NZ a b); [lia|lia|exact N|exact E].
Qed.

Lemma seq_parts {A} (g : nat -> A) n k : map g (seq 0 (2 * (n + k))) =
  map g (seq 0 n) ++ map g (seq n k) ++ map (fun i => g (n + k + i)%nat) (seq 0 n) ++ map (fun i => g (n + k + n + i)%nat) (seq 0 k).
Proof.
  replace (2 * (n + k))%nat with (n + (k + (n + k)))%nat by lia. rewrite !seq_app, !map_app. cbn [Nat.add]. f_equal. f_equal.
  assert (G : forall m s, map g (seq s m) = map (fun i => g (s + i)%nat) (seq 0 m)).
  { induction m as [|m IH]; intros s; [reflexivity|]. cbn [seq map]. rewrite Nat.add_0_r. f_equal. rewrite IH, <- seq_shift, map_map. apply map_ext. intros i. f_equal. lia. }
  rewrite (G n), (G k). reflexivity.
Qed.
Lemma map2_some (f : option R -> option R -> option R) (g : nat -> R) (h : nat -> R) l :
  map2 f (map (fun i => Some (g i)) l) (map (fun i => Some (h i)) l) = map (fun i => f (Some (g i)) (Some (h i))) l.
Proof. induction l as [|x l IH]; [reflexivity|]. cbn. f_equal. exact IH. Qed.

Lemma corr_values (xe : list (option R)) (e : nat -> R) co w : (forall p, In p co -> nth (fst p) xe None = Some (e (fst p)) /\ nth (snd p) xe None = Some (e (snd p))) ->
  map (fun pv => n_corr (snd pv) (nth (fst (fst pv)) xe None) (nth (snd (fst pv)) xe None)) (combine co (map Some w)) =
  map (fun pv => obind (np_sqrt (e (fst (fst pv)) * e (snd (fst pv)))) (fun s => fdiv (snd pv) s)) (combine co w).
Proof.
  revert w. induction co as [|p co IH]; intros [|v w] H; try reflexivity. cbn [map combine fst snd]. destruct (H p (or_introl eq_refl)) as [-> ->]. f_equal.
  apply IH. intros q I. apply H. right. exact I.
Qed.

(* the vector in terms of the result of the estimation *)
Lemma arrange_result lstsq n C co ec ae r : columns_of n co ->
  existsb zerob (divisors n (subtract C ec) co) = false ->
  ecol_from_cov lstsq n C co ec ae = Ok r ->
  exists x, solution lstsq n (Some C) co ec = Ok x /\
    arrange n co ae x = map Some (e_sig r) ++ map Some (e_err r) ++ e_snr r ++ map Some (e_cov r) ++ e_corr r /\
    List.length (e_sig r) = n /\ List.length (e_err r) = n /\ List.length (e_snr r) = n /\ List.length (e_cov r) = List.length co /\ List.length (e_corr r) = List.length co.
Proof.
  intros PO NZ. unfold ecol_from_cov, solution. cbn zeta. rewrite NZ. set (h := (n + List.length co)%nat).
  destruct (lstsq _ _ _) as [x|]; [|discriminate]. intros E. injection E as <-. eexists. split; [reflexivity|]. cbn [e_sig e_err e_snr e_cov e_corr].
  split.
  - unfold h. rewrite seq_parts. rewrite arrange_parts; [|rewrite map_length, seq_length; reflexivity..|exact PO]. cbn zeta. fold h.
    assert (AB : forall g : nat -> R, (if ae then map (omap Rabs) (map (fun i => Some (g i)) (seq 0 n)) else map (fun i => Some (g i)) (seq 0 n)) = map Some (if ae then map Rabs (map g (seq 0 n)) else map g (seq 0 n))).
    { intros g. destruct ae; rewrite !map_map; reflexivity. }
    rewrite (AB x), (AB (fun i => x (h + i)%nat)). f_equal. f_equal. f_equal.
    + assert (M : forall l1 l2, map2 n_db (map Some l1) (map Some l2) = map (fun se => obind (fdiv (fst se) (snd se)) (fun q => omap (fun l => 10 * l) (np_log10 q))) (combine l1 l2)).
      { induction l1 as [|a l1 IH]; intros [|b l2]; cbn; try reflexivity. f_equal. apply IH. }
      apply M.
    + assert (NE : forall i, (i < n)%nat -> nth i (map (fun i => Some (x (h + i)%nat)) (seq 0 n)) None = Some (x (h + i)%nat)).
      { intros i Hi. set (g := fun i => Some (x (h + i)%nat)). rewrite (nth_indep _ None (g 0%nat)) by (rewrite map_length, seq_length; exact Hi). rewrite map_nth, seq_nth by exact Hi. reflexivity. }
      rewrite <- (map_map (fun i => x (h + n + i)%nat) Some). f_equal. apply (corr_values _ (fun i => x (h + i)%nat)). intros p I. destruct (PO p I). rewrite !NE by assumption. split; reflexivity.
  - assert (L : forall g : nat -> R, List.length (if ae then map Rabs (map g (seq 0 n)) else map g (seq 0 n)) = n) by (intros g; destruct ae; rewrite !map_length, seq_length; reflexivity).
    assert (LC : forall g : nat -> R, List.length (combine co (map g (seq 0 (List.length co)))) = List.length co) by (intros g; rewrite combine_length, map_length, seq_length; apply Nat.min_id).
    rewrite !L, !map_length, seq_length, combine_length, !L, LC. repeat split; lia.
Qed.

(* ---- entries ---- *)
Lemma sig_err a b : ("sig_" ++ a)%string <> ("err_" ++ b)%string. Proof. cbn. discriminate. Qed.
Lemma tags_app cols co (v1 v2 v3 v4 v5 : list (option R)) : List.length v1 = List.length cols -> List.length v2 = List.length cols -> List.length v3 = List.length cols ->
  List.length v4 = List.length co -> List.length v5 = List.length co ->
  combine (tags cols co) (v1 ++ v2 ++ v3 ++ v4 ++ v5) =
  combine (map (fun c => "sig_" ++ c)%string cols) v1 ++ combine (map (fun c => "err_" ++ c)%string cols) v2 ++ combine (map (fun c => "snr_" ++ c)%string cols) v3
  ++ combine (map cov_key co) v4 ++ combine (map corr_key co) v5.
Proof.
  intros L1 L2 L3 L4 L5. unfold tags.
  assert (CA : forall (a b : list string) (x y : list (option R)), List.length a = List.length x -> combine (a ++ b) (x ++ y) = combine a x ++ combine b y).
  { induction a as [|s a IH]; intros b [|v x] y L; cbn in L; try discriminate; [reflexivity|]. cbn. f_equal. apply IH. lia. }
  rewrite !CA by (rewrite map_length; lia). reflexivity.
Qed.
Lemma nth_error_map' {A B} (f : A -> B) l i : nth_error (map f l) i = option_map f (nth_error l i).
Proof. revert i. induction l as [|a l IH]; intros [|i]; cbn; auto. Qed.
Lemma name_error cols i : (i < List.length cols)%nat -> nth_error cols i = Some (name cols i).
Proof. intros H. unfold name. rewrite (nth_error_nth' cols ""%string H). reflexivity. Qed.
Lemma nodup_later (cols : list string) i (f : string -> string) : NoDup cols -> (forall a b, f a = f b -> a = b) -> (i < List.length cols)%nat ->
  forall j, (i < j)%nat -> nth_error (map f cols) j <> Some (f (name cols i)).
Proof.
  intros ND INJ Hi j L E. rewrite nth_error_map' in E. destruct (nth_error cols j) as [c|] eqn:EJ; [|discriminate]. cbn in E. assert (E2 : f c = f (name cols i)) by congruence. apply INJ in E2. subst c.
  assert (J : (j < List.length cols)%nat) by (apply nth_error_Some; congruence).
  assert (i = j); [|lia]. apply (proj1 (NoDup_nth_error cols) ND i j Hi). rewrite EJ. apply name_error, Hi.
Qed.
Lemma key_inj (p : string) : forall a b, (p ++ a)%string = (p ++ b)%string -> a = b.
Proof. induction p as [|c p IH]; cbn; intros a b E; [exact E|]. apply IH. congruence. Qed.

Section Entries.
Variables (cols : list string) (correlated : list (string * string)) (v1 v2 v3 v4 v5 : list (option R)).
Hypotheses (L1 : List.length v1 = List.length cols) (L2 : List.length v2 = List.length cols) (L3 : List.length v3 = List.length cols)
  (L4 : List.length v4 = List.length correlated) (L5 : List.length v5 = List.length correlated) (ND : NoDup cols).
Let d := to_dict (combine (tags cols correlated) (v1 ++ v2 ++ v3 ++ v4 ++ v5)).

Lemma keys_of (f : string -> string) (v : list (option R)) k : List.length v = List.length cols -> In k (map fst (combine (map f cols) v)) -> exists c, k = f c.
Proof. intros L I. rewrite map_fst_combine in I by (rewrite map_length; exact L). apply in_map_iff in I as (c & <- & _). exists c. reflexivity. Qed.
Lemma pair_keys_of (f : string * string -> string) (v : list (option R)) k : List.length v = List.length correlated -> In k (map fst (combine (map f correlated) v)) -> exists p, In p correlated /\ k = f p.
Proof. intros L I. rewrite map_fst_combine in I by (rewrite map_length; exact L). apply in_map_iff in I as (p & <- & I). exists p. split; [exact I|reflexivity]. Qed.
Lemma get_sig i : (i < List.length cols)%nat -> dict_get d ("sig_" ++ name cols i)%string = Some (nth i v1 None).
Proof.
  intros Hi. unfold d. rewrite tags_app by assumption. apply (block_get [] _ _ _ i).
  - rewrite map_length. exact L1.
  - rewrite nth_error_map', name_error by exact Hi. reflexivity.
  - apply nth_error_nth'. lia.
  - apply (nodup_later cols i (fun c => "sig_" ++ c)%string); [exact ND|apply key_inj|exact Hi].
  - rewrite !map_app, !in_app_iff. intros [I|[I|[I|I]]].
    + apply keys_of in I as [c E]; [cbn in E; discriminate E|exact L2].
    + apply keys_of in I as [c E]; [cbn in E; discriminate E|exact L3].
    + apply pair_keys_of in I as (p & _ & E); [cbn in E; discriminate E|exact L4].
    + apply pair_keys_of in I as (p & _ & E); [cbn in E; discriminate E|exact L5].
Qed.
Lemma get_err i : (i < List.length cols)%nat -> own_key (name cols i) correlated -> dict_get d ("err_" ++ name cols i)%string = Some (nth i v2 None).
Proof.
  intros Hi OK. unfold d. rewrite tags_app by assumption. apply (block_get _ _ _ _ i).
  - rewrite map_length. exact L2.
  - rewrite nth_error_map', name_error by exact Hi. reflexivity.
  - apply nth_error_nth'. lia.
  - apply (nodup_later cols i (fun c => "err_" ++ c)%string); [exact ND|apply key_inj|exact Hi].
  - rewrite !map_app, !in_app_iff. intros [I|[I|I]].
    + apply keys_of in I as [c E]; [cbn in E; discriminate E|exact L3].
    + apply pair_keys_of in I as (p & IP & E); [apply (proj1 (OK p IP) E)|exact L4].
    + apply pair_keys_of in I as (p & IP & E); [apply (proj2 (OK p IP) E)|exact L5].
Qed.
Lemma get_snr i : (i < List.length cols)%nat -> dict_get d ("snr_" ++ name cols i)%string = Some (nth i v3 None).
Proof.
  intros Hi. unfold d. rewrite tags_app by assumption. rewrite app_assoc. apply (block_get _ _ _ _ i).
  - rewrite map_length. exact L3.
  - rewrite nth_error_map', name_error by exact Hi. reflexivity.
  - apply nth_error_nth'. lia.
  - apply (nodup_later cols i (fun c => "snr_" ++ c)%string); [exact ND|apply key_inj|exact Hi].
  - rewrite !map_app, !in_app_iff. intros [I|I].
    + apply pair_keys_of in I as (p & _ & E); [cbn in E; discriminate E|exact L4].
    + apply pair_keys_of in I as (p & _ & E); [cbn in E; discriminate E|exact L5].
Qed.
Lemma cov_corr p q : cov_key p <> corr_key q.
Proof. unfold cov_key, corr_key. cbn. intros E. discriminate E. Qed.
Lemma cov_corr_same p q : corr_key q = corr_key p -> cov_key q = cov_key p.
Proof. unfold cov_key, corr_key. intros E. apply (key_inj "err_corr_") in E. rewrite E. reflexivity. Qed.
Lemma get_cov k p : nth_error correlated k = Some p -> (forall j q, (k < j)%nat -> nth_error correlated j = Some q -> cov_key q <> cov_key p) -> dict_get d (cov_key p) = Some (nth k v4 None).
Proof.
  intros HP LA. assert (K : (k < List.length correlated)%nat) by (apply nth_error_Some; congruence). unfold d. rewrite tags_app by assumption. rewrite !app_assoc, <- (app_assoc _ (combine (map cov_key correlated) v4)).
  apply (block_get _ _ _ _ k).
  - rewrite map_length. exact L4.
  - rewrite nth_error_map', HP. reflexivity.
  - apply nth_error_nth'. lia.
  - intros j J E. rewrite nth_error_map' in E. destruct (nth_error correlated j) as [q|] eqn:EQ; [|discriminate]. apply (LA j q J EQ). cbn [option_map] in E. congruence.
  - intros I. apply pair_keys_of in I as (q & _ & E); [apply (cov_corr p q E)|exact L5].
Qed.
Lemma get_corr k p : nth_error correlated k = Some p -> (forall j q, (k < j)%nat -> nth_error correlated j = Some q -> cov_key q <> cov_key p) -> dict_get d (corr_key p) = Some (nth k v5 None).
Proof.
  intros HP LA. assert (K : (k < List.length correlated)%nat) by (apply nth_error_Some; congruence). unfold d. rewrite tags_app by assumption. rewrite <- (app_nil_r (combine (map corr_key correlated) v5)), !app_assoc, <- (app_assoc _ (combine (map corr_key correlated) v5)).
  apply (block_get _ _ _ _ k).
  - rewrite map_length. exact L5.
  - rewrite nth_error_map', HP. reflexivity.
  - apply nth_error_nth'. lia.
  - intros j J E. rewrite nth_error_map' in E. destruct (nth_error correlated j) as [q|] eqn:EQ; [|discriminate]. apply (LA j q J EQ). apply cov_corr_same. cbn [option_map] in E. congruence.
  - intros [].
Qed.
End Entries.
