(* Rows, unknown names and the error model for named columns. *)
From Verif Require Import Base NamesModel GroupingModel MatchersModel RStats RStatsProofs TcolModel TcolSpec TcolProofs TcolProofs2 DfMetricsModel EcolModel EcolSpec EcolProofs EcolProofs2 EcolProofs3 EcolProofs4 EcolProofs5 EcolProofs6.
From Coq Require Import Reals Qreals Lia Lra Permutation.
Import ListNotations.
Open Scope R_scope.

Lemma kept_lt f t : In t (kept f) -> (t < nrows f)%nat.
Proof. unfold kept. intros I. apply filter_In in I as [I _]. apply in_seq in I. lia. Qed.
Lemma col_dropna f j t : rectangular f -> (t < List.length (kept f))%nat -> nth t (col (dropna f) j) None = nth (nth t (kept f) 0%nat) (col f j) None.
Proof.
  intros RE H. rewrite dropna_kept by exact RE. rewrite !col_nth. set (h := fun c : string * list cell => (fst c, map (fun t => nth t (snd c) None) (kept f))).
  destruct (lt_dec j (List.length f)) as [L|L].
  - rewrite (nth_indep (map h f) _ (h (""%string, []))) by (rewrite map_length; exact L). rewrite map_nth. cbn [h snd]. set (c := snd (nth j f (""%string, []))).
    set (g := fun t => nth t c None). rewrite (nth_indep _ None (g 0%nat)) by (rewrite map_length; exact H). rewrite map_nth. reflexivity.
  - rewrite !nth_overflow with (l := f) by lia. rewrite nth_overflow with (l := map h f) by (rewrite map_length; lia). cbn [snd]. destruct t, (nth _ (kept f) _); reflexivity.
Qed.
Lemma map_seq_nth {A} (l : list A) d : map (fun t => nth t l d) (seq 0 (List.length l)) = l.
Proof. induction l as [|x l IH]; [reflexivity|]. cbn [List.length seq map nth]. f_equal. rewrite <- seq_shift, map_map. exact IH. Qed.
Lemma nrows_kept f : rectangular f -> f <> [] -> nrows (dropna f) = List.length (kept f).
Proof. intros RE NE. rewrite dropna_nrows by assumption. rewrite complete_kept. apply map_length. Qed.
Lemma column_values f j : rectangular f -> f <> [] -> map (fun x => x j) (rows (dropna f)) = map (fun r => row_of r j) (complete_rows f).
Proof.
  intros RE NE. rewrite complete_kept, map_map. unfold rows. rewrite map_map, nrows_kept by assumption. rewrite <- (map_seq_nth (kept f) 0%nat) at 2. rewrite map_map. apply map_ext_in.
  intros t I. apply in_seq in I. unfold row, row_of. rewrite col_dropna by (assumption || lia).
  destruct (lt_dec j (List.length f)) as [L|L].
  - rewrite cells_nth, col_nth by exact L. reflexivity.
  - rewrite col_nth. rewrite (nth_overflow f) by lia. assert (OV : (List.length (cells f (nth t (kept f) 0%nat)) <= j)%nat) by (unfold cells; rewrite map_length; apply Nat.nlt_ge; exact L). rewrite (@nth_overflow cell _ _ None OV). cbn [snd]. destruct (nth t (kept f) 0%nat); reflexivity.
Qed.
Lemma pair_values f i j : rectangular f -> f <> [] -> forall (h : R -> R -> R), map (fun x => h (x i) (x j)) (rows (dropna f)) = map (fun r => h (row_of r i) (row_of r j)) (complete_rows f).
Proof.
  intros RE NE h. assert (G : forall (A : Type) (l : list A) (a b : A -> R), map (fun x => h (a x) (b x)) l = map2 h (map a l) (map b l)).
  { intros A l a b. induction l as [|x l IH]; [reflexivity|]. cbn. f_equal. exact IH. }
  rewrite !G, !column_values by assumption. reflexivity.
Qed.
Lemma cov_complete f i j : rectangular f -> f <> [] -> cov1 (rows (dropna f)) i j = cov1 (map row_of (complete_rows f)) i j.
Proof.
  intros RE NE. unfold cov1. rewrite !map_map. rewrite !(column_values f) by assumption. rewrite (pair_values f i j RE NE (fun a b => (a - _) * (b - _))). f_equal. f_equal. unfold rlen. rewrite rows_count, map_length, dropna_nrows by assumption. reflexivity.
Qed.

(* the covariances the estimators divide by are those of pairs that are not listed *)
Lemma comb2_in l a b : NoDup l -> In (a, b) (comb2 l) -> In a l /\ In b l /\ a <> b.
Proof.
  induction l as [|x l IH]; intros ND J; [destruct J|]. apply NoDup_cons_iff in ND as [N1 N2]. cbn [comb2] in J. apply in_app_or in J as [J|J].
  - apply in_map_iff in J as (y & E & J). injection E as -> ->. split; [left; reflexivity|]. split; [right; exact J|]. intros ->. contradiction.
  - destruct (IH N2 J) as (A & B & N). split; [right; exact A|]. split; [right; exact B|exact N].
Qed.
Lemma perm2_in' l a b : In (a, b) (perm2 l) -> In a l /\ In b l /\ a <> b.
Proof.
  unfold perm2. intros I. apply in_flat_map in I as (x & H & I). apply in_map_iff in I as (y & E & I). injection E as -> ->. apply filter_In in I as [I N]. apply Bool.negb_true_iff, Nat.eqb_neq in N. tauto.
Qed.
Lemma divisors_in n C co v : In v (divisors n C co) -> exists a b, (a < n)%nat /\ (b < n)%nat /\ a <> b /\ uncorrelated co a b /\ v = C a b.
Proof.
  unfold divisors. intros I. apply in_app_or in I as [I|I].
  - apply in_flat_map in I as (c & Hc & I). apply in_map_iff in I as ([a b] & <- & I). apply filter_In in I as [I U]. apply Bool.negb_true_iff in U. rewrite biased_false in U.
    apply comb2_in in I as (A & B & N); [|apply NoDup_filter, seq_NoDup]. apply filter_In in A as [A _], B as [B _]. apply in_seq in A, B. exists a, b. split; [lia|]. split; [lia|]. split; [exact N|]. split; [|reflexivity]. apply U. cbn. tauto.
  - apply in_flat_map in I as (c & Hc & I). apply in_map_iff in I as ([a b] & <- & I). apply filter_In in I as [I U]. apply Bool.negb_true_iff in U. rewrite biased_false in U.
    apply perm2_in' in I as (A & B & N). apply filter_In in A as [A _], B as [B _]. apply in_seq in A, B. exists a, b. split; [lia|]. split; [lia|]. split; [exact N|]. split; [|reflexivity]. apply U. cbn. tauto.
Qed.
Lemma model_divisors n C s b e eps co : correlated_error_model n C s b e eps co -> 0 < s -> (forall i, (i < n)%nat -> b i <> 0 /\ 0 < e i) -> existsb zerob (divisors n C co) = false.
Proof.
  intros (_ & M & Z) S0 BE. destruct (existsb zerob (divisors n C co)) eqn:E; [|reflexivity]. exfalso. apply existsb_exists in E as (v & I & V). unfold zerob in V. destruct (Req_EM_T v 0) as [->|]; [|discriminate].
  apply divisors_in in I as (i & j & Hi & Hj & N & [U1 U2] & E). rewrite M, Z in E by assumption. rewrite Rplus_0_r in E. symmetry in E. apply Rmult_integral in E as [E|E]; [|lra]. apply Rmult_integral in E as [E|E]; [apply (BE i Hi), E|apply (BE j Hj), E].
Qed.

(* unknown names *)
Lemma pair_unknown cols p : ~ (In (fst p) cols /\ In (snd p) cols) -> pair_of cols p = Err EKey.
Proof.
  intros N. unfold pair_of, known. destruct (position cols (fst p)) as [a|] eqn:E1; [|reflexivity]. cbn [bindR]. destruct (position cols (snd p)) as [b|] eqn:E2; [|reflexivity]. exfalso. apply N.
  apply position_lt in E1 as [L1 <-]. apply position_lt in E2 as [L2 <-]. split; apply nth_In; assumption.
Qed.
Lemma pairs_unknown cols l p : In p l -> ~ (In (fst p) cols /\ In (snd p) cols) -> seqR (map (pair_of cols) l) = Err EKey.
Proof.
  induction l as [|q l IH]; intros I N; [destruct I|]. cbn [map seqR]. destruct I as [->|I]; [rewrite pair_unknown by exact N; reflexivity|].
  assert (P : (exists x, pair_of cols q = Ok x) \/ pair_of cols q = Err EKey).
  { unfold pair_of, known. destruct (position cols (fst q)); [|right; reflexivity]. cbn [bindR]. destruct (position cols (snd q)); [left; eexists; reflexivity|right; reflexivity]. }
  destruct P as [[x ->]| ->]; [|reflexivity]. cbn [bindR]. rewrite IH by assumption. reflexivity.
Qed.
Lemma unknown_lemma lstsq cols C correlated ec ae :
  (exists p, In p correlated /\ ~ (In (fst p) cols /\ In (snd p) cols)) \/ (exists a b v, ec = Some (a, b, v) /\ ~ (In a cols /\ In b cols)) ->
  ecol_cov lstsq cols C correlated ec ae = Err EKey.
Proof.
  intros H. unfold ecol_cov.
  assert (E : (exists x, match ec with None => Ok None | Some (a, b, v) => mapR (fun p : nat * nat => Some (fst p, snd p, v)) (pair_of cols (a, b)) end = Ok x) \/
     match ec with None => Ok None | Some (a, b, v) => mapR (fun p : nat * nat => Some (fst p, snd p, v)) (pair_of cols (a, b)) end = Err EKey).
  { destruct ec as [[[a b] v]|]; [|left; eexists; reflexivity]. destruct (in_dec String.string_dec a cols) as [A|A], (in_dec String.string_dec b cols) as [B|B]; try (right; rewrite pair_unknown by (cbn [fst snd]; tauto); reflexivity).
    unfold pair_of, known. cbn [fst snd]. destruct (position cols a); [|right; reflexivity]. cbn [bindR]. destruct (position cols b); [left; eexists; reflexivity|right; reflexivity]. }
  destruct E as [[x E]|E]; rewrite E; [|reflexivity]. cbn [bindR]. destruct H as [(p & I & N)|(a & b & v & -> & N)].
  - rewrite (pairs_unknown cols correlated p I N). reflexivity.
  - exfalso. rewrite pair_unknown in E by exact N. discriminate.
Qed.
