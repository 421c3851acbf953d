(* Lemmas about the first combination. *)
From Verif Require Import DsNamesSpec BaseProofs SortProofs NamesProofs.

Lemma filter_combinations {A} (a : A -> bool) k (l : list A) :
  filter (forallb a) (combinations k l) = combinations k (filter a l).
Proof.
  revert k. induction l as [|x l IH]; intros k; destruct k as [|k]; try reflexivity.
  { cbn [combinations filter forallb]. destruct (a x); [reflexivity|]. destruct (filter a l); reflexivity. }
  cbn [combinations]. rewrite filter_app, (IH (S k)). cbn [filter].
  assert (M : filter (forallb a) (map (cons x) (combinations k l)) = if a x then map (cons x) (combinations k (filter a l)) else []).
  { rewrite <- IH. generalize (combinations k l). intros cs. induction cs as [|c cs IHc]; [destruct (a x); reflexivity|].
    cbn [map filter forallb]. rewrite IHc. destruct (a x); cbn [andb]; [|reflexivity]. destruct (forallb a c); reflexivity. }
  rewrite M. destruct (a x); reflexivity.
Qed.

(* combinations of different datasets *)
Definition distinct (c : list dscol) : bool := Nat.eqb (List.length (str_nub (map fst c))) (List.length c).
Lemma distinct_spec c : distinct c = true <-> NoDup (map fst c).
Proof. unfold distinct. rewrite Nat.eqb_eq, <- (map_length fst c). apply str_nub_nodup. Qed.
Lemma distinct_cons x c : distinct (x :: c) = forallb (fun y : dscol => negb (String.eqb (fst y) (fst x))) c && distinct c.
Proof.
  apply Bool.eq_iff_eq_true. rewrite Bool.andb_true_iff, !distinct_spec, forallb_forall. cbn [map]. rewrite NoDup_cons_iff. split.
  - intros [N D]. split; [|exact D]. intros y Y. apply negb_true_iff, String.eqb_neq. intros E. apply N. rewrite <- E. apply in_map, Y.
  - intros [N D]. split; [|exact D]. intros I. apply in_map_iff in I as (y & E & Y). specialize (N y Y). apply negb_true_iff, String.eqb_neq in N. contradiction.
Qed.

Definition block_cols (blocks : list (string * list string)) : list dscol := flat_map (fun b => map (fun c => (fst b, c)) (snd b)) blocks.
Lemma filter_none {A} (p : A -> bool) l : (forall x, In x l -> p x = false) -> filter p l = [].
Proof. induction l as [|x l IH]; intros H; [reflexivity|]. cbn. rewrite (H x (or_introl eq_refl)). apply IH. intros y Y. apply H. right. exact Y. Qed.
Lemma filter_keep {A} (p : A -> bool) l : (forall x, In x l -> p x = true) -> filter p l = l.
Proof. induction l as [|x l IH]; intros H; [reflexivity|]. cbn. rewrite (H x (or_introl eq_refl)). f_equal. apply IH. intros y Y. apply H. right. exact Y. Qed.
Lemma filter_filter {A} (p q : A -> bool) l : filter (fun x => p x && q x) l = filter q (filter p l).
Proof. induction l as [|x l IH]; [reflexivity|]. cbn. destruct (p x); cbn; [destruct (q x); [f_equal|]; exact IH|exact IH]. Qed.
Lemma filter_map {A B} (p : B -> bool) (f : A -> B) l : filter p (map f l) = map f (filter (fun x => p (f x)) l).
Proof. induction l as [|x l IH]; [reflexivity|]. cbn. destruct (p (f x)); cbn; [f_equal|]; exact IH. Qed.

(* the first combination of columns of k different datasets takes the first column of the first k datasets *)
Lemma first_distinct k (blocks : list (string * list string)) : NoDup (map fst blocks) -> (forall b, In b blocks -> snd b <> []) -> (k <= List.length blocks)%nat ->
  exists c rest, filter distinct (combinations k (block_cols blocks)) = c :: rest /\ map fst c = firstn k (map fst blocks).
Proof.
  revert k. induction blocks as [|[o cs] blocks IH]; intros k N NE L.
  { cbn in L. assert (k = 0)%nat by lia. subst k. exists [], []. split; reflexivity. }
  destruct k as [|k]; [exists [], []; split; [destruct (block_cols ((o, cs) :: blocks)); reflexivity|reflexivity]|].
  cbn [map fst] in N. apply NoDup_cons_iff in N as [N1 N2]. destruct cs as [|c0 cs]; [exfalso; exact (NE (o, []) (or_introl eq_refl) eq_refl)|].
  destruct (IH k N2 (fun b B => NE b (or_intror B))) as (c & rest & E & M); [cbn in L; lia|].
  unfold block_cols. cbn [flat_map fst snd map app combinations]. rewrite filter_app. fold (block_cols blocks).
  rewrite filter_map, (filter_ext _ (fun c => forallb (fun y : dscol => negb (String.eqb (fst y) o)) c && distinct c)) by (intros a; exact (distinct_cons (o, c0) a)).
  rewrite filter_filter, filter_combinations.
  assert (FI : filter (fun y : dscol => negb (String.eqb (fst y) o)) (map (fun c => (o, c)) cs ++ block_cols blocks) = block_cols blocks).
  { rewrite filter_app, filter_none, filter_keep; [reflexivity| |].
    - intros [p q] I. unfold block_cols in I. apply in_flat_map in I as (b & B & I). apply in_map_iff in I as (q' & EQ & _). injection EQ as E1 _. cbn [fst].
      apply negb_true_iff, String.eqb_neq. intros X. apply N1. rewrite <- X, <- E1. apply in_map, B.
    - intros [p q] I. apply in_map_iff in I as (q' & EQ & _). injection EQ as E1 _. subst p. cbn [fst]. rewrite String.eqb_refl. reflexivity. }
  rewrite FI. cbn [app]. rewrite E. cbn [map app]. eexists _, _. split; [reflexivity|]. cbn [map fst firstn]. f_equal. exact M.
Qed.

Lemma filter_head_app {A} (p : A -> bool) l m c r : filter p l = c :: r -> exists r', filter p (l ++ m) = c :: r'.
Proof. intros E. rewrite filter_app, E. eexists. reflexivity. Qed.

Lemma nodup_app_left {A} (l m : list A) : NoDup (l ++ m) -> NoDup l.
Proof.
  induction l as [|x l IH]; intros N; [constructor|]. cbn [app] in N. apply NoDup_cons_iff in N as [N1 N2]. constructor; [|apply IH, N2].
  intros I. apply N1, in_or_app. left. exact I.
Qed.

Definition others (d : ds_dict) (ref : string) : list string := s_sort str_leb (filter (fun k => negb (String.eqb k ref)) (map fst d)).
Lemma others_in d ref x : In x (others d ref) <-> In x (map fst d) /\ x <> ref.
Proof. unfold others. rewrite s_sort_in, filter_In, negb_true_iff, String.eqb_neq. reflexivity. Qed.
Lemma others_strict d ref : NoDup (map fst d) -> StronglySorted str_lt (others d ref).
Proof. intros N. apply str_sorted_strict, NoDup_filter, N. Qed.
Lemma others_length d ref : NoDup (map fst d) -> In ref (map fst d) -> S (List.length (others d ref)) = List.length d.
Proof.
  intros N I. rewrite <- (map_length fst d).
  assert (P : Permutation (ref :: others d ref) (map fst d)).
  { apply NoDup_Permutation; [constructor; [intros J; apply others_in in J; tauto|apply strict_nodup, others_strict, N]|exact N|].
    intros x. cbn [In]. rewrite others_in. split; [intros [<-|[J _]]; assumption|]. intros J. destruct (string_dec x ref) as [->|D]; [left; reflexivity|right; tauto]. }
  exact (Permutation_length P).
Qed.

Lemma first_names d ref n' : wf_dict d -> has_columns d -> In ref (map fst d) -> (S n' <= List.length d)%nat ->
  exists l, get_dataset_names ref d (S n') = Ok l /\ Permutation l (ref :: firstn n' (others d ref)) /\ StronglySorted str_lt l.
Proof.
  intros W HC I L. destruct W as [N NC]. pose proof I as I0. apply in_map_iff in I as ([r cols] & E & I). cbn [fst] in E. subst r.
  assert (EC : columns_of d ref = Some cols) by (apply columns_of_in; assumption). pose proof (HC ref cols I) as NE. destruct cols as [|c0 cols]; [congruence|].
  unfold get_dataset_names. rewrite (get_result_names_eq d ref (c0 :: cols) n' EC). cbn [bindR].
  set (blocks := map (fun o => (o, match columns_of d o with Some cs => cs | None => [] end)) (others d ref)).
  assert (OB : other_cols d ref = block_cols blocks).
  { unfold other_cols, block_cols, blocks. fold (others d ref). induction (others d ref) as [|o l IH]; [reflexivity|]. cbn [flat_map map fst snd]. f_equal. exact IH. }
  assert (FB : map fst blocks = others d ref) by (unfold blocks; rewrite map_map; cbn [fst]; apply map_id).
  pose proof (others_length d ref N I0) as LO.
  destruct (first_distinct n' blocks) as (c & rest & EF & M).
  { rewrite FB. apply strict_nodup, others_strict, N. }
  { intros b B. unfold blocks in B. apply in_map_iff in B as (o & <- & O). cbn [snd]. apply others_in in O as [O _]. apply in_map_iff in O as ([o' cs] & EQ & O). cbn [fst] in EQ. subst o'.
    rewrite (proj2 (columns_of_in d o cs N) O). exact (HC o cs O). }
  { unfold blocks. rewrite map_length. lia. }
  assert (NR : forall p, In p (combinations n' (other_cols d ref)) -> forallb (fun y : dscol => negb (String.eqb (fst y) ref)) p = true).
  { intros p P. apply combinations_in in P as [P _]. apply forallb_forall. intros [o q] Y. pose proof (sublist_in _ _ _ P Y) as Z.
    apply (other_cols_in d ref o q N) in Z as [Z _]. cbn [fst]. apply negb_true_iff, String.eqb_neq, Z. }
  assert (H : exists r', filter (fun c => Nat.eqb (List.length (str_nub (map fst c))) (S n')) (raw_combos d ref (c0 :: cols) n') = ((ref, c0) :: c) :: r').
  { unfold raw_combos, product. cbn [map flat_map]. rewrite map_app. apply (filter_head_app _ _ _ _ (map (cons (ref, c0)) rest)). rewrite map_map. cbn [fst snd].
    rewrite filter_map. change (((ref, c0) :: c) :: map (cons (ref, c0)) rest) with (map (cons (ref, c0)) (c :: rest)). f_equal. rewrite <- EF, <- OB.
    apply filter_ext_in. intros p P. transitivity (distinct ((ref, c0) :: p)).
    - unfold distinct. cbn [List.length]. rewrite (proj2 (proj1 (combinations_in _ _ _) P)). reflexivity.
    - rewrite distinct_cons. cbn [fst]. rewrite (NR p P). reflexivity. }
  destruct H as (r' & ->). cbn [map]. eexists. split; [reflexivity|]. rewrite FB in M.
  assert (ND : NoDup (map fst ((ref, c0) :: c))).
  { cbn [map fst]. rewrite M. constructor.
    - intros J. assert (J' : In ref (others d ref)) by (rewrite <- (firstn_skipn n' (others d ref)); apply in_or_app; left; exact J). apply others_in in J'. tauto.
    - pose proof (strict_nodup _ (others_strict d ref N)) as X. rewrite <- (firstn_skipn n' (others d ref)) in X. exact (nodup_app_left _ _ X). }
  split; [|apply sort_combo_strict, ND]. transitivity (map fst ((ref, c0) :: c)); [apply Permutation_map, s_sort_perm|]. cbn [map fst]. rewrite M. reflexivity.
Qed.

Lemma firstn_lt l k : StronglySorted str_lt l -> forall x o, In x (firstn k l) -> In o (skipn k l) -> str_lt x o.
Proof.
  intros S0. revert k. induction S0 as [|y l S0 IH F]; intros k x o X O; [destruct k; destruct X|]. rewrite Forall_forall in F. destruct k as [|k]; [destruct X|].
  cbn [firstn skipn] in X, O. destruct X as [E|X]; [subst x|exact (IH k x o X O)]. apply F. rewrite <- (firstn_skipn k l). apply in_or_app. right. exact O.
Qed.

Lemma dataset_names_spec d ref n : wf_dict d -> has_columns d -> In ref (map fst d) -> (1 <= n)%nat -> (n <= List.length d)%nat ->
  exists l, get_dataset_names ref d n = Ok l /\ first_datasets d ref n l.
Proof.
  intros W HC I L1 L2. destruct n as [|n']; [lia|]. destruct (first_names d ref n' W HC I L2) as (l & E & P & S0). exists l. split; [exact E|].
  pose proof (others_length d ref (proj1 W) I) as LO. pose proof (others_strict d ref (proj1 W)) as SO.
  assert (IN : forall x, In x l <-> x = ref \/ In x (firstn n' (others d ref))).
  { intros x. split; intros J; [apply (Permutation_in _ P) in J; destruct J; auto|apply (Permutation_in _ (Permutation_sym P)); destruct J; [left; auto|right; auto]]. }
  assert (SUB : forall x, In x (firstn n' (others d ref)) -> In x (others d ref)) by (intros x J; rewrite <- (firstn_skipn n' (others d ref)); apply in_or_app; auto).
  split; [rewrite (Permutation_length P); cbn [List.length]; rewrite firstn_length; lia|]. split; [exact S0|]. split; [apply IN; auto|]. split.
  - intros x J. apply IN in J as [J|J]; [subst x; exact I|]. apply SUB, others_in in J. tauto.
  - intros x o J NR O NO. apply IN in J as [J|J]; [contradiction|]. apply (firstn_lt _ n' SO); [exact J|].
    assert (O' : In o (others d ref)) by (apply others_in; split; [exact O|]; intros E'; apply NO, IN; auto).
    rewrite <- (firstn_skipn n' (others d ref)) in O'. apply in_app_or in O' as [O'|O']; [exfalso; apply NO, IN; auto|exact O'].
Qed.

Lemma sorted_same l m : StronglySorted str_lt l -> StronglySorted str_lt m -> (forall x, In x l <-> In x m) -> l = m.
Proof.
  intros S1 S2 E. apply (sorted_perm_eq str_leb str_leb_antisym).
  - clear - S1. induction S1 as [|x l S1 IH F]; constructor; [exact IH|]. rewrite Forall_forall in *. intros y Y. apply F, Y.
  - clear - S2. induction S2 as [|x l S2 IH F]; constructor; [exact IH|]. rewrite Forall_forall in *. intros y Y. apply F, Y.
  - apply NoDup_Permutation; [apply strict_nodup, S1|apply strict_nodup, S2|exact E].
Qed.
(* a selection of as many names as there are *)
Lemma all_names (l m : list string) : NoDup l -> incl l m -> List.length l = List.length m -> forall x, In x l <-> In x m.
Proof. intros N I L x. split; [apply I|]. apply (NoDup_length_incl N); [lia|exact I]. Qed.

Lemma names_too_many d ref n : wf_dict d -> In ref (map fst d) -> (List.length d < n)%nat -> get_dataset_names ref d n = Err EIndex.
Proof.
  intros W I L. unfold get_dataset_names. destruct (names_spec d ref n W ltac:(lia) I) as (out & E & _ & S0). rewrite E. cbn [bindR]. destruct out as [|c out]; [reflexivity|].
  exfalso. destruct (proj1 (S0 c) (or_introl eq_refl)) as [(LC & SS & SI) _]. rewrite <- (map_length fst) in LC.
  assert (X : (List.length (map fst c) <= List.length (map fst d))%nat).
  { apply NoDup_incl_length; [apply strict_nodup, SS|]. intros x X. apply in_map_iff in X as ([ds col] & <- & X). destruct (SI ds col X) as (cols & Y & _). apply (in_map fst) in Y. exact Y. }
  rewrite (map_length fst d) in X. lia.
Qed.

Lemma before_pos l i x : StronglySorted str_lt l -> nth_error l i = Some x -> names_before x l = i.
Proof.
  intros S0. revert i. unfold names_before. induction S0 as [|y l S0 IH F]; intros i E; [destruct i; discriminate|]. rewrite Forall_forall in F.
  destruct i as [|i]; cbn [nth_error] in E.
  - assert (y = x) by congruence. subst y. cbn [filter]. rewrite String.eqb_refl, Bool.andb_false_r. rewrite filter_none; [reflexivity|].
    intros z Z. destruct (F z Z) as [LE NE]. destruct (String.eqb_spec z x) as [->|_]; [apply Bool.andb_false_r|]. rewrite Bool.andb_true_r.
    destruct (str_leb z x) eqn:Q; [|reflexivity]. exfalso. apply NE. apply str_leb_antisym; assumption.
  - pose proof (nth_error_In _ _ E) as X. destruct (F x X) as [LE NE]. cbn [filter]. rewrite LE. destruct (String.eqb_spec y x) as [->|_]; [congruence|].
    cbn [andb negb List.length]. f_equal. exact (IH i E).
Qed.
