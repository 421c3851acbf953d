(* Combinations and nwise_apply. *)
From Verif Require Import Base BaseProofs NamesModel NamesProofs GroupingModel MaskProofs DfMetricsModel DfMetricsSpec.
Local Open Scope nat_scope.

(* ---- n_combinations ---- *)
Lemma selection_sublist {A} (c l : list A) : selection c l <-> sublist c l.
Proof. split; induction 1; constructor; assumption. Qed.

Lemma picks_in {A} (l : list A) x r : In (x, r) (picks l) <-> exists l1 l2, l = l1 ++ x :: l2 /\ r = l1 ++ l2.
Proof.
  revert x r. induction l as [|a l IH]; intros x r; cbn.
  - split; [contradiction|]. intros (l1 & l2 & E & _). destruct l1; discriminate.
  - split.
    + intros [E|I]; [injection E as <- <-; exists [], l; split; reflexivity|].
      apply in_map_iff in I as ([y s] & E & I). injection E as <- <-. apply IH in I as (l1 & l2 & -> & ->). exists (a :: l1), l2. split; reflexivity.
    + intros (l1 & l2 & E & ->). destruct l1 as [|b l1]; cbn in E; injection E as -> ->; [left; reflexivity|]. right.
      apply in_map_iff. exists (x, l1 ++ l2). split; [reflexivity|]. apply IH. exists l1, l2. split; reflexivity.
Qed.

Lemma permutations_in {A} k (l c : list A) : NoDup l -> (In c (permutations k l) <-> NoDup c /\ incl c l /\ List.length c = k).
Proof.
  revert l c. induction k as [|k IH]; intros l c N; cbn [permutations].
  - split; [intros [<-|[]]; repeat split; [constructor|intros x []]|]. intros (_ & _ & L). destruct c; [left; reflexivity|discriminate].
  - split.
    + intros I. apply in_flat_map in I as ([x r] & I & J). apply picks_in in I as (l1 & l2 & -> & ->). cbn [fst snd] in J.
      apply in_map_iff in J as (c' & <- & J). pose proof (NoDup_remove_1 _ _ _ N) as N1. pose proof (NoDup_remove_2 _ _ _ N) as N2.
      apply IH in J as (D & I & L); [|exact N1]. split; [constructor; [intros X; apply N2, I, X|exact D]|]. split; [|cbn; congruence].
      intros y [<-|Y]; [apply in_or_app; right; left; reflexivity|]. apply I in Y. apply in_app_or in Y as [Y|Y]; apply in_or_app; [left; exact Y|right; right; exact Y].
    + intros (D & I & L). destruct c as [|x c]; [discriminate|]. apply NoDup_cons_iff in D as [D1 D2].
      destruct (in_split x l (I x (or_introl eq_refl))) as (l1 & l2 & ->). apply in_flat_map. exists (x, l1 ++ l2). split; [apply picks_in; exists l1, l2; split; reflexivity|].
      cbn [fst snd]. apply in_map. apply IH; [exact (NoDup_remove_1 _ _ _ N)|]. split; [exact D2|]. split; [|cbn in L; congruence].
      intros y Y. pose proof (I y (or_intror Y)) as Z. apply in_app_or in Z as [Z|[Z|Z]]; [apply in_or_app; left; exact Z|subst y; contradiction|apply in_or_app; right; exact Z].
Qed.

Lemma nodup_flat_map {A B} (f : A -> list B) l : NoDup l -> (forall x, In x l -> NoDup (f x)) ->
  (forall x y b, In x l -> In y l -> In b (f x) -> In b (f y) -> x = y) -> NoDup (flat_map f l).
Proof.
  induction l as [|x l IH]; intros N D I; [constructor|]. apply NoDup_cons_iff in N as [N1 N2]. cbn. apply nodup_app.
  - apply D. left; reflexivity.
  - apply IH; [exact N2|intros; apply D; right; assumption|]. intros a b' c Ia Ib. apply I; right; assumption.
  - intros b Hb Hb'. apply in_flat_map in Hb' as (y & Iy & Hy). assert (x = y) by (apply (I x y b); [left; reflexivity|right; exact Iy|exact Hb|exact Hy]). subst. contradiction.
Qed.

Lemma picks_fst {A} (l : list A) : map fst (picks l) = l.
Proof. induction l as [|x l IH]; [reflexivity|]. cbn. rewrite map_map. cbn [fst]. f_equal. exact IH. Qed.

Lemma permutations_nodup {A} k (l : list A) : NoDup l -> NoDup (permutations k l).
Proof.
  revert l. induction k as [|k IH]; intros l N; cbn [permutations]; [constructor; [intros []|constructor]|].
  apply nodup_flat_map.
  - apply (NoDup_map_inv fst). rewrite picks_fst. exact N.
  - intros [x r] I. apply nodup_map_inj; [intros; cbn in *; congruence|]. apply IH. apply picks_in in I as (l1 & l2 & -> & ->). exact (NoDup_remove_1 _ _ _ N).
  - intros [x r] [y s] b Ix Iy Bx By. cbn [fst snd] in *. apply in_map_iff in Bx as (bx & <- & _), By as (by' & E & _). injection E as -> _.
    assert (U : forall l : list A, NoDup l -> forall p q, In p (picks l) -> In q (picks l) -> fst p = fst q -> p = q).
    { clear. intros l N p q Ip Iq E. assert (ND : NoDup (map fst (picks l))) by (rewrite picks_fst; exact N). revert Ip Iq E ND. generalize (picks l). intros m. induction m as [|z m IH]; intros Ip Iq E ND; [contradiction|].
      cbn in ND. apply NoDup_cons_iff in ND as [N1 N2]. destruct Ip as [Ep|Ip], Iq as [Eq|Iq]; [congruence| | |apply IH; assumption].
      - subst z. exfalso. apply N1. rewrite E. apply in_map, Iq.
      - subst z. exfalso. apply N1. rewrite <- E. apply in_map, Ip. }
    exact (U l N _ _ Ix Iy eq_refl).
Qed.

Lemma required_spec {A} (eqb : A -> A -> bool) (He : forall a b, eqb a b = true <-> a = b) req c :
  forallb (fun i => existsb (eqb i) c) req = true <-> incl req c.
Proof.
  rewrite forallb_forall. split.
  - intros H x I. specialize (H x I). apply existsb_exists in H as (y & Iy & E). apply He in E. subst. exact Iy.
  - intros H x I. apply existsb_exists. exists x. split; [apply H, I|apply He; reflexivity].
Qed.

(* ---- masks ---- *)
Lemma map2_nth_bool l m i : List.length l = List.length m -> nth i (map2 andb l m) false = andb (nth i l false) (nth i m false).
Proof. revert m i. induction l as [|a l IH]; intros [|b m] i L; try discriminate L; destruct i; cbn; try reflexivity. apply IH. cbn in L; lia. Qed.
Lemma map2_len_eq {A B C} (g : A -> B -> C) l m : List.length l = List.length m -> List.length (map2 g l m) = List.length l.
Proof. revert m. induction l as [|a l IH]; intros [|b m] L; try discriminate L; [reflexivity|]. cbn. f_equal. apply IH. cbn in L; lia. Qed.

Section F.
Variables (f : frame) (nr : nat).
Hypothesis WF : well_formed f nr.

Lemma col_length i : i < ncols f -> List.length (col f i) = nr.
Proof.
  intros H. destruct WF as [_ W]. unfold col. unfold ncols in H. rewrite (nth_indep _ [] (snd (""%string, []))) by (rewrite map_length; exact H). rewrite map_nth. apply W, nth_In, H.
Qed.
Definition masks0 := map (map (@notna Q)) (map snd f).
Lemma masks0_nth i : i < ncols f -> nth i masks0 [] = map notna (col f i).
Proof. intros H. unfold masks0, col. change (@nil bool) with (map (@notna Q) []). rewrite map_nth. reflexivity. Qed.

Definition complete_mask (comb : list nat) : list bool := map (complete_row f comb) (seq 0 nr).

Lemma mask_and i j : i < ncols f -> j < ncols f -> map2 andb (map notna (col f i)) (map notna (col f j)) = complete_mask [i; j].
Proof.
  intros Hi Hj. apply (nth_ext _ _ false false); unfold complete_mask.
  - rewrite map2_len_eq; rewrite !map_length; rewrite ?seq_length; [apply col_length, Hi|rewrite !col_length by assumption; reflexivity].
  - intros r Hr. rewrite map2_nth_bool by (rewrite !map_length, !col_length by assumption; reflexivity).
    rewrite map2_len_eq, map_length, col_length in Hr; [|exact Hi|rewrite !map_length, !col_length by assumption; reflexivity].
    rewrite (nth_indep (map (complete_row f [i; j]) _) false (complete_row f [i; j] 0)) by (rewrite map_length, seq_length; exact Hr).
    rewrite (map_nth (complete_row f [i; j])), seq_nth by exact Hr. unfold complete_row. cbn [forallb plus]. fold (col f i) (col f j).
    change false with (@notna Q None) at 1 2. rewrite !(map_nth (@notna Q)). rewrite Bool.andb_true_r. reflexivity.
Qed.

Lemma select_complete comb i : i < ncols f -> mask_select (complete_mask comb) (col f i) = map (fun r => nth r (col f i) None) (complete_rows f nr comb).
Proof.
  intros H. refine (eq_trans (mask_select_seq _ _ (None : cell) _) _); [unfold complete_mask; rewrite map_length, seq_length, col_length by exact H; reflexivity|].
  f_equal. rewrite col_length by exact H. unfold complete_rows. apply filter_ext_in. intros r Hr. apply in_seq in Hr. unfold complete_mask.
  rewrite (nth_indep _ false (complete_row f comb 0)) by (rewrite map_length, seq_length; lia). rewrite (map_nth (complete_row f comb)), seq_nth by lia. reflexivity.
Qed.

Lemma args_complete comb : (forall i, In i comb -> i < ncols f) ->
  map (fun i => if forallb (fun b => b) (complete_mask comb) then col f i else mask_select (complete_mask comb) (col f i)) comb = complete_cases f nr comb.
Proof.
  intros H. unfold complete_cases. apply map_ext_in. intros i I. fold (col f i). rewrite <- select_complete by (apply H, I).
  destruct (forallb _ _) eqn:E; [|reflexivity]. symmetry. apply mask_select_length_all; [|exact E]. unfold complete_mask. rewrite map_length, seq_length, col_length by (apply H, I). reflexivity.
Qed.

Lemma exists_complete comb : existsb (fun b => b) (complete_mask comb) = match complete_rows f nr comb with [] => false | _ => true end.
Proof.
  unfold complete_mask, complete_rows. induction (seq 0 nr) as [|r l IH]; [reflexivity|]. cbn. destruct (complete_row f comb r); cbn; [reflexivity|exact IH].
Qed.

Section Loop.
Context {V : Type}.
Variables method0 method : list (list cell) -> res (list V).

Definition row_of (nres : nat) (comb : list nat) : list (option V) := map (fun q => value_of f nr method q comb) (seq 0 nres).

Lemma some_list (c : list V) : map Some c = map (fun q => nth_error c q) (seq 0 (List.length c)).
Proof. induction c as [|x c IH]; [reflexivity|]. cbn [List.length seq map nth_error]. f_equal. rewrite <- seq_shift, map_map. exact IH. Qed.

Lemma loop_ok nres combs :
  (forall comb, In comb combs -> (forall i, In i comb -> i < ncols f) /\ logical_and masks0 comb = Ok (complete_mask comb, masks0)) ->
  (forall comb, In comb combs -> complete_rows f nr comb <> [] -> exists c, method (complete_cases f nr comb) = Ok c /\ List.length c = nres) ->
  nwise_loop method f nres masks0 combs = Ok (map (fun comb => (comb, row_of nres comb)) combs).
Proof.
  induction combs as [|comb combs IH]; intros H M; [reflexivity|]. cbn [nwise_loop map].
  destruct (H comb (or_introl eq_refl)) as [B L]. rewrite L. cbn [bindR fst snd]. rewrite args_complete by exact B. rewrite exists_complete.
  rewrite IH; [|intros; apply H; right; assumption|intros; apply M; [right|]; assumption].
  assert (R : (if match complete_rows f nr comb with [] => false | _ => true end then
     bindR (method (complete_cases f nr comb)) (fun c => if Nat.ltb nres (List.length c) then Err EIndex else Ok (map Some c ++ repeat None (nres - List.length c)))
     else Ok (repeat None nres)) = Ok (row_of nres comb)).
  { pose proof (M comb (or_introl eq_refl)) as MC. destruct (complete_rows f nr comb) as [|r0 rr] eqn:CR.
    - f_equal. unfold row_of, value_of. rewrite CR. clear. generalize 0. induction nres as [|n IH]; intros k; [reflexivity|]. cbn. rewrite <- IH. reflexivity.
    - destruct MC as (c & EC & LC); [discriminate|]. rewrite EC. cbn [bindR]. rewrite LC, Nat.ltb_irrefl, Nat.sub_diag. cbn [repeat]. rewrite app_nil_r.
      f_equal. rewrite some_list, LC. unfold row_of. apply map_ext. intros q. unfold value_of. rewrite CR, EC. reflexivity. }
  rewrite R. reflexivity.
Qed.
End Loop.

(* ---- when are the masks right ---- *)
Lemma clean2 comb : List.length comb = 2 -> (forall i, In i comb -> i < ncols f) -> logical_and masks0 comb = Ok (complete_mask comb, masks0).
Proof.
  intros L B. destruct comb as [|i [|j [|k r]]]; try discriminate L. cbn [logical_and]. rewrite !masks0_nth by (apply B; cbn; tauto). rewrite mask_and by (apply B; cbn; tauto). reflexivity.
Qed.

Definition no_missing : Prop := forall c, In c f -> Forall (fun x => x <> None) (snd c).
Lemma set_at_same {A} i (v d : A) l : nth i l d = v -> i < List.length l -> set_at i v l = l.
Proof. revert i. induction l as [|x l IH]; intros [|i] E L; cbn in *; try lia; [congruence|]. f_equal. apply IH; [exact E|lia]. Qed.

Lemma notna_all i r : no_missing -> i < ncols f -> r < nr -> notna (nth r (col f i) None) = true.
Proof.
  intros NM Hi Hr. assert (F : Forall (fun x => x <> None) (col f i)).
  { unfold col. unfold ncols in Hi. rewrite (nth_indep _ [] (snd (""%string, []))) by (rewrite map_length; exact Hi). rewrite map_nth. apply NM, nth_In, Hi. }
  rewrite Forall_forall in F. assert (N : nth r (col f i) None <> None) by (apply F, nth_In; rewrite col_length by exact Hi; exact Hr). destruct (nth r (col f i) None); [reflexivity|congruence].
Qed.
Lemma complete_all comb : no_missing -> (forall i, In i comb -> i < ncols f) -> complete_mask comb = repeat true nr.
Proof.
  intros NM B. unfold complete_mask. assert (MC : forall l : list nat, repeat true (List.length l) = map (fun _ => true) l) by (induction l; cbn; congruence).
  rewrite <- (seq_length nr 0) at 2. rewrite MC. apply map_ext_in. intros r Hr. apply in_seq in Hr. unfold complete_row. apply forallb_forall.
  intros i I. apply notna_all; [exact NM|apply B, I|lia].
Qed.
Lemma clean3 comb : no_missing -> List.length comb = 3 -> (forall i, In i comb -> i < ncols f) -> logical_and masks0 comb = Ok (complete_mask comb, masks0).
Proof.
  intros NM L B. destruct comb as [|i [|j [|k [|l r]]]]; try discriminate L. cbn [logical_and]. rewrite !masks0_nth by (apply B; cbn; tauto). rewrite mask_and by (apply B; cbn; tauto).
  rewrite (complete_all [i; j]) by (first [exact NM|intros x X; apply B; cbn in *; tauto]). rewrite (complete_all [i; j; k]) by (first [exact NM|exact B]).
  rewrite (set_at_same k _ []); [reflexivity| |unfold masks0; rewrite !map_length; apply B; cbn; tauto].
  rewrite masks0_nth by (apply B; cbn; tauto). transitivity (complete_mask [k]); [|apply complete_all; [exact NM|intros x [<-|[]]; apply B; cbn; tauto]].
  unfold complete_mask. apply (nth_ext _ _ false false); rewrite ?map_length, ?seq_length; [apply col_length, B; cbn; tauto|]. intros r Hr. rewrite col_length in Hr by (apply B; cbn; tauto).
  rewrite (nth_indep (map (complete_row f [k]) _) false (complete_row f [k] 0)) by (rewrite map_length, seq_length; exact Hr). rewrite (map_nth (complete_row f [k])), seq_nth by exact Hr.
  rewrite (nth_indep _ false (@notna Q None)) by (rewrite map_length, col_length by (apply B; cbn; tauto); exact Hr). rewrite (map_nth (@notna Q)). unfold complete_row. cbn [forallb plus]. fold (col f k). rewrite Bool.andb_true_r. reflexivity.
Qed.
End F.

(* ---- dictionaries with different keys ---- *)
Lemma dlist_eqb_spec a b : DfMetricsModel.key_eqb a b = true <-> a = b.
Proof. unfold DfMetricsModel.key_eqb. destruct (list_eq_dec string_dec a b); split; try congruence; discriminate. Qed.

Lemma fold_dict_new {V} (g : list nat -> list string) (l : list (list nat * V)) acc :
  NoDup (map fst acc ++ map g (map fst l)) ->
  fold_left (fun d kv => dict_set DfMetricsModel.key_eqb d (g (fst kv)) (snd kv)) l acc = acc ++ map (fun kv => (g (fst kv), snd kv)) l.
Proof.
  revert acc. induction l as [|[k v] l IH]; intros acc N; cbn [fold_left map]; [rewrite app_nil_r; reflexivity|]. cbn [fst snd] in *.
  rewrite (dict_set_new _ dlist_eqb_spec).
  - rewrite IH; [rewrite <- app_assoc; reflexivity|]. rewrite map_app. cbn [map fst]. rewrite <- app_assoc. exact N.
  - intros I. cbn [map fst] in N. apply NoDup_remove_2 in N. apply N, in_or_app. left; exact I.
Qed.

Lemma map_nth_inj (names : list string) a b : NoDup names -> (forall i, In i a -> i < List.length names) -> (forall i, In i b -> i < List.length names) ->
  map (fun i => nth i names ""%string) a = map (fun i => nth i names ""%string) b -> a = b.
Proof.
  intros N. revert b. induction a as [|x a IH]; intros [|y b] A B E; try discriminate E; [reflexivity|]. cbn in E. injection E as E1 E2. f_equal.
  - apply (proj1 (NoDup_nth names ""%string) N); [apply A; left; reflexivity|apply B; left; reflexivity|exact E1].
  - apply IH; [intros; apply A; right; assumption|intros; apply B; right; assumption|exact E2].
Qed.

Definition required {A} (truthy : A -> bool) (mi : must A) : list A :=
  match mi with MNone => [] | MOne x => if truthy x then [x] else [] | MList l => l end.
Definition combs_of (f : frame) (n : nat) (comm : bool) (mi : must nat) : list (list nat) :=
  n_combinations Nat.eqb (fun i => negb (Nat.eqb i 0)) (seq 0 (ncols f)) n mi (negb comm).

Lemma combs_of_in f n comm mi comb : In comb (combs_of f n comm mi) -> List.length comb = n /\ NoDup comb /\ (forall i, In i comb -> i < ncols f) /\ incl (required (fun i => negb (Nat.eqb i 0)) mi) comb.
Proof.
  unfold combs_of, n_combinations. intros I. apply filter_In in I as [I R]. fold (required (fun i => negb (Nat.eqb i 0)) mi) in R.
  apply (required_spec Nat.eqb Nat.eqb_eq) in R. destruct comm; cbn [negb] in I.
  - apply combinations_in in I as [S L]. split; [exact L|]. split; [|split; [|exact R]].
    + clear - S. revert comb S. generalize (seq_NoDup (ncols f) 0). generalize (seq 0 (ncols f)). intros l N comb S. induction S; [constructor| |apply IHS; apply NoDup_cons_iff in N; tauto].
      apply NoDup_cons_iff in N as [N1 N2]. constructor; [intros X; apply N1; eapply sublist_in; eassumption|apply IHS, N2].
    + intros i X. apply (sublist_in _ _ _ S) in X. apply in_seq in X. lia.
  - apply permutations_in in I as (N & I & L); [|apply seq_NoDup]. split; [exact L|]. split; [exact N|]. split; [|exact R]. intros i X. apply I, in_seq in X. lia.
Qed.
Lemma combs_of_nodup f n comm mi : NoDup (combs_of f n comm mi).
Proof. unfold combs_of, n_combinations. apply NoDup_filter. destruct comm; cbn [negb]; [apply combinations_nodup, seq_NoDup|apply permutations_nodup, seq_NoDup]. Qed.

Lemma apply_ok {V} (method0 method : list (list cell) -> res (list V)) f nr n comm mi args c0 : well_formed f nr -> n <= ncols f ->
  array_dropna (map (col f) (seq 0 n)) = Ok args -> method0 args = Ok c0 ->
  (forall comb, In comb (combs_of f n comm mi) -> logical_and (masks0 f) comb = Ok (complete_mask f nr comb, masks0 f)) ->
  (forall comb, In comb (combs_of f n comm mi) -> complete_rows f nr comb <> [] -> exists c, method (complete_cases f nr comb) = Ok c /\ List.length c = List.length c0) ->
  nwise_rows method0 method f n comm mi = Ok (List.length c0, map (fun comb => (comb, row_of f nr method (List.length c0) comb)) (combs_of f n comm mi)) /\
  nwise_apply method0 method f n comm mi =
    Ok (map (fun q => map (fun comb => (map (colname f) comb, value_of f nr method q comb)) (combs_of f n comm mi)) (seq 0 (List.length c0))).
Proof.
  intros WF Hn EA E0 CL M.
  assert (R : nwise_rows method0 method f n comm mi = Ok (List.length c0, map (fun comb => (comb, row_of f nr method (List.length c0) comb)) (combs_of f n comm mi))).
  { unfold nwise_rows. fold (combs_of f n comm mi). destruct (Nat.ltb_spec (ncols f) n); [lia|]. rewrite EA. cbn [bindR]. rewrite E0. cbn [bindR]. fold (masks0 f).
    rewrite (loop_ok f nr WF method (List.length c0)); [reflexivity| |exact M]. intros comb I. split; [apply combs_of_in in I; tauto|apply CL, I]. }
  split; [exact R|]. unfold nwise_apply. rewrite R. cbn [mapR fst snd]. f_equal. apply map_ext_in. intros q Hq. apply in_seq in Hq. unfold dict_of. rewrite map_map. cbn [fst snd].
  rewrite (fold_dict_new (map (colname f))).
  - cbn [app]. rewrite map_map. apply map_ext. intros comb. cbn [fst snd]. f_equal. unfold row_of.
    rewrite (nth_indep _ None (value_of f nr method 0 comb)) by (rewrite map_length, seq_length; lia). rewrite (map_nth (fun q => value_of f nr method q comb)), seq_nth by lia. reflexivity.
  - cbn [map app]. rewrite !map_map. cbn [fst]. apply nodup_map_inj; [|apply combs_of_nodup].
    intros a b Ia Ib E. apply combs_of_in in Ia as (_ & _ & Ba & _), Ib as (_ & _ & Bb & _). unfold ncols in *. rewrite <- (map_length fst) in Ba, Bb.
    apply (map_nth_inj (map fst f)); [apply WF|exact Ba|exact Bb|exact E].
Qed.

Lemma dropna_ok f nr n : well_formed f nr -> n <= ncols f -> n = 2 \/ n = 3 -> exists args, array_dropna (map (col f) (seq 0 n)) = Ok args.
Proof.
  intros WF Hn N. unfold array_dropna. destruct N as [->| ->]; cbn [seq map logical_or].
  - rewrite !map_length, !(col_length f nr WF) by lia. rewrite Nat.eqb_refl. eexists; reflexivity.
  - rewrite !map_length, !(col_length f nr WF) by lia. rewrite Nat.eqb_refl. eexists; reflexivity.
Qed.
