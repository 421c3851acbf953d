(* Property theorems C26, C27, C29: array_dropna and result names. *)
From Verif Require Import NamesSpec BaseProofs SortProofs NamesProofs.

(* C26, two arrays: exactly the positions at which neither array is missing, in order. *)
Theorem C26_dropna_partial : forall a b : list cell, List.length a = List.length b ->
  array_dropna [a; b] = Ok [keep_complete [a; b] (List.length a) a; keep_complete [a; b] (List.length a) b].
Proof. exact array_dropna_two. Qed.
Example C26_dropna_ex : array_dropna [[Some 1; None; Some 3; Some 4]; [Some 5; Some 6; None; Some 8]]%Q
  = Ok [[Some 1; Some 4]; [Some 5; Some 8]]%Q.
Proof. reflexivity. Qed.

(* With three arrays the missing values of the third do not count ... *)
Theorem C26_dropna_three : forall a b c : list cell, List.length a = List.length b -> List.length c = List.length a ->
  array_dropna [a; b; c] =
  Ok [keep_complete [a; b] (List.length a) a; keep_complete [a; b] (List.length a) b; keep_complete [a; b] (List.length a) c].
Proof. exact array_dropna_three. Qed.
(* ... so the property fails, *)
Theorem C26_dropna_three_refuted : exists a b c : list cell,
  List.length a = List.length b /\ List.length c = List.length a /\
  array_dropna [a; b; c] <>
  Ok [keep_complete [a; b; c] (List.length a) a; keep_complete [a; b; c] (List.length a) b; keep_complete [a; b; c] (List.length a) c].
Proof.
  exists [Some 1%Q; Some 2%Q], [Some 1%Q; Some 2%Q], [Some 1%Q; None].
  split; [reflexivity|]. split; [reflexivity|]. vm_compute. discriminate.
Qed.
(* and any other number of arrays is an error. *)
Theorem C26_dropna_count : forall arrs : list (list cell),
  (List.length arrs <> 2)%nat -> (List.length arrs <> 3)%nat -> array_dropna arrs = Err EType.
Proof. exact array_dropna_other. Qed.

(* C27: every selection of columns of n different datasets that includes the reference, once. *)
Theorem C27_result_names : forall (d : ds_dict) (refkey : string) (n : nat),
  wf_dict d -> (1 <= n)%nat -> In refkey (map fst d) ->
  exists out, get_result_names d refkey n = Ok out /\ NoDup out /\
    forall c, In c out <-> selection d n c /\ In refkey (map fst c).
Proof. exact names_spec. Qed.
Theorem C27_unknown_reference : forall (d : ds_dict) (refkey : string) (n : nat),
  ~ In refkey (map fst d) -> get_result_names d refkey n = Err EKey.
Proof. exact names_unknown. Qed.

Definition example_dict : ds_dict := [("smos", ["sm"]); ("ascat", ["sm"; "vod"]); ("era", ["swvl1"])]%string.
Lemma example_dict_wf : wf_dict example_dict.
Proof.
  split; [repeat constructor; cbn; intuition discriminate|].
  intros ds cols [E|[E|[E|[]]]]; injection E as <- <-; repeat constructor; cbn; intuition discriminate.
Qed.
Example C27_result_names_ex : get_result_names example_dict "smos" 2 =
  Ok [[("ascat", "sm"); ("smos", "sm")]; [("ascat", "vod"); ("smos", "sm")]; [("era", "swvl1"); ("smos", "sm")]]%string.
Proof. vm_compute. reflexivity. Qed.

(* C29: the list of combinations is sorted, duplicate free and complete ... *)
Theorem C29_result_combinations : forall (d : ds_dict) (n : nat), wf_dict d -> (1 <= n)%nat ->
  exists out, get_result_combinations d n = Ok out /\
    StronglySorted (fun a b => combo_leb a b = true) out /\ NoDup out /\
    (forall c, In c out <-> selection d n c) /\
    (forall c, In c out <-> exists refkey l, In refkey (map fst d) /\ get_result_names d refkey n = Ok l /\ In c l).
Proof.
  intros d n W Hn. destruct (combinations_spec d n W Hn) as (out & E & S & N & I).
  exists out. split; [exact E|]. split; [exact S|]. split; [exact N|]. split; [exact I|].
  intros c. rewrite I. split.
  - intros H. assert (H' := H). destruct H' as (L & _ & Hc). destruct c as [|[ds col] c]; [cbn in L; lia|].
    destruct (Hc ds col (or_introl eq_refl)) as (cols & Hd & _). apply (in_map fst) in Hd.
    destruct (names_spec d ds n W Hn Hd) as (l & El & _ & Il). exists ds, l. split; [exact Hd|]. split; [exact El|].
    apply Il. split; [exact H|left; reflexivity].
  - intros (k & l & Hk & El & Hl). destruct (names_spec d k n W Hn Hk) as (l' & El' & _ & Il).
    assert (l' = l) by congruence. subst l'. apply Il in Hl. tauto.
Qed.
(* ... so it does not depend on the order in which the datasets are configured. *)
Theorem C29_order_independent : forall (d d' : ds_dict) (n : nat), wf_dict d -> (1 <= n)%nat -> Permutation d d' ->
  get_result_combinations d n = get_result_combinations d' n.
Proof.
  intros d d' n W Hn P.
  assert (W' : wf_dict d').
  { destruct W as [W1 W2]. split; [eapply Permutation_NoDup; [apply Permutation_map, P|exact W1]|].
    intros ds cols H. apply (W2 ds). eapply Permutation_in; [symmetry; exact P|exact H]. }
  destruct (combinations_spec d n W Hn) as (o1 & E1 & S1 & N1 & I1).
  destruct (combinations_spec d' n W' Hn) as (o2 & E2 & S2 & N2 & I2).
  rewrite E1, E2. f_equal. apply (sorted_perm_eq combo_leb combo_leb_antisym); [exact S1|exact S2|].
  apply NoDup_Permutation; [exact N1|exact N2|]. intros c. rewrite I1, I2.
  unfold selection. split; intros (L & St & Hc); (split; [exact L|split; [exact St|]]);
    intros ds col H; destruct (Hc ds col H) as (cols & Hd & Hcol); exists cols; (split; [|exact Hcol]);
    eapply Permutation_in; [exact P|exact Hd|symmetry; exact P|exact Hd].
Qed.
Example C29_ex : get_result_combinations example_dict 2 =
  Ok [[("ascat", "sm"); ("era", "swvl1")]; [("ascat", "sm"); ("smos", "sm")];
      [("ascat", "vod"); ("era", "swvl1")]; [("ascat", "vod"); ("smos", "sm")];
      [("era", "swvl1"); ("smos", "sm")]]%string.
Proof. vm_compute. reflexivity. Qed.

Print Assumptions C26_dropna_partial.
Print Assumptions C26_dropna_three_refuted.
Print Assumptions C27_result_names.
Print Assumptions C29_result_combinations.
Print Assumptions C29_order_independent.
