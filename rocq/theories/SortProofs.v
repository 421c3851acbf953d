(* Insertion sort for any total order, and the orders on strings, pairs and combinations. *)
From Verif Require Import NamesSpec BaseProofs.
From Coq Require Import Lia.

Section SortP.
Context {A : Type} (leb : A -> A -> bool).
Hypothesis total : forall a b, leb a b = true \/ leb b a = true.
Hypothesis trans : forall a b c, leb a b = true -> leb b c = true -> leb a c = true.
Hypothesis antisym : forall a b, leb a b = true -> leb b a = true -> a = b.
Let le a b := leb a b = true.

Lemma s_insert_perm x l : Permutation (s_insert leb x l) (x :: l).
Proof.
  induction l as [|y l IH]; cbn; [reflexivity|]. destruct (leb x y); [reflexivity|].
  rewrite IH. apply perm_swap.
Qed.
Lemma s_sort_perm l : Permutation (s_sort leb l) l.
Proof. induction l as [|x l IH]; cbn; [reflexivity|]. rewrite s_insert_perm. constructor. exact IH. Qed.
Lemma s_sort_in l x : In x (s_sort leb l) <-> In x l.
Proof. split; apply Permutation_in; [|symmetry]; apply s_sort_perm. Qed.
Lemma s_sort_length l : List.length (s_sort leb l) = List.length l.
Proof. apply Permutation_length, s_sort_perm. Qed.

Lemma s_insert_sorted x l : StronglySorted le l -> StronglySorted le (s_insert leb x l).
Proof.
  intros S. induction S as [|y l S IH F]; cbn; [repeat constructor|].
  destruct (leb x y) eqn:E.
  - constructor; [constructor; assumption|]. constructor; [exact E|].
    rewrite Forall_forall in *. intros z Hz. eapply trans; [exact E|]. apply F, Hz.
  - constructor; [exact IH|]. apply Forall_forall. intros z Hz.
    apply (Permutation_in _ (s_insert_perm x l)) in Hz. destruct Hz as [<-|Hz].
    + destruct (total x y) as [H|H]; [congruence|exact H].
    + rewrite Forall_forall in F. apply F, Hz.
Qed.
Lemma s_sort_sorted l : StronglySorted le (s_sort leb l).
Proof. induction l as [|x l IH]; cbn; [constructor|]. apply s_insert_sorted, IH. Qed.

(* sorted permutations are equal *)
Lemma sorted_perm_eq l m : StronglySorted le l -> StronglySorted le m -> Permutation l m -> l = m.
Proof.
  intros S. revert m. induction S as [|x l S IH F]; intros m T P.
  - apply Permutation_nil in P. congruence.
  - destruct T as [|y m T G]; [symmetry in P; apply Permutation_nil in P; discriminate|].
    rewrite Forall_forall in F, G.
    assert (x = y).
    { assert (Hx : In x (y :: m)) by (eapply Permutation_in; [exact P|left; reflexivity]).
      assert (Hy : In y (x :: l)) by (eapply Permutation_in; [symmetry; exact P|left; reflexivity]).
      destruct Hx as [Hx|Hx]; [congruence|]. destruct Hy as [Hy|Hy]; [congruence|].
      apply antisym; [apply F, Hy|apply G, Hx]. }
    subst y. f_equal. apply IH; [exact T|]. eapply Permutation_cons_inv. exact P.
Qed.
Lemma s_sort_id l : StronglySorted le l -> s_sort leb l = l.
Proof. intros S. apply sorted_perm_eq; [apply s_sort_sorted|exact S|apply s_sort_perm]. Qed.
Lemma s_sort_perm_eq l m : Permutation l m -> s_sort leb l = s_sort leb m.
Proof.
  intros P. apply sorted_perm_eq; [apply s_sort_sorted..|]. rewrite !s_sort_perm. exact P.
Qed.
End SortP.

(* ------------------------------------------------------------ orders *)

Lemma ascii_compare_lt_trans a b c : (a ?= b)%char = Lt -> (b ?= c)%char = Lt -> (a ?= c)%char = Lt.
Proof. unfold Ascii.compare. rewrite !N.compare_lt_iff. lia. Qed.
Lemma ascii_compare_refl a : (a ?= a)%char = Eq.
Proof. unfold Ascii.compare. apply N.compare_refl. Qed.
Lemma str_compare_refl a : (a ?= a)%string = Eq.
Proof. induction a as [|c a IH]; cbn; [reflexivity|]. rewrite ascii_compare_refl. exact IH. Qed.

Lemma str_compare_lt_trans a b c : (a ?= b)%string = Lt -> (b ?= c)%string = Lt -> (a ?= c)%string = Lt.
Proof.
  revert b c; induction a as [|x a IH]; intros [|y b] [|z c]; cbn; try congruence.
  destruct (x ?= y)%char eqn:E1; try congruence; destruct (y ?= z)%char eqn:E2; try congruence.
  - apply Ascii.compare_eq_iff in E1, E2. subst. rewrite ascii_compare_refl. apply IH.
  - apply Ascii.compare_eq_iff in E1. subst. rewrite E2. reflexivity.
  - apply Ascii.compare_eq_iff in E2. subst. rewrite E1. reflexivity.
  - rewrite (ascii_compare_lt_trans _ _ _ E1 E2). reflexivity.
Qed.

Lemma str_leb_refl a : str_leb a a = true.
Proof. unfold str_leb, String.leb. rewrite str_compare_refl. reflexivity. Qed.
Lemma str_leb_total a b : str_leb a b = true \/ str_leb b a = true.
Proof. apply String.leb_total. Qed.
Lemma str_leb_antisym a b : str_leb a b = true -> str_leb b a = true -> a = b.
Proof. apply String.leb_antisym. Qed.
Lemma str_leb_trans a b c : str_leb a b = true -> str_leb b c = true -> str_leb a c = true.
Proof.
  unfold str_leb, String.leb. destruct (a ?= b)%string eqn:E1; try congruence; intros _;
  destruct (b ?= c)%string eqn:E2; try congruence; intros _.
  - apply String.compare_eq_iff in E1, E2. subst. rewrite str_compare_refl. reflexivity.
  - apply String.compare_eq_iff in E1. subst. rewrite E2. reflexivity.
  - apply String.compare_eq_iff in E2. subst. rewrite E1. reflexivity.
  - rewrite (str_compare_lt_trans _ _ _ E1 E2). reflexivity.
Qed.
Lemma str_lt_trans a b c : str_lt a b -> str_lt b c -> str_lt a c.
Proof.
  intros [A1 A2] [B1 B2]. split; [eapply str_leb_trans; eassumption|]. intros ->. apply A2, str_leb_antisym; assumption.
Qed.
Lemma str_lt_irrefl a : ~ str_lt a a.
Proof. intros [_ H]. congruence. Qed.

Lemma pair_leb_total a b : pair_leb a b = true \/ pair_leb b a = true.
Proof.
  unfold pair_leb. rewrite (String.eqb_sym (fst b)). destruct (String.eqb (fst a) (fst b)); apply str_leb_total.
Qed.
Lemma pair_leb_antisym a b : pair_leb a b = true -> pair_leb b a = true -> a = b.
Proof.
  unfold pair_leb. rewrite (String.eqb_sym (fst b)). destruct a as [x y], b as [u v]. cbn.
  destruct (String.eqb_spec x u) as [->|N]; intros H1 H2.
  - f_equal. apply str_leb_antisym; assumption.
  - exfalso. apply N, str_leb_antisym; assumption.
Qed.
Lemma pair_leb_iff a b : pair_leb a b = true <->
  str_lt (fst a) (fst b) \/ (fst a = fst b /\ str_leb (snd a) (snd b) = true).
Proof.
  unfold pair_leb, str_lt. destruct (String.eqb_spec (fst a) (fst b)) as [E|N]; split; intros H.
  - right. auto.
  - destruct H as [[_ H]|[_ H]]; [congruence|exact H].
  - left. auto.
  - destruct H as [[H _]|[H _]]; [exact H|congruence].
Qed.
Lemma pair_leb_trans a b c : pair_leb a b = true -> pair_leb b c = true -> pair_leb a c = true.
Proof.
  rewrite !pair_leb_iff. intros [H1|[E1 H1]] [H2|[E2 H2]].
  - left. eapply str_lt_trans; eassumption.
  - left. rewrite <- E2. exact H1.
  - left. rewrite E1. exact H2.
  - right. split; [congruence|]. eapply str_leb_trans; eassumption.
Qed.

Lemma pair_eqb_spec a b : pair_eqb a b = true <-> a = b.
Proof.
  unfold pair_eqb. destruct a as [x y], b as [u v]. cbn. rewrite andb_true_iff, !String.eqb_eq. split; [intros []; congruence|intros E; injection E; auto].
Qed.
Lemma pair_eqb_refl a : pair_eqb a a = true.
Proof. apply pair_eqb_spec. reflexivity. Qed.
Lemma combo_leb_refl a : combo_leb a a = true.
Proof. induction a as [|x a IH]; cbn; [reflexivity|]. rewrite pair_eqb_refl. exact IH. Qed.
Lemma combo_leb_total a b : combo_leb a b = true \/ combo_leb b a = true.
Proof.
  revert b; induction a as [|x a IH]; intros [|y b]; cbn; auto.
  destruct (pair_eqb x y) eqn:E.
  - apply pair_eqb_spec in E. subst. rewrite pair_eqb_refl. apply IH.
  - destruct (pair_eqb y x) eqn:E'; [apply pair_eqb_spec in E'; subst; rewrite pair_eqb_refl in E; discriminate|]. apply pair_leb_total.
Qed.
Lemma combo_leb_antisym a b : combo_leb a b = true -> combo_leb b a = true -> a = b.
Proof.
  revert b; induction a as [|x a IH]; intros [|y b]; cbn; try congruence.
  destruct (pair_eqb x y) eqn:E.
  - apply pair_eqb_spec in E. subst. rewrite pair_eqb_refl. intros. f_equal. apply IH; assumption.
  - destruct (pair_eqb y x) eqn:E'; [apply pair_eqb_spec in E'; subst; rewrite pair_eqb_refl in E; discriminate|].
    intros H1 H2. exfalso. rewrite (pair_leb_antisym _ _ H1 H2), pair_eqb_refl in E. discriminate.
Qed.
Lemma combo_leb_trans a b c : combo_leb a b = true -> combo_leb b c = true -> combo_leb a c = true.
Proof.
  revert b c; induction a as [|x a IH]; intros [|y b] [|z c]; cbn; try congruence.
  destruct (pair_eqb x y) eqn:E1.
  - apply pair_eqb_spec in E1. subst y. destruct (pair_eqb x z) eqn:E2; [apply IH|auto].
  - intros H1. destruct (pair_eqb y z) eqn:E2.
    + apply pair_eqb_spec in E2. subst z. rewrite E1. intros _. exact H1.
    + intros H2. destruct (pair_eqb x z) eqn:E3.
      * apply pair_eqb_spec in E3. subst z. rewrite (pair_leb_antisym _ _ H1 H2), pair_eqb_refl in E1. discriminate.
      * eapply pair_leb_trans; eassumption.
Qed.
Lemma combo_eqb_spec a b : combo_eqb a b = true <-> a = b.
Proof.
  unfold combo_eqb. rewrite andb_true_iff. split; [intros []; apply combo_leb_antisym; assumption|].
  intros ->. split; apply combo_leb_refl.
Qed.
