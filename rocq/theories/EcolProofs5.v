(* The order of the columns: the estimators. *)
From Verif Require Import Base RStats RStatsProofs TcolModel TcolSpec TcolProofs TcolProofs2 EcolModel EcolSpec EcolProofs2 EcolProofs3.
From Coq Require Import Reals Lia Lra Permutation.
Import ListNotations.
Open Scope R_scope.

Lemma rmean_perm l m : Permutation l m -> rmean l = rmean m.
Proof. intros P. unfold rmean, rlen. rewrite (rsum_perm _ _ P), (Permutation_length P). reflexivity. Qed.
Lemma filter_of_map {A B} (f : A -> B) q l : filter q (map f l) = map f (filter (fun x => q (f x)) l).
Proof. induction l as [|x l IH]; [reflexivity|]. cbn. destruct (q (f x)); cbn; rewrite IH; reflexivity. Qed.
Lemma filter_flat {A B} (g : A -> B) q l : map g (filter q l) = flat_map (fun x => if q x then [g x] else []) l.
Proof. induction l as [|x l IH]; [reflexivity|]. cbn. destruct (q x); cbn; rewrite IH; reflexivity. Qed.
Lemma filter_perm {A} (q : A -> bool) l m : Permutation l m -> Permutation (filter q l) (filter q m).
Proof. intros P. rewrite <- (map_id (filter q l)), <- (map_id (filter q m)), !filter_flat. apply Permutation_flat_map, P. Qed.

(* pairs in either order *)
Lemma comb2_perm {B} (h : nat * nat -> list B) l m : (forall a b, h (a, b) = h (b, a)) -> Permutation l m -> Permutation (flat_map h (comb2 l)) (flat_map h (comb2 m)).
Proof.
  intros SY P. induction P as [|x l m P IH|x y l|l m k P1 IH1 P2 IH2].
  - apply Permutation_refl.
  - cbn [comb2]. rewrite !flat_map_app. apply Permutation_app; [|exact IH]. apply Permutation_flat_map, Permutation_map, P.
  - cbn [comb2 map app flat_map]. rewrite (SY y x), !flat_map_app. apply Permutation_app_head. rewrite !app_assoc. apply Permutation_app_tail, Permutation_app_comm.
  - eapply Permutation_trans; eassumption.
Qed.
Lemma comb2_map f l : comb2 (map f l) = map (fun p => (f (fst p), f (snd p))) (comb2 l).
Proof. induction l as [|x l IH]; [reflexivity|]. cbn [map comb2]. rewrite map_app, !map_map, IH. reflexivity. Qed.
Lemma flat_map_perm2 {A B} (g h : A -> list B) l m : (forall x, Permutation (g x) (h x)) -> Permutation l m -> Permutation (flat_map g l) (flat_map h m).
Proof.
  intros E P. apply Permutation_trans with (flat_map h l); [|apply Permutation_flat_map, P]. clear P m.
  induction l as [|x l IH]; [apply Permutation_refl|]. cbn. apply Permutation_app; [apply E|exact IH].
Qed.
Lemma perm2_perm l m : Permutation l m -> Permutation (perm2 l) (perm2 m).
Proof. intros P. unfold perm2. apply flat_map_perm2; [|exact P]. intros a. apply Permutation_map, filter_perm, P. Qed.

Section Order.
Variables (n : nat) (sg : nat -> nat).
Hypotheses (INJ : forall i j, sg i = sg j -> i = j) (PE : Permutation (map sg (seq 0 n)) (seq 0 n)).
Definition sp (p : nat * nat) : nat * nat := (sg (fst p), sg (snd p)).

Lemma eqb_sg i j : Nat.eqb (sg i) (sg j) = Nat.eqb i j.
Proof. destruct (Nat.eqb_spec i j) as [->|N]; [apply Nat.eqb_refl|]. apply Nat.eqb_neq. intros E. apply N, INJ, E. Qed.
Lemma pair_sp p q : pair_eqb (sp p) (sp q) = pair_eqb p q.
Proof. unfold pair_eqb, sp. cbn [fst snd]. rewrite !eqb_sg. reflexivity. Qed.
Lemma biased_sp combs co : check_if_biased (map sp combs) (map sp co) = check_if_biased combs co.
Proof.
  unfold check_if_biased. induction co as [|q co IH]; [reflexivity|]. cbn [map existsb]. f_equal; [|exact IH]. clear IH.
  induction combs as [|p combs IH]; [reflexivity|]. cbn [map existsb]. f_equal; [|exact IH]. rewrite pair_sp. f_equal.
  change (snd (sp q), fst (sp q)) with (sp (snd q, fst q)). apply pair_sp.
Qed.
Lemma biased_swap c a b co : check_if_biased [(c, a); (c, b); (a, b)] co = check_if_biased [(c, b); (c, a); (b, a)] co.
Proof.
  destruct (check_if_biased [(c, a); (c, b); (a, b)] co) eqn:E1, (check_if_biased [(c, b); (c, a); (b, a)] co) eqn:E2; try reflexivity; exfalso.
  - assert (F : check_if_biased [(c, a); (c, b); (a, b)] co = false); [|congruence]. rewrite biased_false in E2 |- *. intros x y I.
    destruct I as [I|[I|[I|[]]]]; injection I as <- <-; [apply E2; cbn; tauto|apply E2; cbn; tauto|]. assert (U : uncorrelated co b a) by (apply E2; cbn; tauto). destruct U; split; assumption.
  - assert (F : check_if_biased [(c, b); (c, a); (b, a)] co = false); [|congruence]. rewrite biased_false in E1 |- *. intros x y I.
    destruct I as [I|[I|[I|[]]]]; injection I as <- <-; [apply E1; cbn; tauto|apply E1; cbn; tauto|]. assert (U : uncorrelated co a b) by (apply E1; cbn; tauto). destruct U; split; assumption.
Qed.
Lemma others_perm (q q' : nat -> bool) : (forall k, q k = q' (sg k)) -> Permutation (map sg (filter q (seq 0 n))) (filter q' (seq 0 n)).
Proof.
  intros E. replace (map sg (filter q (seq 0 n))) with (filter q' (map sg (seq 0 n))); [apply filter_perm, PE|]. rewrite filter_of_map. f_equal. apply filter_ext. intros k. symmetry. apply E.
Qed.
Lemma perm2_map l : perm2 (map sg l) = map sp (perm2 l).
Proof.
  unfold perm2. rewrite !flat_map_concat_map, concat_map, !map_map. f_equal. apply map_ext. intros a. rewrite filter_of_map, !map_map.
  rewrite (filter_ext (fun x => negb (Nat.eqb (sg a) (sg x))) (fun x => negb (Nat.eqb a x))) by (intros x; rewrite eqb_sg; reflexivity). reflexivity.
Qed.

(* the classical estimators *)
Lemma signal_perm {B} (g g' : nat * nat -> B) co c : (forall a b, g' (a, b) = g' (b, a)) -> (forall p, g p = g' (sp p)) ->
  Permutation
    (map g (filter (fun ab => negb (check_if_biased [(c, fst ab); (c, snd ab); ab] co)) (comb2 (filter (fun k => negb (Nat.eqb k c)) (seq 0 n)))))
    (map g' (filter (fun ab => negb (check_if_biased [(sg c, fst ab); (sg c, snd ab); ab] (map sp co))) (comb2 (filter (fun k => negb (Nat.eqb k (sg c))) (seq 0 n))))).
Proof.
  intros SY GG. rewrite !filter_flat.
  set (h := fun x : nat * nat => if negb (check_if_biased [(sg c, fst x); (sg c, snd x); x] (map sp co)) then [g' x] else []).
  apply Permutation_trans with (flat_map h (comb2 (map sg (filter (fun k => negb (Nat.eqb k c)) (seq 0 n))))).
  - rewrite comb2_map. rewrite (flat_map_concat_map h), map_map, <- flat_map_concat_map. match goal with |- Permutation ?a ?b => assert (E : a = b); [|rewrite E; apply Permutation_refl] end.
    apply flat_map_ext. intros p. unfold h. cbn [fst snd]. change (sg (fst p), sg (snd p)) with (sp p). rewrite <- GG.
    replace (check_if_biased [(sg c, sg (fst p)); (sg c, sg (snd p)); sp p] (map sp co)) with (check_if_biased [(c, fst p); (c, snd p); p] co); [reflexivity|].
    symmetry. apply (biased_sp [(c, fst p); (c, snd p); p]).
  - apply comb2_perm.
    + intros a b. unfold h. cbn [fst snd]. rewrite SY, biased_swap. reflexivity.
    + apply others_perm. intros k. rewrite eqb_sg. reflexivity.
Qed.
(* the cross-biased estimators *)
Lemma cross_perm {B} (g g' : nat * nat -> B) co p : (forall q, g q = g' (sp q)) ->
  Permutation
    (map g (filter (fun ab => negb (check_if_biased [(fst p, fst ab); (snd p, snd ab); ab] co)) (perm2 (filter (fun k => andb (negb (Nat.eqb k (fst p))) (negb (Nat.eqb k (snd p)))) (seq 0 n)))))
    (map g' (filter (fun ab => negb (check_if_biased [(fst (sp p), fst ab); (snd (sp p), snd ab); ab] (map sp co))) (perm2 (filter (fun k => andb (negb (Nat.eqb k (fst (sp p)))) (negb (Nat.eqb k (snd (sp p))))) (seq 0 n))))).
Proof.
  intros GG. eapply Permutation_trans; [|apply Permutation_map, filter_perm, perm2_perm; apply (others_perm (fun k => andb (negb (Nat.eqb k (fst p))) (negb (Nat.eqb k (snd p)))))].
  - rewrite perm2_map, filter_of_map, map_map. match goal with |- Permutation ?a ?b => assert (E : a = b); [|rewrite E; apply Permutation_refl] end.
    rewrite (map_ext (fun x => g' (sp x)) g) by (intros q; symmetry; apply GG). f_equal. apply filter_ext. intros q. f_equal. symmetry. apply (biased_sp [(fst p, fst q); (snd p, snd q); q]).
  - intros k. unfold sp. cbn [fst snd]. rewrite !eqb_sg. reflexivity.
Qed.

Section Values.
Variables (C C' : matrix).
Hypotheses (CC : forall i j, C i j = C' (sg i) (sg j)) (SY : forall i j, C' i j = C' j i).
Lemma sig_est_perm co c : sig_est n C co c = sig_est n C' (map sp co) (sg c).
Proof.
  unfold sig_est, signal_obs. apply rmean_perm. rewrite !map_map. cbn [snd].
  apply (signal_perm (fun ab => C c (fst ab) * C c (snd ab) / C (fst ab) (snd ab)) (fun ab => C' (sg c) (fst ab) * C' (sg c) (snd ab) / C' (fst ab) (snd ab))).
  - intros a b. cbn [fst snd]. rewrite (SY a b), (Rmult_comm (C' (sg c) a)). reflexivity.
  - intros p. unfold sp. cbn [fst snd]. rewrite !CC. reflexivity.
Qed.
Lemma cross_est_perm co i : (i < List.length co)%nat -> cross_est n C co i = cross_est n C' (map sp co) i.
Proof.
  intros Hi. unfold cross_est, cross_obs. rewrite (nth_indep (map sp co) (0, 0)%nat (sp (0, 0)%nat)) by (rewrite map_length; exact Hi). rewrite map_nth. set (p := nth i co (0, 0)%nat).
  apply rmean_perm. rewrite !map_map. cbn [snd].
  apply (cross_perm (fun ab => C (fst p) (fst ab) * C (snd p) (snd ab) / C (fst ab) (snd ab)) (fun ab => C' (fst (sp p)) (fst ab) * C' (snd (sp p)) (snd ab) / C' (fst ab) (snd ab))).
  intros q. unfold sp. cbn [fst snd]. rewrite !CC. reflexivity.
Qed.
Lemma divisors_perm co : Permutation (divisors n C co) (divisors n C' (map sp co)).
Proof.
  unfold divisors. apply Permutation_app.
  - set (F := fun c => map (fun ab => C' (fst ab) (snd ab)) (filter (fun ab => negb (check_if_biased [(c, fst ab); (c, snd ab); ab] (map sp co))) (comb2 (filter (fun k => negb (Nat.eqb k c)) (seq 0 n))))).
    apply Permutation_trans with (flat_map F (map sg (seq 0 n))); [|apply Permutation_flat_map, PE]. rewrite (flat_map_concat_map F), map_map, <- flat_map_concat_map.
    apply flat_map_perm2; [|apply Permutation_refl]. intros c. unfold F. apply signal_perm; [intros a b; cbn [fst snd]; apply SY|intros p; unfold sp; cbn [fst snd]; apply CC].
  - set (F := fun p : nat * nat => map (fun ab => C' (fst ab) (snd ab)) (filter (fun ab => negb (check_if_biased [(fst p, fst ab); (snd p, snd ab); ab] (map sp co))) (perm2 (filter (fun k => andb (negb (Nat.eqb k (fst p))) (negb (Nat.eqb k (snd p)))) (seq 0 n))))).
    rewrite (flat_map_concat_map F), map_map, <- flat_map_concat_map.
    apply flat_map_perm2; [|apply Permutation_refl]. intros p. unfold F. apply cross_perm. intros q. unfold sp. cbn [fst snd]. apply CC.
Qed.
End Values.

Lemma estimable_perm co : columns_of n co -> estimable n co -> estimable n (map sp co).
Proof.
  intros PO [E1 E2]. split.
  - intros C c' H Z. assert (I : In c' (map sg (seq 0 n))) by (apply (Permutation_in _ (Permutation_sym PE)), in_seq; lia). apply in_map_iff in I as (c & <- & I). apply in_seq in I.
    apply (E1 (fun _ _ => 0) c); [lia|]. unfold signal_obs in *. apply map_eq_nil in Z.
    pose proof (signal_perm (fun _ => tt) (fun _ => tt) co c (fun _ _ => eq_refl) (fun _ => eq_refl)) as P. rewrite Z in P. cbn [map] in P. apply Permutation_sym, Permutation_nil, map_eq_nil in P. rewrite P. reflexivity.
  - intros C i H Z. rewrite map_length in H. apply (E2 (fun _ _ => 0) i H). unfold cross_obs in *. apply map_eq_nil in Z.
    rewrite (nth_indep (map sp co) (0, 0)%nat (sp (0, 0)%nat)) in Z by (rewrite map_length; exact H). rewrite map_nth in Z.
    pose proof (cross_perm (fun _ => tt) (fun _ => tt) co (nth i co (0, 0)%nat) (fun _ => eq_refl)) as P. rewrite Z in P. cbn [map] in P. apply Permutation_sym, Permutation_nil, map_eq_nil in P. rewrite P. reflexivity.
Qed.
End Order.
Lemma existsb_perm {A} (q : A -> bool) l m : Permutation l m -> existsb q l = existsb q m.
Proof. intros P. induction P; cbn; [reflexivity|rewrite IHP; reflexivity|destruct (q y), (q x); reflexivity|congruence]. Qed.
