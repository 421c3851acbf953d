(* C99, triple collocation of whole frames: another order of the columns gives the same estimates for every triple of
   columns, as long as no value is missing. *)
From Verif Require Import Base BaseProofs NamesModel NamesProofs GroupingModel DfMetricsModel DfMetricsSpec DfMetricsProofs DfMetricsProofs2 DfMetricsProps.
From Verif Require Import TcolModel TcolProps DfWrapModel DfWrapProps.
From Coq Require Import Reals Qreals String Permutation Lra FunctionalExtensionality.
Open Scope nat_scope.

(* the same named tuples, up to the order of the tuples and of the fields in them *)
Definition same_tuples (l l' : list (list (string * option R))) : Prop :=
  (forall t, In t l -> exists t', In t' l' /\ Permutation t t') /\ (forall t', In t' l' -> exists t, In t l /\ Permutation t t').
Definition no_missing (f : frame) : Prop := forall c, In c f -> Forall (fun x => x <> None) (snd c).

(* ---- triples of columns instead of triples of positions ---- *)
Definition dummy : string * list cell := (""%string, []).
Definition cols_at (f : frame) (comb : list nat) : list (string * list cell) := map (fun i => nth i f dummy) comb.
Definition cols_result (T : list (string * list cell)) (p q : nat) : list (string * option R) :=
  combine (map fst T) (match tcol_method p (map snd T) with Ok c => nth q c [] | Err _ => [] end).

Lemma cols_result_ok f comb p q : triple_result f comb p q = cols_result (cols_at f comb) p q.
Proof.
  unfold triple_result, cols_result, cols_at. rewrite !map_map.
  rewrite (map_ext (fun i => nth i (map fst f) ""%string) (fun i => fst (nth i f dummy))) by (intros i; change ""%string with (fst dummy); apply map_nth).
  rewrite (map_ext (fun i => nth i (map snd f) []) (fun i => snd (nth i f dummy))) by (intros i; change (@nil cell) with (snd dummy); apply map_nth). reflexivity.
Qed.

(* selections of positions are selections of columns *)
Lemma selection_nth (f : frame) : forall comb, selection comb (seq 0 (List.length f)) -> selection (cols_at f comb) f.
Proof.
  assert (G : forall (l : frame) pre comb, selection comb (seq (List.length pre) (List.length l)) -> selection (cols_at (pre ++ l) comb) l).
  { induction l as [|c l IH]; intros pre comb S.
    - inversion S; subst. constructor.
    - cbn [List.length seq] in S. assert (E : pre ++ c :: l = (pre ++ [c]) ++ l) by (rewrite <- app_assoc; reflexivity).
      assert (LN : Datatypes.S (List.length pre) = List.length (pre ++ [c])) by (rewrite app_length; cbn; lia).
      inversion S as [|x k m S' E1 E2|x k m S' E1]; subst.
      + constructor.
      + cbn [cols_at map]. rewrite app_nth2, Nat.sub_diag by lia. cbn [nth]. apply sel_take. rewrite LN in S'. rewrite E. exact (IH (pre ++ [c]) k S').
      + apply sel_skip. rewrite LN in S'. rewrite E. exact (IH (pre ++ [c]) comb S'). }
  intros comb S. exact (G f [] comb S).
Qed.
Lemma selection_positions (f : frame) : forall T, selection T f -> exists comb, selection comb (seq 0 (List.length f)) /\ cols_at f comb = T.
Proof.
  assert (G : forall (l : frame) pre T, selection T l -> exists comb, selection comb (seq (List.length pre) (List.length l)) /\ cols_at (pre ++ l) comb = T).
  { induction l as [|c l IH]; intros pre T S.
    - inversion S; subst. exists []. split; [constructor|reflexivity].
    - assert (E : pre ++ c :: l = (pre ++ [c]) ++ l) by (rewrite <- app_assoc; reflexivity).
      assert (LN : List.length (pre ++ [c]) = Datatypes.S (List.length pre)) by (rewrite app_length; cbn; lia).
      inversion S as [|x k m S' E1 E2|x k m S' E1]; subst.
      + exists []. split; [constructor|reflexivity].
      + destruct (IH (pre ++ [c]) k S') as (comb & SC & EC). exists (List.length pre :: comb). rewrite LN in SC. split; [cbn [List.length seq]; now apply sel_take|].
        cbn [cols_at map]. rewrite app_nth2, Nat.sub_diag by lia. cbn [nth]. f_equal. rewrite E. exact EC.
      + destruct (IH (pre ++ [c]) T S') as (comb & SC & EC). exists comb. rewrite LN in SC. split; [cbn [List.length seq]; now apply sel_skip|]. rewrite E. exact EC. }
  intros T S. exact (G f [] T S).
Qed.

(* a selection of f, in the order of another arrangement of f *)
Lemma filter_perm {A} (p : A -> bool) l l' : Permutation l l' -> Permutation (filter p l) (filter p l').
Proof.
  induction 1 as [|x l l' P IH|x y l|l l2 l3 P1 IH1 P2 IH2]; cbn.
  - constructor.
  - destruct (p x); [constructor|]; exact IH.
  - destruct (p x), (p y); try apply Permutation_refl. constructor.
  - exact (Permutation_trans IH1 IH2).
Qed.
Lemma selection_in {A} (T l : list A) x : selection T l -> In x T -> In x l.
Proof. induction 1; cbn; intuition. Qed.
Lemma selection_filter {A} (p : A -> bool) l : selection (filter p l) l.
Proof. induction l as [|x l IH]; cbn; [constructor|]. destruct (p x); constructor; exact IH. Qed.
Definition named (T : frame) (c : string * list cell) : bool := existsb (String.eqb (fst c)) (map fst T).
Lemma selection_is_filter (T f : frame) : NoDup (map fst f) -> selection T f -> filter (named T) f = T.
Proof.
  intros N S. induction S as [l|x c l S IH|x c l S IH].
  - induction l as [|y l IH]; [reflexivity|]. cbn. apply IH. apply NoDup_cons_iff in N. tauto.
  - cbn [map] in N. apply NoDup_cons_iff in N as (NI & N). cbn [filter]. unfold named at 1. cbn [map existsb]. rewrite String.eqb_refl. cbn [orb]. f_equal.
    rewrite <- (IH N) at 2. apply filter_ext_in. intros y I. unfold named. cbn [map existsb]. destruct (String.eqb_spec (fst y) (fst x)) as [E|NE]; [|reflexivity].
    exfalso. apply NI. rewrite <- E. now apply in_map.
  - cbn [map] in N. apply NoDup_cons_iff in N as (NI & N). cbn [filter]. destruct (named c x) eqn:E; [|exact (IH N)]. exfalso.
    unfold named in E. apply existsb_exists in E as (s & I & E). apply String.eqb_eq in E. subst s. apply NI. apply in_map_iff in I as (y & E & I). rewrite <- E. apply in_map, (selection_in c l); assumption.
Qed.
Lemma selection_other (T f f' : frame) : NoDup (map fst f) -> Permutation f f' -> selection T f -> exists T', selection T' f' /\ Permutation T T'.
Proof.
  intros N P S. exists (filter (named T) f'). split; [apply selection_filter|]. rewrite <- (selection_is_filter T f N S) at 1. apply filter_perm, P.
Qed.
Lemma selection_nodup (T f : frame) : NoDup (map fst f) -> selection T f -> NoDup (map fst T).
Proof.
  intros N S. induction S as [l|x c l S IH|x c l S IH]; cbn [map] in *; [constructor| |apply IH; apply NoDup_cons_iff in N; tauto].
  apply NoDup_cons_iff in N as (NI & N). constructor; [|exact (IH N)]. intros I. apply NI. apply in_map_iff in I as (y & E & I). rewrite <- E. apply in_map, (selection_in c l); assumption.
Qed.

(* ---- the estimates of one triple in another order ---- *)
Definition pick3 (a b c : nat) : nat -> nat := fun i => match i with O => a | 1 => b | _ => c end.
Definition rows3 (x y z : list R) : list (nat -> R) := map2 (fun a bc => fun i : nat => match i with O => a | 1 => fst bc | _ => snd bc end) x (combine y z).

Lemma perm3 {A} (a b c : A) T : Permutation [a; b; c] T -> In T [[a; b; c]; [a; c; b]; [b; a; c]; [b; c; a]; [c; a; b]; [c; b; a]].
Proof.
  intros P. assert (L : List.length T = 3) by (rewrite <- (Permutation_length P); reflexivity).
  destruct (Permutation_vs_cons_inv (Permutation_sym P)) as (l1 & l2 & ->). apply Permutation_cons_app_inv in P.
  destruct (Permutation_vs_cons_inv (Permutation_sym P)) as (m1 & m2 & E). rewrite E in P. apply Permutation_cons_app_inv in P.
  rewrite app_length in L. cbn in L.
  assert (E2 : m1 ++ m2 = [c]) by (apply Permutation_length_1_inv; exact P).
  destruct m1 as [|u m1]; cbn in E2; [subst m2|injection E2 as -> E2; apply app_eq_nil in E2 as (-> & ->)]; cbn in E;
    destruct l1 as [|v [|w [|]]]; cbn in E; inversion E; subst; cbn in *; try tauto; lia.
Qed.

Lemma rows3_pick x y z a b c : a < 3 -> b < 3 -> c < 3 -> List.length y = List.length x -> List.length z = List.length x ->
  rows3 (nth a [x; y; z] []) (nth b [x; y; z] []) (nth c [x; y; z] []) = map (fun r j => r (pick3 a b c j)) (rows3 x y z).
Proof.
  intros A B C LY LZ. revert y z LY LZ. induction x as [|x0 x IH]; intros y z LY LZ.
  - destruct y; [|discriminate]. destruct z; [|discriminate]. destruct a as [|[|[|]]]; try lia; destruct b as [|[|[|]]]; try lia; destruct c as [|[|[|]]]; try lia; reflexivity.
  - destruct y as [|y0 y]; [discriminate|]. destruct z as [|z0 z]; [discriminate|]. injection LY as LY. injection LZ as LZ. specialize (IH y z LY LZ).
    assert (E : rows3 (nth a [x0 :: x; y0 :: y; z0 :: z] []) (nth b [x0 :: x; y0 :: y; z0 :: z] []) (nth c [x0 :: x; y0 :: y; z0 :: z] []) =
      (fun i : nat => match i with O => nth a [x0; y0; z0] 0%R | 1 => nth b [x0; y0; z0] 0%R | _ => nth c [x0; y0; z0] 0%R end) :: rows3 (nth a [x; y; z] []) (nth b [x; y; z] []) (nth c [x; y; z] [])).
    { destruct a as [|[|[|]]]; try lia; destruct b as [|[|[|]]]; try lia; destruct c as [|[|[|]]]; try lia; reflexivity. }
    rewrite E, IH. unfold rows3 at 2. cbn [combine map2 map]. f_equal. apply functional_extensionality. intros i. unfold pick3.
    destruct i as [|[|i]]; [destruct a as [|[|[|]]]|destruct b as [|[|[|]]]|destruct c as [|[|[|]]]]; try lia; reflexivity.
Qed.

Definition full (nr : nat) (l : list cell) : Prop := List.length l = nr /\ Forall (fun x => x <> None) l.
Lemma full_vals nr l : full nr l -> List.length (vals l) = nr /\ existsb (fun c : cell => is_nan c) l = false.
Proof.
  intros (L & F). subst nr. induction F as [|x l H F IH]; [split; reflexivity|]. destruct x as [x|]; [|congruence]. destruct IH as (L & E). split; [cbn; f_equal; exact L|exact E].
Qed.
Lemma tcol_method_full nr p x y z : full nr x -> full nr y -> full nr z ->
  tcol_method p [x; y; z] = mapR (fun r => [fst (fst r); snd (fst r); snd r]) (tcol_metrics (rows3 (map Q2R (vals x)) (map Q2R (vals y)) (map Q2R (vals z))) p).
Proof.
  intros X Y Z. pose proof (proj2 (full_vals nr x X)) as NX. pose proof (proj2 (full_vals nr y Y)) as NY. pose proof (proj2 (full_vals nr z Z)) as NZ.
  unfold tcol_method. unfold cell in *. rewrite !existsb_app, NX, NY, NZ. reflexivity.
Qed.

Lemma tcol_lengths rows ref : ref < 3 -> exists s e b, tcol_metrics rows ref = Ok (s, e, b) /\ List.length s = 3 /\ List.length e = 3 /\ List.length b = 3.
Proof.
  intros H. unfold tcol_metrics, tcol_metrics_from_cov. apply Nat.ltb_lt in H. rewrite H. destruct (np_cov rows); eexists _, _, _; (split; [reflexivity|]); repeat split; reflexivity.
Qed.

(* the tuple of a triple in another order, with the same column as reference *)
Lemma tuple_order nr T T' p p' q : List.length T = 3 -> (forall c, In c T -> full nr (snd c)) -> NoDup (map fst T) -> Permutation T T' -> p < 3 -> p' < 3 ->
  nth p' T' dummy = nth p T dummy -> q < 3 -> Permutation (cols_result T p q) (cols_result T' p' q).
Proof.
  intros L F N P HP HP' E HQ. destruct T as [|c0 [|c1 [|c2 [|]]]]; try discriminate L.
  assert (X : exists a b c, In [a; b; c] [[0; 1; 2]; [0; 2; 1]; [1; 0; 2]; [1; 2; 0]; [2; 0; 1]; [2; 1; 0]] /\ T' = map (fun i => nth i [c0; c1; c2] dummy) [a; b; c]).
  { apply perm3 in P. destruct P as [P|[P|[P|[P|[P|[P|[]]]]]]]; subst T';
      [exists 0, 1, 2|exists 0, 2, 1|exists 1, 0, 2|exists 1, 2, 0|exists 2, 0, 1|exists 2, 1, 0]; (split; [cbn; tauto|reflexivity]). }
  destruct X as (a & b & c & I & ->).
  assert (B : a < 3 /\ b < 3 /\ c < 3) by (cbn in I; destruct I as [I|[I|[I|[I|[I|[I|[]]]]]]]; injection I as <- <- <-; lia). destruct B as (BA & BB & BC).
  assert (PP : forall i, i < 3 -> pick3 a b c i < 3) by (intros [|[|i]] _; assumption).
  assert (O3 : order3 (pick3 a b c)).
  { intros j Hj. cbn in I. destruct I as [I|[I|[I|[I|[I|[I|[]]]]]]]; injection I as <- <- <-; destruct j as [|[|[|]]]; try lia;
      (first [exists 0; split; [split; [lia|reflexivity]|] | exists 1; split; [split; [lia|reflexivity]|] | exists 2; split; [split; [lia|reflexivity]|]]);
      intros [|[|[|k]]] (K1 & K2); try lia; cbn in K2; try discriminate; reflexivity. }
  (* the same reference *)
  assert (ER : pick3 a b c p' = p).
  { assert (NT : forall i, i < 3 -> nth p' (map (fun i => nth i [c0; c1; c2] dummy) [a; b; c]) dummy = nth (pick3 a b c p') [c0; c1; c2] dummy) by (intros _ _; destruct p' as [|[|[|]]]; try lia; reflexivity).
    rewrite (NT 0 ltac:(lia)) in E. specialize (PP p' HP'). apply (NoDup_nth (map fst [c0; c1; c2]) ""%string); [exact N|cbn; lia|cbn; lia|].
    change ""%string with (fst dummy). rewrite !map_nth. now rewrite E. }
  set (V := fun i => map Q2R (vals (snd (nth i [c0; c1; c2] dummy)))).
  assert (FU : forall i, i < 3 -> full nr (snd (nth i [c0; c1; c2] dummy))) by (intros i Hi; apply F, nth_In; exact Hi).
  assert (LV : forall i, i < 3 -> List.length (V i) = nr) by (intros i Hi; unfold V; rewrite map_length; apply full_vals, FU, Hi).
  assert (R1 : rows3 (V a) (V b) (V c) = map (fun r j => r (pick3 a b c j)) (rows3 (V 0) (V 1) (V 2))).
  { rewrite <- rows3_pick by (first [assumption|rewrite !LV by lia; reflexivity]). destruct a as [|[|[|]]]; try lia; destruct b as [|[|[|]]]; try lia; destruct c as [|[|[|]]]; try lia; reflexivity. }
  destruct (C99_triple_order (rows3 (V 0) (V 1) (V 2)) (pick3 a b c) p' PP O3 HP') as (s & e & be & E1 & E2). rewrite <- R1 in E2. rewrite ER in E1.
  destruct (tcol_lengths (rows3 (V 0) (V 1) (V 2)) p HP) as (s1 & e1 & b1 & E3 & L1 & L2 & L3). rewrite E1 in E3. injection E3 as <- <- <-.
  unfold cols_result. cbn [map]. rewrite (tcol_method_full nr p (snd c0) (snd c1) (snd c2)) by (first [exact (FU 0 ltac:(lia))|exact (FU 1 ltac:(lia))|exact (FU 2 ltac:(lia))]).
  rewrite (tcol_method_full nr p' (snd (nth a [c0; c1; c2] dummy)) (snd (nth b [c0; c1; c2] dummy)) (snd (nth c [c0; c1; c2] dummy))) by (apply FU; assumption).
  fold (V a) (V b) (V c). change (map Q2R (vals (snd c0))) with (V 0). change (map Q2R (vals (snd c1))) with (V 1). change (map Q2R (vals (snd c2))) with (V 2).
  rewrite E1, E2. cbn [mapR fst snd].
  assert (G : forall l : list (option R), List.length l = 3 -> Permutation (combine [fst c0; fst c1; fst c2] l)
    (combine [fst (nth a [c0; c1; c2] dummy); fst (nth b [c0; c1; c2] dummy); fst (nth c [c0; c1; c2] dummy)] (reorder (pick3 a b c) None l))).
  { intros l Ll. destruct l as [|l0 [|l1 [|l2 [|]]]]; try discriminate Ll. clear - I. cbn in I.
    destruct I as [I|[I|[I|[I|[I|[I|[]]]]]]]; injection I as <- <- <-; cbn.
    - apply Permutation_refl.
    - apply perm_skip, perm_swap.
    - apply perm_swap.
    - eapply perm_trans; [apply perm_swap|]. apply perm_skip, perm_swap.
    - eapply perm_trans; [apply perm_skip, perm_swap|]. apply perm_swap.
    - eapply perm_trans; [apply perm_swap|]. eapply perm_trans; [apply perm_skip, perm_swap|]. apply perm_swap. }
  destruct q as [|[|[|q]]]; try lia; cbn [nth]; apply G; assumption.
Qed.

(* the signal-to-noise ratio does not depend on the reference *)
Lemma snr_no_reference x y z p p' : p < 3 -> p' < 3 -> cols_result [x; y; z] p 0 = cols_result [x; y; z] p' 0.
Proof.
  intros H H'. unfold cols_result. cbn [map]. unfold tcol_method, tcol_metrics, tcol_metrics_from_cov. apply Nat.ltb_lt in H, H'. rewrite H, H'.
  match goal with |- context [np_cov ?r] => destruct (np_cov r) end; reflexivity.
Qed.

(* ---- whole frames ---- *)
Section Frames.
Variables (f f' : frame) (nr : nat).
Hypothesis WF : well_formed f nr.
Hypothesis NM : no_missing f.
Hypothesis P : Permutation f f'.

Lemma wf_other : well_formed f' nr.
Proof.
  destruct WF as (N & L). split; [exact (Permutation_NoDup (Permutation_map fst P) N)|]. intros c I. apply L. exact (Permutation_in _ (Permutation_sym P) I).
Qed.
Lemma nm_other : no_missing f'.
Proof. intros c I. apply NM. exact (Permutation_in _ (Permutation_sym P) I). Qed.
Lemma full_cols c : In c f -> full nr (snd c).
Proof. intros I. split; [exact (proj2 WF c I)|exact (NM c I)]. Qed.

(* triples of f and of f', for references at positions given by functions *)
Lemma triples_other (comb : list nat) : selection comb (seq 0 (List.length f)) -> List.length comb = 3 ->
  exists comb', selection comb' (seq 0 (List.length f')) /\ List.length comb' = 3 /\ Permutation (cols_at f comb) (cols_at f' comb') /\
    NoDup (map fst (cols_at f comb)) /\ (forall c, In c (cols_at f comb) -> full nr (snd c)).
Proof.
  intros S L. pose proof (selection_nth f comb S) as S1. destruct (selection_other _ f f' (proj1 WF) P S1) as (T' & S2 & PT). destruct (selection_positions f' T' S2) as (comb' & S3 & <-).
  exists comb'. split; [exact S3|]. split.
  - pose proof (Permutation_length PT) as E. unfold cols_at in E. rewrite !map_length in E. congruence.
  - split; [exact PT|]. split; [exact (selection_nodup _ f (proj1 WF) S1)|]. intros c I. apply full_cols. exact (selection_in _ _ _ S1 I).
Qed.
End Frames.

Lemma combs_none f comb : In comb (combs_of f 3 true MNone) <-> selection comb (seq 0 (List.length f)) /\ List.length comb = 3.
Proof.
  unfold combs_of. cbn [negb].
  assert (E : n_combinations Nat.eqb (fun i => negb (Nat.eqb i 0)) (seq 0 (ncols f)) 3 MNone false = n_combinations Nat.eqb (fun i => negb (Nat.eqb i 0)) (seq 0 (ncols f)) 3 (MList []) false) by reflexivity.
  rewrite E, (C63_combinations Nat.eqb (fun i => negb (Nat.eqb i 0)) Nat.eqb_eq). cbn. unfold ncols. intuition.
Qed.
Lemma combs_ref f r comb : In comb (combs_of f 3 true (MList [r])) <-> selection comb (seq 0 (List.length f)) /\ List.length comb = 3 /\ In r comb.
Proof.
  unfold combs_of. cbn [negb]. rewrite (C63_combinations Nat.eqb (fun i => negb (Nat.eqb i 0)) Nat.eqb_eq). unfold ncols. cbn. intuition (subst; auto).
Qed.
Lemma three {A} (l : list A) : List.length l = 3 -> exists x y z, l = [x; y; z].
Proof. intros L. destruct l as [|x [|y [|z [|]]]]; try discriminate L. eauto. Qed.

(* one direction, for the triples without and with a reference *)
Lemma one_way_none f f' nr : well_formed f nr -> no_missing f -> Permutation f f' ->
  forall t, In t (map (fun comb => triple_result f comb 0 0) (combs_of f 3 true MNone)) -> exists t', In t' (map (fun comb => triple_result f' comb 0 0) (combs_of f' 3 true MNone)) /\ Permutation t t'.
Proof.
  intros WF NM P t I. apply in_map_iff in I as (comb & <- & I). apply combs_none in I as (S & L).
  destruct (triples_other f f' nr WF NM P comb S L) as (comb' & S' & L' & PT & N & F).
  exists (triple_result f' comb' 0 0). split; [apply in_map_iff; exists comb'; split; [reflexivity|apply combs_none; split; assumption]|]. rewrite !cols_result_ok.
  assert (L1 : List.length (cols_at f comb) = 3) by (unfold cols_at; now rewrite map_length). assert (L2 : List.length (cols_at f' comb') = 3) by (unfold cols_at; now rewrite map_length).
  destruct (three _ L1) as (x & y & z & E1). destruct (three _ L2) as (x' & y' & z' & E2). rewrite E1 in *. rewrite E2 in *. clear E1 E2 L1 L2.
  (* the place of x' in the first triple *)
  assert (IX : In x' [x; y; z]) by (apply (Permutation_in _ (Permutation_sym PT)); left; reflexivity).
  destruct (In_nth _ _ dummy IX) as (p & Hp & Ep). cbn in Hp.
  rewrite (snr_no_reference x y z 0 p) by lia. apply (tuple_order nr); [reflexivity|exact F|exact N|exact PT|exact Hp|lia| |lia]. cbn [nth] in *. symmetry. exact Ep.
Qed.

Lemma comb_zero (f : frame) comb : selection comb (seq 0 (List.length f)) -> In 0 comb -> exists c', comb = 0 :: c'.
Proof.
  intros S I. destruct f as [|c f]; [inversion S; subst; destruct I|]. cbn [List.length seq] in S. inversion S as [|x k l S' E1 E2|x k l S' E1]; subst.
  - destruct I.
  - eauto.
  - exfalso. apply selection_sublist in S'. apply (sublist_in _ _ _ S') in I. apply in_seq in I. lia.
Qed.
Lemma one_way_first c0 g g' nr q : q < 3 -> well_formed (c0 :: g) nr -> no_missing (c0 :: g) -> Permutation g g' ->
  forall t, In t (map (fun comb => triple_result (c0 :: g) comb 0 q) (combs_of (c0 :: g) 3 true (MList [0]))) ->
  exists t', In t' (map (fun comb => triple_result (c0 :: g') comb 0 q) (combs_of (c0 :: g') 3 true (MList [0]))) /\ Permutation t t'.
Proof.
  intros HQ WF NM P0 t I. set (f := c0 :: g) in *. set (f' := c0 :: g') in *. assert (P : Permutation f f') by (now apply perm_skip).
  apply in_map_iff in I as (comb & <- & I). apply combs_ref in I as (S & L & I0).
  destruct (comb_zero f comb S I0) as (r & ->).
  destruct (triples_other f f' nr WF NM P _ S L) as (comb' & S' & L' & PT & N & F).
  assert (C0 : In c0 (cols_at f' comb')) by (apply (Permutation_in _ PT); left; reflexivity).
  assert (NF' : NoDup (map fst f')) by (exact (Permutation_NoDup (Permutation_map fst P) (proj1 WF))).
  assert (I0' : In 0 comb').
  { apply in_map_iff in C0 as (i & E & Ii). assert (Hi : i < List.length f') by (apply selection_sublist in S'; apply (sublist_in _ _ _ S') in Ii; apply in_seq in Ii; lia).
    destruct i as [|i]; [exact Ii|]. exfalso. assert (X : Datatypes.S i = 0); [|discriminate]. apply (NoDup_nth (map fst f') ""%string); [exact NF'|now rewrite map_length|rewrite map_length; cbn; lia|].
    change ""%string with (fst dummy). rewrite !map_nth. rewrite E. reflexivity. }
  destruct (comb_zero f' comb' S' I0') as (r' & ->).
  exists (triple_result f' (0 :: r') 0 q). split; [apply in_map_iff; exists (0 :: r'); split; [reflexivity|apply combs_ref; repeat split; assumption]|]. rewrite !cols_result_ok.
  apply (tuple_order nr); [unfold cols_at; rewrite map_length; exact L|exact F|exact N|exact PT|lia|lia|reflexivity|exact HQ].
Qed.

(* Without a reference: the signal-to-noise ratios of all triples. *)
Theorem C99_frame_order_ratios f f' nr : well_formed f nr -> 1 <= nr -> 3 <= ncols f -> no_missing f -> Permutation f f' ->
  exists snr err beta snr' err' beta', df_tcol_metrics f None = Ok [snr; err; beta] /\ df_tcol_metrics f' None = Ok [snr'; err'; beta'] /\ same_tuples snr snr'.
Proof.
  intros WF NR K NM P. pose proof (wf_other f f' nr WF P) as WF'. pose proof (nm_other f f' NM P) as NM'. assert (K' : 3 <= ncols f') by (unfold ncols in *; rewrite <- (Permutation_length P); exact K).
  do 6 eexists. split; [exact (C52_no_reference f nr WF NR K NM)|]. split; [exact (C52_no_reference f' nr WF' NR K' NM')|]. split.
  - exact (one_way_none f f' nr WF NM P).
  - intros t' I. destruct (one_way_none f' f nr WF' NM' (Permutation_sym P) t' I) as (t & I1 & P1). exists t. split; [exact I1|exact (Permutation_sym P1)].
Qed.
Print Assumptions C99_frame_order_ratios.

(* With the first column as reference (the default), the other columns in any order: all estimates. *)
Theorem C99_frame_order c0 g g' nr : well_formed (c0 :: g) nr -> 1 <= nr -> 3 <= ncols (c0 :: g) -> no_missing (c0 :: g) -> Permutation g g' ->
  exists snr err beta snr' err' beta', df_tcol_metrics (c0 :: g) (Some 0) = Ok [snr; err; beta] /\ df_tcol_metrics (c0 :: g') (Some 0) = Ok [snr'; err'; beta'] /\
    same_tuples snr snr' /\ same_tuples err err' /\ same_tuples beta beta'.
Proof.
  intros WF NR K NM P0. assert (P : Permutation (c0 :: g) (c0 :: g')) by (now apply perm_skip).
  pose proof (wf_other _ _ nr WF P) as WF'. pose proof (nm_other _ _ NM P) as NM'. assert (K' : 3 <= ncols (c0 :: g')) by (unfold ncols in *; rewrite <- (Permutation_length P); exact K).
  assert (G : forall q, q < 3 -> same_tuples (map (fun comb => triple_result (c0 :: g) comb 0 q) (combs_of (c0 :: g) 3 true (MList [0]))) (map (fun comb => triple_result (c0 :: g') comb 0 q) (combs_of (c0 :: g') 3 true (MList [0])))).
  { intros q HQ. split; [exact (one_way_first c0 g g' nr q HQ WF NM P0)|]. intros t' I. destruct (one_way_first c0 g' g nr q HQ WF' NM' (Permutation_sym P0) t' I) as (t & I1 & P1). exists t. split; [exact I1|exact (Permutation_sym P1)]. }
  do 6 eexists. split; [exact (df_tcol_general (c0 :: g) nr 0 (MList [0]) WF NR K NM ltac:(lia))|]. split; [exact (df_tcol_general (c0 :: g') nr 0 (MList [0]) WF' NR K' NM' ltac:(lia))|].
  split; [exact (G 0 ltac:(lia))|]. split; [exact (G 1 ltac:(lia))|exact (G 2 ltac:(lia))].
Qed.
Print Assumptions C99_frame_order.

(* With exactly three columns: any reference, whose place changes with the order. *)
Theorem C99_three_columns_order f f' nr r r' : well_formed f nr -> 1 <= nr -> ncols f = 3 -> no_missing f -> Permutation f f' -> r < 3 -> r' < 3 -> colname f' r' = colname f r ->
  exists snr err beta snr' err' beta', df_tcol_metrics f (Some r) = Ok [[snr]; [err]; [beta]] /\ df_tcol_metrics f' (Some r') = Ok [[snr']; [err']; [beta']] /\
    Permutation snr snr' /\ Permutation err err' /\ Permutation beta beta'.
Proof.
  intros WF NR K NM P R3 R3' EN. pose proof (wf_other f f' nr WF P) as WF'. pose proof (nm_other f f' NM P) as NM'. assert (K' : ncols f' = 3) by (unfold ncols in *; rewrite <- (Permutation_length P); exact K).
  assert (CO : forall (h : frame) k, ncols h = 3 -> k < 3 -> combs_of h 3 true (MList [k]) = [[0; 1; 2]]).
  { intros h k Kh Hk. unfold combs_of. rewrite Kh. destruct k as [|[|[|]]]; [reflexivity|reflexivity|reflexivity|lia]. }
  assert (ALL : forall h : frame, ncols h = 3 -> cols_at h [0; 1; 2] = h).
  { intros h Kh. unfold ncols in Kh. destruct h as [|x [|y [|z [|]]]]; try discriminate Kh. reflexivity. }
  assert (NE : nth r' f' dummy = nth r f dummy).
  { unfold colname in EN. change ""%string with (fst dummy) in EN. rewrite !map_nth in EN. unfold ncols in K, K'.
    assert (I1 : In (nth r' f' dummy) f) by (apply (Permutation_in _ (Permutation_sym P)), nth_In; lia). assert (I2 : In (nth r f dummy) f) by (apply nth_In; lia).
    destruct (In_nth _ _ dummy I1) as (k & Hk & Ek). assert (k = r); [|subst k; symmetry; exact Ek]. apply (NoDup_nth (map fst f) ""%string); [exact (proj1 WF)|now rewrite map_length|rewrite map_length; lia|].
    change ""%string with (fst dummy). rewrite !map_nth, Ek. exact EN. }
  assert (G : forall q, q < 3 -> Permutation (triple_result f [0; 1; 2] r q) (triple_result f' [0; 1; 2] r' q)).
  { intros q HQ. rewrite !cols_result_ok, !ALL by assumption. apply (tuple_order nr); [exact K| |exact (proj1 WF)|exact P|exact R3|exact R3'|exact NE|exact HQ]. intros c I. exact (full_cols f nr WF NM c I). }
  do 6 eexists. split; [|split].
  - unfold df_tcol_metrics. rewrite (df_tcol_general f nr r (MList [r]) WF NR) by (first [exact NM|lia]). rewrite CO by assumption. reflexivity.
  - unfold df_tcol_metrics. rewrite (df_tcol_general f' nr r' (MList [r']) WF' NR) by (first [exact NM'|lia]). rewrite CO by assumption. reflexivity.
  - split; [exact (G 0 ltac:(lia))|]. split; [exact (G 1 ltac:(lia))|exact (G 2 ltac:(lia))].
Qed.
Print Assumptions C99_three_columns_order.

(* A missing value: the last column of a triple is not checked for missing values, so that their order decides whether
   there is a result at all *)
Definition miss_a : string * list cell := ("a", [Some 0; Some 2; Some 5])%Q%string.
Definition miss_b : string * list cell := ("b", [Some 0; Some 1; Some 5])%Q%string.
Definition miss_c : string * list cell := ("c", [Some 0; Some 3; None])%Q%string.
Theorem C99_missing_order_refuted : Permutation [miss_a; miss_b; miss_c] [miss_a; miss_c; miss_b] /\ well_formed [miss_a; miss_b; miss_c] 3 /\
  (exists snr err beta, df_tcol_metrics [miss_a; miss_b; miss_c] (Some 0) = Ok [[snr]; [err]; [beta]] /\ In ("b"%string, None) beta) /\
  (exists snr err beta, df_tcol_metrics [miss_a; miss_c; miss_b] (Some 0) = Ok [[snr]; [err]; [beta]] /\ In ("b"%string, Some 2%R) beta).
Proof.
  split; [apply perm_skip, perm_swap|]. split; [split; [vm_compute; repeat constructor; cbn; intuition congruence|intros c [<-|[<-|[<-|[]]]]; reflexivity]|]. split.
  - do 3 eexists. split; [reflexivity|]. right. left. reflexivity.
  - set (rows := map2 (fun a bc => fun i : nat => match i with O => a | 1 => fst bc | _ => snd bc end) (map Q2R [0; 2]%Q) (combine (map Q2R [0; 3]%Q) (map Q2R [0; 1]%Q))).
    exists (combine ["a"; "c"; "b"]%string (map (tc_snr (cov1 rows)) [0; 1; 2])), (combine ["a"; "c"; "b"]%string (map (tc_err_std (cov1 rows) 0) [0; 1; 2])), (combine ["a"; "c"; "b"]%string (map (tc_beta (cov1 rows) 0) [0; 1; 2])).
    assert (NF : tc_beta (cov1 rows) 0 2 = Some (2 / 1)%R).
    { refine (proj2 (C51_noise_free rows (fun r => r 2) (fun j => match j with O => 2 | 1 => 3 | _ => 1 end)%R (fun _ => 0%R) 0 2 _ _ _ _ _ _)).
      - cbn; lia.
      - intros r j I1 Hj. unfold rows in I1. cbn in I1. assert (Q0 : Q2R 0 = 0%R) by (unfold Q2R; cbn; lra). assert (Q1 : Q2R 1 = 1%R) by (unfold Q2R; cbn; lra). assert (Q2 : Q2R 2 = 2%R) by (unfold Q2R; cbn; lra). assert (Q3 : Q2R 3 = 3%R) by (unfold Q2R; cbn; lra).
        destruct I1 as [<-|[<-|[]]]; destruct j as [|[|[|j]]]; try lia; rewrite ?Q0, ?Q1, ?Q2, ?Q3; cbn; lra.
      - intros [|[|j]] _; lra.
      - unfold rows, rmean, rlen. cbn. unfold Q2R. cbn. lra.
      - lia.
      - lia. }
    split; [reflexivity|]. cbn [map combine]. rewrite NF. right. right. left. do 2 f_equal. field.
Qed.
Print Assumptions C99_missing_order_refuted.

(* four columns without missing values, in two orders *)
Definition ex_c (n : string) (l : list Q) : string * list cell := (n, map Some l).
Definition ex_f4 : frame := [ex_c "a" [0; 2; 1]; ex_c "b" [0; 1; 3]; ex_c "c" [5; 7; 6]; ex_c "d" [1; 0; 2]]%Q%string.
Definition ex_g4 : frame := [ex_c "a" [0; 2; 1]; ex_c "d" [1; 0; 2]; ex_c "b" [0; 1; 3]; ex_c "c" [5; 7; 6]]%Q%string.
Example C99_ex_frames : well_formed ex_f4 3 /\ 3 <= ncols ex_f4 /\ no_missing ex_f4 /\ Permutation ex_f4 ex_g4 /\ Permutation (tl ex_f4) (tl ex_g4).
Proof.
  split; [split; [vm_compute; repeat constructor; cbn; intuition congruence|intros c [<-|[<-|[<-|[<-|[]]]]]; reflexivity]|].
  split; [vm_compute; lia|]. split; [intros c [<-|[<-|[<-|[<-|[]]]]]; repeat constructor; discriminate|].
  assert (P : Permutation (tl ex_f4) (tl ex_g4)) by (cbn [tl ex_f4 ex_g4]; eapply perm_trans; [apply perm_skip, perm_swap|apply perm_swap]).
  split; [apply perm_skip|]; exact P.
Qed.
Example C99_ex_three : colname [ex_c "c" [5; 7]; ex_c "a" [0; 2]; ex_c "b" [0; 1]]%Q%string 1 = colname [ex_c "a" [0; 2]; ex_c "b" [0; 1]; ex_c "c" [5; 7]]%Q%string 0 /\
  Permutation [ex_c "a" [0; 2]; ex_c "b" [0; 1]; ex_c "c" [5; 7]]%Q%string [ex_c "c" [5; 7]; ex_c "a" [0; 2]; ex_c "b" [0; 1]]%Q%string.
Proof. split; [reflexivity|]. eapply perm_trans; [apply perm_skip, perm_swap|apply perm_swap]. Qed.
