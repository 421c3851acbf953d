(* C52: triple collocation of data frames.  C53: nwise_apply.  C54: result matrices.  C63: n_combinations. *)
From Verif Require Import Base BaseProofs NamesModel NamesProofs GroupingModel DfMetricsModel DfMetricsSpec DfMetricsProofs DfMetricsProofs2.
From Coq Require Import Reals Qreals Lra.
From Verif Require Import RStats MetricsModel TcolModel TcolSpec TcolProofs TcolProofs2 TcolProps.
Local Open Scope nat_scope.

(* ---- C63 ---- *)
Section C63.
Context {A : Type} (eqb : A -> A -> bool) (truthy : A -> bool).
Hypothesis eqb_ok : forall a b, eqb a b = true <-> a = b.

Theorem C63_combinations items n req c : In c (n_combinations eqb truthy items n (MList req) false) <->
  selection c items /\ List.length c = n /\ (forall x, In x req -> In x c).
Proof.
  unfold n_combinations. rewrite filter_In, combinations_in, selection_sublist, (required_spec eqb eqb_ok). unfold incl. tauto.
Qed.
Theorem C63_permutations items n req c : NoDup items -> (In c (n_combinations eqb truthy items n (MList req) true) <->
  NoDup c /\ (forall x, In x c -> In x items) /\ List.length c = n /\ (forall x, In x req -> In x c)).
Proof.
  intros N. unfold n_combinations. rewrite filter_In, permutations_in by exact N. rewrite (required_spec eqb eqb_ok). unfold incl. tauto.
Qed.
(* every combination is listed once *)
Theorem C63_once items n mi perm : NoDup items -> NoDup (n_combinations eqb truthy items n mi perm).
Proof. intros N. unfold n_combinations. apply NoDup_filter. destruct perm; [apply permutations_nodup, N|apply combinations_nodup, N]. Qed.
(* no requirement: None and an empty list *)
Theorem C63_none items n perm : n_combinations eqb truthy items n MNone perm = n_combinations eqb truthy items n (MList []) perm.
Proof. reflexivity. Qed.
(* a single element may be given instead of a list if its truth value is true *)
Theorem C63_one items n x perm : truthy x = true -> n_combinations eqb truthy items n (MOne x) perm = n_combinations eqb truthy items n (MList [x]) perm.
Proof. intros T. unfold n_combinations. rewrite T. reflexivity. Qed.
End C63.

(* what fails: the element 0 given without a list is ignored *)
Theorem C63_zero_refuted : exists items c, In c (n_combinations Nat.eqb (fun i => negb (Nat.eqb i 0)) items 2 (MOne 0) false) /\ ~ In 0 c.
Proof. exists [0; 1; 2], [1; 2]. split; [vm_compute; tauto|intros [E|[E|[]]]; discriminate]. Qed.

Example C63_case : n_combinations Nat.eqb (fun i => negb (Nat.eqb i 0)) [0; 1; 2; 3] 3 (MList [2]) false = [[0; 1; 2]; [0; 2; 3]; [1; 2; 3]]
  /\ n_combinations Nat.eqb (fun i => negb (Nat.eqb i 0)) [4; 5; 6] 2 (MList [5]) true = [[4; 5]; [5; 4]; [5; 6]; [6; 5]].
Proof. split; reflexivity. Qed.

(* ---- C53 ---- *)
Section C53.
Context {V : Type}.
Variables method0 method : list (list cell) -> res (list V).

(* pairs: every admissible pair, once, in order, with the method applied to exactly the complete rows *)
Theorem C53_pairs f nr comm mi c0 : well_formed f nr -> 2 <= ncols f ->
  (forall args, array_dropna [col f 0; col f 1] = Ok args -> method0 args = Ok c0) ->
  let combs := n_combinations Nat.eqb (fun i => negb (Nat.eqb i 0)) (seq 0 (ncols f)) 2 mi (negb comm) in
  total_method f nr method (List.length c0) combs ->
  nwise_apply method0 method f 2 comm mi =
  Ok (map (fun q => map (fun comb => (map (fun i => nth i (map fst f) ""%string) comb, value_of f nr method q comb)) combs) (seq 0 (List.length c0))).
Proof.
  intros WF K M0 combs TM. destruct (dropna_ok f nr 2 WF K (or_introl eq_refl)) as (args & EA).
  apply (apply_ok method0 method f nr 2 comm mi args c0 WF K EA (M0 args EA)); [|exact TM].
  intros comb I. apply combs_of_in in I as (L & _ & B & _). apply clean2; assumption.
Qed.

(* triples: the same for data without missing values *)
Theorem C53_triples_partial f nr comm mi c0 : well_formed f nr -> 3 <= ncols f -> (forall c, In c f -> Forall (fun x => x <> None) (snd c)) ->
  (forall args, array_dropna [col f 0; col f 1; col f 2] = Ok args -> method0 args = Ok c0) ->
  let combs := n_combinations Nat.eqb (fun i => negb (Nat.eqb i 0)) (seq 0 (ncols f)) 3 mi (negb comm) in
  total_method f nr method (List.length c0) combs ->
  nwise_apply method0 method f 3 comm mi =
  Ok (map (fun q => map (fun comb => (map (fun i => nth i (map fst f) ""%string) comb, value_of f nr method q comb)) combs) (seq 0 (List.length c0))).
Proof.
  intros WF K NM M0 combs TM. destruct (dropna_ok f nr 3 WF K (or_intror eq_refl)) as (args & EA).
  apply (apply_ok method0 method f nr 3 comm mi args c0 WF K EA (M0 args EA)); [|exact TM].
  intros comb I. apply combs_of_in in I as (L & _ & B & _). apply clean3; assumption.
Qed.

(* single columns and groups of four or more are not supported *)
Theorem C53_other_sizes f n comm mi : n <= ncols f -> n <> 2 -> n <> 3 -> nwise_apply method0 method f n comm mi = Err EType.
Proof.
  intros K N2 N3. unfold nwise_apply, nwise_rows. destruct (Nat.ltb_spec (ncols f) n); [lia|].
  rewrite array_dropna_other by (rewrite map_length, seq_length; assumption). reflexivity.
Qed.
End C53.

(* what fails: with three columns the missing values of the last one are not excluded; here the method
   returns its own arguments *)
Definition f53 : frame := [("a", [Some 1; Some 2; Some 3]); ("b", [Some 4; Some 5; Some 6]); ("c", [Some 7; None; Some 9])]%Q%string.
Theorem C53_triples_refuted : exists f nr d v, well_formed f nr /\
  nwise_apply (fun a => Ok [a]) (fun a => Ok [a]) f 3 true MNone = Ok [d] /\ d = [(["a"; "b"; "c"]%string, Some v)] /\
  v <> complete_cases f nr [0; 1; 2] /\ In None (nth 2 v []).
Proof.
  exists f53, 3, [(["a"; "b"; "c"]%string, Some (map snd f53))], (map snd f53). split; [|split; [vm_compute; reflexivity|split; [reflexivity|split]]].
  - split; [vm_compute; repeat constructor; cbn; intuition congruence|]. intros c [<-|[<-|[<-|[]]]]; reflexivity.
  - vm_compute. discriminate.
  - cbn. tauto.
Qed.
(* ... and a combination loses rows because of a column that does not belong to it *)
Definition f53b : frame := [("a", [Some 1; Some 2]); ("b", [None; Some 5]); ("c", [Some 7; Some 8]); ("d", [Some 7; Some 9])]%Q%string.
Theorem C53_foreign_rows_refuted : exists f nr d v, well_formed f nr /\
  nwise_apply (fun a => Ok [a]) (fun a => Ok [a]) f 3 true MNone = Ok [d] /\ In (["a"; "c"; "d"]%string, Some v) d /\
  List.length (complete_rows f nr [0; 2; 3]) = 2 /\ (forall x, In x v -> List.length x = 1).
Proof.
  exists f53b, 2. eexists. exists [[Some 2]; [Some 8]; [Some 9]]%Q. split; [|split; [vm_compute; reflexivity|split; [|split]]].
  - split; [vm_compute; repeat constructor; cbn; intuition congruence|]. intros c [<-|[<-|[<-|[<-|[]]]]]; reflexivity.
  - right. right. left. reflexivity.
  - reflexivity.
  - intros x [<-|[<-|[<-|[]]]]; reflexivity.
Qed.

(* concrete: three columns with missing values, pairs; the method returns its arguments *)
Example C53_case : well_formed f53 3 /\ nwise_apply (fun a => Ok [a]) (fun a => Ok [a]) f53 2 true (MList [2]) =
  Ok [[(["a"; "c"], Some [[Some 1; Some 3]; [Some 7; Some 9]]); (["b"; "c"], Some [[Some 4; Some 6]; [Some 7; Some 9]])]]%Q%string.
Proof. split; [split; [vm_compute; repeat constructor; cbn; intuition congruence|intros c [<-|[<-|[<-|[]]]]; reflexivity]|vm_compute; reflexivity]. Qed.

(* ---- C54 ---- *)
Section C54.
Context {V : Type}.
Variables method0 method : list (list cell) -> res (list V).
Variables (f : frame) (nr : nat) (c0 : list V).
Hypothesis WF : well_formed f nr.
Hypothesis K2 : 2 <= ncols f.
Hypothesis M0 : forall args, array_dropna [col f 0; col f 1] = Ok args -> method0 args = Ok c0.

(* up to three columns: both entries are the metric of the pair *)
Theorem C54_symmetric_partial : ncols f <= 3 ->
  total_method f nr method (List.length c0) (n_combinations Nat.eqb (fun i => negb (Nat.eqb i 0)) (seq 0 (ncols f)) 2 MNone false) ->
  exists dfs, nwise_df method0 method f 2 true MNone = Ok dfs /\ List.length dfs = List.length c0 /\
   forall q names m, nth_error dfs q = Some (names, m) -> names = map fst f /\
     forall i j, i < j -> j < ncols f -> m i j = value_of f nr method q [i; j] /\ m j i = value_of f nr method q [i; j].
Proof.
  intros K3 TM. destruct (dropna_ok f nr 2 WF K2 (or_introl eq_refl)) as (args & EA).
  destruct (nwise_df_ok method0 method f nr true args c0 WF K2 EA (M0 args EA) TM) as (dfs & E & L & H). exists dfs. split; [exact E|]. split; [exact L|].
  intros q names m N. destruct (H q _ N) as [H1 H2]. split; [exact H1|]. intros i j I J. destruct (H2 i j ltac:(lia) J) as (A & _ & B & _). split; [apply A, I|apply B; assumption].
Qed.

(* any number of columns: the upper triangle is right ... *)
Theorem C54_upper : 
  total_method f nr method (List.length c0) (n_combinations Nat.eqb (fun i => negb (Nat.eqb i 0)) (seq 0 (ncols f)) 2 MNone false) ->
  exists dfs, nwise_df method0 method f 2 true MNone = Ok dfs /\
   forall q names m, nth_error dfs q = Some (names, m) -> forall i j, i < j -> j < ncols f -> m i j = value_of f nr method q [i; j].
Proof.
  intros TM. destruct (dropna_ok f nr 2 WF K2 (or_introl eq_refl)) as (args & EA).
  destruct (nwise_df_ok method0 method f nr true args c0 WF K2 EA (M0 args EA) TM) as (dfs & E & L & H). exists dfs. split; [exact E|].
  intros q names m N i j I J. destruct (H q _ N) as [_ H2]. exact (proj1 (H2 i j ltac:(lia) J) I).
Qed.
(* ... but with four or more columns the entry (2, 1) is always the metric of the columns 0 and 3 *)
Theorem C54_wrong_entry : 4 <= ncols f ->
  total_method f nr method (List.length c0) (n_combinations Nat.eqb (fun i => negb (Nat.eqb i 0)) (seq 0 (ncols f)) 2 MNone false) ->
  exists dfs, nwise_df method0 method f 2 true MNone = Ok dfs /\
   forall q names m, nth_error dfs q = Some (names, m) -> m 2 1 = value_of f nr method q [0; 3].
Proof.
  intros K4 TM. destruct (dropna_ok f nr 2 WF K2 (or_introl eq_refl)) as (args & EA).
  destruct (nwise_df_ok method0 method f nr true args c0 WF K2 EA (M0 args EA) TM) as (dfs & E & L & H). exists dfs. split; [exact E|].
  intros q names m N. destruct (H q _ N) as [_ H2]. destruct (H2 0 1 ltac:(lia) ltac:(lia)) as (_ & _ & _ & G & _). exact (G K4).
Qed.

(* ... and in general the lower triangle, read row by row, is the upper triangle read row by row: (a, b) has
   a(a-1)/2 + b entries of the lower triangle before it, (i, j) has i(k-1) - i(i-1)/2 + j - i - 1 of the upper one *)
Theorem C54_lower_entries :
  total_method f nr method (List.length c0) (n_combinations Nat.eqb (fun i => negb (Nat.eqb i 0)) (seq 0 (ncols f)) 2 MNone false) ->
  exists dfs, nwise_df method0 method f 2 true MNone = Ok dfs /\
   forall q names m, nth_error dfs q = Some (names, m) -> forall a b i j, b < a -> a < ncols f -> i < j -> j < ncols f ->
     a * (a - 1) + 2 * b + i * (i + 1) + 2 = 2 * i * (ncols f - 1) + 2 * j -> m a b = value_of f nr method q [i; j].
Proof.
  intros TM. destruct (dropna_ok f nr 2 WF K2 (or_introl eq_refl)) as (args & EA).
  destruct (nwise_df_ok method0 method f nr true args c0 WF K2 EA (M0 args EA) TM) as (dfs & E & L & H). exists dfs. split; [exact E|].
  intros q names m N a b i j A1 A2 I1 I2 RK. destruct (H q _ N) as [_ H2]. destruct (H2 i j ltac:(lia) I2) as (_ & _ & _ & _ & G). apply G; assumption.
Qed.

(* metrics that are not commutative: every entry off the diagonal is right *)
Theorem C54_not_commutative :
  total_method f nr method (List.length c0) (n_combinations Nat.eqb (fun i => negb (Nat.eqb i 0)) (seq 0 (ncols f)) 2 MNone true) ->
  exists dfs, nwise_df method0 method f 2 false MNone = Ok dfs /\ List.length dfs = List.length c0 /\
   forall q names m, nth_error dfs q = Some (names, m) -> names = map fst f /\
     forall i j, i < ncols f -> j < ncols f -> i <> j -> m i j = value_of f nr method q [i; j].
Proof.
  intros TM. destruct (dropna_ok f nr 2 WF K2 (or_introl eq_refl)) as (args & EA).
  destruct (nwise_df_ok method0 method f nr false args c0 WF K2 EA (M0 args EA) TM) as (dfs & E & L & H). exists dfs. split; [exact E|]. split; [exact L|].
  intros q names m N. destruct (H q _ N) as [H1 H2]. split; [exact H1|]. intros i j I J NE. refine (eq_trans (H2 i j I J) _). apply Nat.eqb_neq in NE. rewrite NE. reflexivity.
Qed.
End C54.

(* symmetry fails for four columns and a symmetric metric: the sum of all values *)
Definition total (args : list (list cell)) : res (list Q) := Ok [Qred (qsum (vals (List.concat args)))].
Definition f54 : frame := [("a", [Some 1]); ("b", [Some 2]); ("c", [Some 4]); ("d", [Some 8])]%Q%string.
Theorem C54_symmetric_refuted : exists f names m, well_formed f 1 /\ nwise_df total total f 2 true MNone = Ok [(names, m)] /\ m 1 2 <> m 2 1.
Proof.
  exists f54. destruct (C54_wrong_entry total total f54 1 [3%Q]) as (dfs & E & W); [|vm_compute; lia|intros args X; vm_compute in X; injection X as <-; reflexivity|vm_compute; lia| |].
  1: { split; [vm_compute; repeat constructor; cbn; intuition congruence|]. intros c [<-|[<-|[<-|[<-|[]]]]]; reflexivity. }
  1: { intros comb _ _. eexists. split; reflexivity. }
  assert (L : exists names m, dfs = [(names, m)]). { unfold nwise_df in E. destruct (nwise_rows total total f54 2 true MNone) as [[n rows]|] eqn:ER; [|discriminate].
    assert (n = 1) by (vm_compute in ER; congruence). subst n. cbn in E. destruct (to_df _ _ _) as [[a b]|]; [|discriminate]. injection E as <-. eauto. }
  destruct L as (names & m & ->). exists names, m. split; [|split; [exact E|]].
  - split; [vm_compute; repeat constructor; cbn; intuition congruence|]. intros c [<-|[<-|[<-|[<-|[]]]]]; reflexivity.
  - rewrite (W 0 names m eq_refl). destruct (C54_upper total total f54 1 [3%Q]) as (dfs' & E' & U);
      [split; [vm_compute; repeat constructor; cbn; intuition congruence|intros c [<-|[<-|[<-|[<-|[]]]]]; reflexivity]|vm_compute; lia|intros args X; vm_compute in X; injection X as <-; reflexivity|intros comb _ _; eexists; split; reflexivity|].
    rewrite E in E'. injection E' as <-. rewrite (U 0 names m eq_refl 1 2) by (vm_compute; lia). vm_compute. discriminate.
Qed.

(* four columns: (1,0) (2,0) (2,1) (3,0) (3,1) (3,2) receive (0,1) (0,2) (0,3) (1,2) (1,3) (2,3) *)
Example C54_ex_lower : forall p, In p [((1, 0), (0, 1)); ((2, 0), (0, 2)); ((2, 1), (0, 3)); ((3, 0), (1, 2)); ((3, 1), (1, 3)); ((3, 2), (2, 3))] ->
  let '((a, b), (i, j)) := p in a * (a - 1) + 2 * b + i * (i + 1) + 2 = 2 * i * (ncols f54 - 1) + 2 * j.
Proof. intros p H. cbn in H. repeat (destruct H as [<-|H]; [reflexivity|]). contradiction. Qed.

(* the deprecated pairwise_apply: symmetric for any number of columns, and right for every pair *)
Theorem C54_pairwise_symmetric method f ms m i j : pairwise_apply method f true = Ok ms -> In m ms -> m i j = m j i.
Proof.
  unfold pairwise_apply. destruct (Nat.eqb (ncols f) 0); [discriminate|]. destruct (method _) as [c|]; [|discriminate]. cbn [bindR]. intros E. apply (pw_loop_sym method f _ _ ms E).
  intros m' a b I. apply in_map_iff in I as (x & <- & _). reflexivity.
Qed.
Theorem C54_pairwise_values method f nr c0 : well_formed f nr -> 1 <= ncols f -> method [col f 0; col f 0] = Ok c0 ->
  (forall i j, i < ncols f -> j < ncols f -> complete_rows f nr [i; j] <> [] -> exists c, method (complete_cases f nr [i; j]) = Ok c /\ List.length c = List.length c0) ->
  exists ms, pairwise_apply method f false = Ok ms /\ List.length ms = List.length c0 /\
    forall q m i j, nth_error ms q = Some m -> i < ncols f -> j < ncols f -> i <> j -> Some (m i j) = match value_of f nr method q [i; j] with Some v => Some v | None => Some None end.
Proof.
  intros WF K E0 M. unfold pairwise_apply. destruct (Nat.eqb_spec (ncols f) 0); [lia|]. rewrite E0. cbn [bindR]. set (ms0 := map (fun _ => (fun _ _ => None) : cmat) c0).
  assert (L0 : List.length ms0 = List.length c0) by apply map_length.
  destruct (pw_loop_values method f nr WF ms0 (product (seq 0 (ncols f)) (seq 0 (ncols f)))) as (ms & E & L & H).
  - intros [i j] I. apply product_in in I as [I J]. apply in_seq in I, J. cbn [fst snd]. lia.
  - rewrite L0. exact M.
  - exists ms. split; [exact E|]. split; [congruence|]. intros q m i j N Hi Hj NE.
    assert (Hq : q < List.length ms0) by (rewrite <- L; apply nth_error_Some; congruence).
    assert (EM : m = nth q ms nomat) by (symmetry; apply nth_error_nth; exact N). rewrite EM, H by exact Hq.
    apply Nat.eqb_neq in NE. rewrite NE. cbn [negb andb].
    assert (X : existsb (fun ij => Nat.eqb (fst ij) i && Nat.eqb (snd ij) j) (product (seq 0 (ncols f)) (seq 0 (ncols f))) = true).
    { apply existsb_exists. exists (i, j). split; [apply product_in; split; apply in_seq; lia|cbn; rewrite !Nat.eqb_refl; reflexivity]. }
    rewrite X. cbn [andb]. unfold pval, value_of.
    assert (NN : nth q ms0 nomat i j = None). { unfold ms0. change nomat with ((fun _ : cell => (fun _ _ => None) : cmat) None). rewrite map_nth. reflexivity. }
    destruct (complete_rows f nr [i; j]) as [|r0 rr] eqn:CR; [rewrite NN; reflexivity|].
    destruct (M i j Hi Hj) as (c & EC & LC); [rewrite CR; discriminate|]. rewrite EC. rewrite (nth_error_nth' c None) by (rewrite LC, <- L0; exact Hq). reflexivity.
Qed.

(* ---- C52 ---- *)
Fixpoint position (x : nat) (l : list nat) : nat := match l with [] => 0 | y :: r => if Nat.eqb x y then 0 else S (position x r) end.

(* the result for one triple of columns with a given reference, and its three parts *)
Definition triple_result (f : frame) (comb : list nat) (ref_pos q : nat) : list (string * option R) :=
  combine (map (fun i => nth i (map fst f) ""%string) comb)
    (match tcol_method ref_pos (map (fun i => nth i (map snd f) []) comb) with Ok c => nth q c [] | Err _ => [] end).

Lemma tcol_method_ok ref x y z : ref < 3 -> exists s e b, tcol_method ref [x; y; z] = Ok [s; e; b].
Proof.
  intros H. unfold tcol_method, tcol_metrics, tcol_metrics_from_cov. apply Nat.ltb_lt in H. rewrite H.
  match goal with |- context [np_cov ?r] => destruct (np_cov r) end; eexists; eexists; eexists; reflexivity.
Qed.

Lemma cases_full f nr comb : well_formed f nr -> (forall c, In c f -> Forall (fun x => x <> None) (snd c)) -> (forall i, In i comb -> i < ncols f) ->
  complete_cases f nr comb = map (fun i => nth i (map snd f) []) comb /\ complete_rows f nr comb = seq 0 nr.
Proof.
  intros WF NM B. assert (CR : complete_rows f nr comb = seq 0 nr).
  { unfold complete_rows. apply filter_unbiased. intros r Hr. apply in_seq in Hr. unfold complete_row. apply forallb_forall. intros i I. apply (notna_all f nr WF i r NM); [apply B, I|lia]. }
  split; [|exact CR]. unfold complete_cases. rewrite CR. apply map_ext_in. intros i I. rewrite <- (col_length f nr WF i (B i I)). unfold col. set (l := nth i (map snd f) []). clear.
  induction l as [|x l IH]; [reflexivity|]. cbn [List.length seq map nth]. f_equal. rewrite <- seq_shift, map_map. exact IH.
Qed.

Lemma df_tcol_general f nr r mi : well_formed f nr -> 1 <= nr -> 3 <= ncols f -> (forall c, In c f -> Forall (fun x => x <> None) (snd c)) -> r < 3 ->
  bindR (nwise_apply (tcol_method 0) (tcol_method r) f 3 true mi) (fun ds => seqR (map inner ds)) =
  Ok (map (fun q => map (fun comb => triple_result f comb r q) (combs_of f 3 true mi)) [0; 1; 2]).
Proof.
  intros WF NR K NM R3. destruct (dropna_ok f nr 3 WF K (or_intror eq_refl)) as (args & EA).
  assert (LA : exists x y z, args = [x; y; z]). { unfold array_dropna in EA. cbn [seq map] in EA. destruct (logical_or _) as [m|]; [|discriminate]. cbn in EA. injection EA as <-. eauto. }
  destruct LA as (x & y & z & ->). destruct (tcol_method_ok 0 x y z ltac:(lia)) as (s0 & e0 & b0 & E0).
  assert (CB : forall comb, In comb (combs_of f 3 true mi) -> exists i j k, comb = [i; j; k] /\ forall a, In a comb -> a < ncols f).
  { intros comb I. apply combs_of_in in I as (L & _ & B & _). destruct comb as [|i [|j [|k [|l w]]]]; try discriminate L. eauto 6. }
  assert (TM : forall comb, In comb (combs_of f 3 true mi) -> exists s e b, tcol_method r (complete_cases f nr comb) = Ok [s; e; b] /\ complete_cases f nr comb = map (fun i => nth i (map snd f) []) comb /\ complete_rows f nr comb = seq 0 nr).
  { intros comb I. destruct (CB comb I) as (i & j & k & -> & B). destruct (cases_full f nr _ WF NM B) as [E1 E2]. rewrite E1, E2.
    destruct (tcol_method_ok r (nth i (map snd f) []) (nth j (map snd f) []) (nth k (map snd f) []) R3) as (s & e & b & E). exists s, e, b. split; [exact E|split; reflexivity]. }
  destruct (apply_ok (tcol_method 0) (tcol_method r) f nr 3 true mi _ _ WF K EA E0) as [_ AP].
  - intros comb I. apply combs_of_in in I as (L & _ & B & _). apply clean3; assumption.
  - intros comb I _. destruct (TM comb I) as (s & e & b & E & _). exists [s; e; b]. split; [exact E|reflexivity].
  - rewrite AP. cbn [bindR List.length seq map].
    assert (IN : forall q, q < 3 -> inner (map (fun comb => (map (colname f) comb, value_of f nr (tcol_method r) q comb)) (combs_of f 3 true mi)) = Ok (map (fun comb => triple_result f comb r q) (combs_of f 3 true mi))).
    { intros q Hq. unfold inner. rewrite map_map. cbn [fst snd].
      rewrite (map_ext_in _ (fun comb => Ok (triple_result f comb r q))); [apply seqR_oks|]. intros comb I. destruct (TM comb I) as (s & e & b & E & C1 & C2).
      unfold value_of, triple_result. rewrite C2. rewrite C1 in *. destruct nr as [|nr']; [lia|]. cbn [seq]. rewrite E.
      destruct q as [|[|[|q]]]; [reflexivity|reflexivity|reflexivity|lia]. }
    rewrite !IN by lia. reflexivity.
Qed.

(* the reference column is the first column of the frame, or there are exactly three columns: every triple
   that contains the reference is evaluated with that column as reference *)
Theorem C52_reference_partial f nr r : well_formed f nr -> 1 <= nr -> 3 <= ncols f -> (forall c, In c f -> Forall (fun x => x <> None) (snd c)) ->
  r < ncols f -> r = 0 \/ ncols f = 3 ->
  df_tcol_metrics f (Some r) =
  Ok (map (fun q => map (fun comb => triple_result f comb (position r comb) q) (n_combinations Nat.eqb (fun i => negb (Nat.eqb i 0)) (seq 0 (ncols f)) 3 (MList [r]) false)) [0; 1; 2]).
Proof.
  intros WF NR K NM HR H. unfold df_tcol_metrics. rewrite (df_tcol_general f nr r (MList [r]) WF NR K NM) by lia. f_equal. apply map_ext. intros q. apply map_ext_in. intros comb I. f_equal.
  unfold combs_of in I. cbn [negb] in I. destruct H as [->|K3].
  - pose proof (combs_of_in f 3 true (MList [0]) comb I) as (L & _ & _ & RQ). apply (proj1 (C63_combinations Nat.eqb (fun i => negb (Nat.eqb i 0)) Nat.eqb_eq _ _ _ _)) in I as (S & _ & _).
    specialize (RQ 0 (or_introl eq_refl)). apply selection_sublist in S.
    assert (HD : exists c', comb = 0 :: c'). { unfold ncols in K. destruct f as [|c1 f']; [cbn in K; lia|]. unfold ncols in S. cbn [List.length seq] in S. inversion S as [|x k l S' E1 E2|x k l S' E1]; subst.
      - contradiction.
      - eauto.
      - exfalso. apply (sublist_in _ _ _ S') in RQ. apply in_seq in RQ. lia. }
    destruct HD as (c' & ->). reflexivity.
  - rewrite K3 in I. destruct r as [|[|[|r]]]; [| | |lia]; vm_compute in I; destruct I as [<-|[]]; reflexivity.
Qed.

(* without reference index the first column of each triple is the reference *)
Theorem C52_no_reference f nr : well_formed f nr -> 1 <= nr -> 3 <= ncols f -> (forall c, In c f -> Forall (fun x => x <> None) (snd c)) ->
  df_tcol_metrics f None =
  Ok (map (fun q => map (fun comb => triple_result f comb 0 q) (n_combinations Nat.eqb (fun i => negb (Nat.eqb i 0)) (seq 0 (ncols f)) 3 MNone false)) [0; 1; 2]).
Proof. intros WF NR K NM. unfold df_tcol_metrics. apply (df_tcol_general f nr 0 MNone WF NR K NM). lia. Qed.

(* the beta of the reference is 1 *)
Theorem C52_reference_beta f i j k p : p < 3 -> nth_error (triple_result f [i; j; k] p 2) p = Some (nth (nth p [i; j; k] 0) (map fst f) ""%string, Some 1%R).
Proof.
  intros P. unfold triple_result. cbn [map]. unfold tcol_method, tcol_metrics, tcol_metrics_from_cov. apply Nat.ltb_lt in P as P'. rewrite P'.
  match goal with |- context [np_cov ?r] => destruct (np_cov r) end; destruct p as [|[|[|p]]]; try lia; reflexivity.
Qed.

(* what fails: a later column of a frame with four columns.  For the reference 1 the triple (1, 2, 3) is
   evaluated with column 2 as reference, the beta of the requested reference is 2 *)
Definition f52 : frame := [("a", [Some 0; Some 2]); ("b", [Some 0; Some 1]); ("c", [Some 0; Some 2]); ("d", [Some 0; Some 3])]%Q%string.
Theorem C52_reference_refuted : exists f nr snr err beta t, well_formed f nr /\ df_tcol_metrics f (Some 1) = Ok [snr; err; beta] /\
  In t beta /\ In (nth 1 (map fst f) ""%string, Some 2%R) t /\ In (nth 2 (map fst f) ""%string, Some 1%R) t.
Proof.
  exists f52, 2. assert (WF : well_formed f52 2).
  { split; [vm_compute; repeat constructor; cbn; intuition congruence|]. intros c [<-|[<-|[<-|[<-|[]]]]]; reflexivity. }
  assert (NM : forall c, In c f52 -> Forall (fun x => x <> None) (snd c)) by (intros c [<-|[<-|[<-|[<-|[]]]]]; repeat constructor; discriminate).
  unfold df_tcol_metrics. rewrite (df_tcol_general f52 2 1 (MList [1]) WF) by (first [exact NM|vm_compute; lia]). cbn [map].
  eexists. eexists. eexists. exists (triple_result f52 [1; 2; 3] 1 2). split; [exact WF|]. split; [reflexivity|]. split; [right; right; left; reflexivity|].
  set (rows := map2 (fun a bc => fun i : nat => match i with O => a | 1 => fst bc | _ => snd bc end) (map Q2R [0; 1]%Q) (combine (map Q2R [0; 2]%Q) (map Q2R [0; 3]%Q))).
  assert (NF : forall i, i < 3 -> tc_beta (cov1 rows) 1 i = Some (INR 2 / INR (i + 1))%R).
  { intros i Hi. refine (proj2 (C51_noise_free rows (fun r => r 0) (fun j => INR (j + 1)) (fun _ => 0%R) 1 i _ _ _ _ _ Hi)).
    - cbn; lia.
    - intros r j I Hj. unfold rows in I. cbn in I. assert (Q0 : Q2R 0 = 0%R) by (unfold Q2R; cbn; lra). assert (Q1 : Q2R 1 = 1%R) by (unfold Q2R; cbn; lra). assert (Q2 : Q2R 2 = 2%R) by (unfold Q2R; cbn; lra). assert (Q3 : Q2R 3 = 3%R) by (unfold Q2R; cbn; lra).
      destruct I as [<-|[<-|[]]]; destruct j as [|[|[|j]]]; try lia; rewrite ?Q0, ?Q1, ?Q2, ?Q3; cbn; lra.
    - intros j _. apply not_0_INR. lia.
    - unfold rows, rmean, rlen. cbn. unfold Q2R. cbn. lra.
    - lia. }
  assert (TR : triple_result f52 [1; 2; 3] 1 2 = combine ["b"; "c"; "d"]%string (map (tc_beta (cov1 rows) 1) [0; 1; 2])) by reflexivity.
  rewrite TR. cbn [map combine]. rewrite !NF by lia. cbn [nth map f52 fst]. split; [left|right; left]; f_equal; f_equal; cbn; field.
Qed.
(* ... and references after the third column raise an error *)
Theorem C52_late_reference_refuted f nr r : well_formed f nr -> 1 <= nr -> 4 <= ncols f -> (forall c, In c f -> Forall (fun x => x <> None) (snd c)) ->
  3 <= r < ncols f -> df_tcol_metrics f (Some r) = Err EIndex.
Proof.
  intros WF NR K NM [R3 RK]. unfold df_tcol_metrics.
  assert (TE : forall x y z, tcol_method r [x; y; z] = Err EIndex).
  { intros x y z. unfold tcol_method, tcol_metrics, tcol_metrics_from_cov. destruct (Nat.ltb_spec r 3); [lia|]. match goal with |- context [np_cov ?q] => destruct (np_cov q) end; reflexivity. }
  destruct (dropna_ok f nr 3 WF ltac:(lia) (or_intror eq_refl)) as (args & EA).
  assert (LA : exists x y z, args = [x; y; z]). { unfold array_dropna in EA. cbn [seq map] in EA. destruct (logical_or _) as [m|]; [|discriminate]. cbn in EA. injection EA as <-. eauto. }
  destruct LA as (x & y & z & ->). destruct (tcol_method_ok 0 x y z ltac:(lia)) as (s0 & e0 & b0 & E0).
  unfold nwise_apply, nwise_rows. destruct (Nat.ltb_spec (ncols f) 3); [lia|]. rewrite EA. cbn [bindR]. rewrite E0. cbn [bindR].
  fold (combs_of f 3 true (MList [r])). fold (masks0 f).
  assert (NE : combs_of f 3 true (MList [r]) <> []).
  { intros E. assert (I : In [0; 1; r] (combs_of f 3 true (MList [r]))); [|rewrite E in I; contradiction].
    apply (C63_combinations Nat.eqb (fun i => negb (Nat.eqb i 0)) Nat.eqb_eq). split; [|split; [reflexivity|intros v [<-|[]]; right; right; left; reflexivity]].
    apply selection_sublist. destruct (ncols f) as [|[|n]] eqn:EN; try lia. cbn [seq]. apply sub_take, sub_take.
    assert (G : forall k b, b <= r -> r < b + k -> sublist [r] (seq b k)).
    { clear. induction k as [|k IH]; intros b B J; [lia|]. cbn [seq]. destruct (Nat.eq_dec b r) as [->|NE]; [apply sub_take; constructor|apply sub_skip, IH; lia]. }
    apply G; lia. }
  destruct (combs_of f 3 true (MList [r])) as [|comb cs] eqn:EC; [congruence|]. cbn [nwise_loop].
  assert (I : In comb (combs_of f 3 true (MList [r]))) by (rewrite EC; left; reflexivity). apply combs_of_in in I as (L & _ & B & _).
  rewrite (clean3 f nr WF comb NM L B). cbn [bindR fst snd]. rewrite (args_complete f nr WF) by exact B. rewrite exists_complete.
  destruct (cases_full f nr comb WF NM B) as [E1 E2]. rewrite E1, E2. destruct nr as [|nr']; [lia|]. cbn [seq].
  destruct comb as [|i [|j [|k [|l w]]]]; try discriminate L. cbn [map]. rewrite TE. reflexivity.
Qed.

(* concrete: the hypotheses of the positive theorem hold for a frame with four columns *)
Example f52_ok : well_formed f52 2 /\ 3 <= ncols f52 /\ (forall c, In c f52 -> Forall (fun x => x <> None) (snd c)) /\
  n_combinations Nat.eqb (fun i => negb (Nat.eqb i 0)) (seq 0 (ncols f52)) 3 (MList [0]) false = [[0; 1; 2]; [0; 1; 3]; [0; 2; 3]].
Proof.
  split; [split; [vm_compute; repeat constructor; cbn; intuition congruence|intros c [<-|[<-|[<-|[<-|[]]]]]; reflexivity]|].
  split; [vm_compute; lia|]. split; [|reflexivity]. intros c [<-|[<-|[<-|[<-|[]]]]]; repeat constructor; discriminate.
Qed.

Print Assumptions C63_combinations.
Print Assumptions C63_permutations.
Print Assumptions C63_once.
Print Assumptions C63_zero_refuted.
Print Assumptions C53_pairs.
Print Assumptions C53_triples_partial.
Print Assumptions C53_triples_refuted.
Print Assumptions C53_foreign_rows_refuted.
Print Assumptions C54_symmetric_partial.
Print Assumptions C54_wrong_entry.
Print Assumptions C54_lower_entries.
Print Assumptions C54_not_commutative.
Print Assumptions C54_symmetric_refuted.
Print Assumptions C54_pairwise_symmetric.
Print Assumptions C54_pairwise_values.
Print Assumptions C52_reference_partial.
Print Assumptions C52_reference_refuted.
Print Assumptions C52_late_reference_refuted.
