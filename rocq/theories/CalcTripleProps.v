(* C58: the values stored by the triple collocation calculators, by name. *)
From Coq Require Import Reals Qreals List Lra Lia.
From Verif Require Import Base BaseProofs Calendar NamesModel NamesProofs GroupingModel RStats MetricsModel RollingModel TcolModel TcolProofs ConfintModel
  ConfintProofs2 StoredProofs DfMetricsModel DfMetricsSpec DfMetricsProofs DfMetricsProofs2 DfMetricsProps.
From Verif Require Import CalcModel CalcSpec CalcProofs CalcProofs2 CalcProofs3 CalcProofs4.
Open Scope string_scope.
Open Scope list_scope.

(* the rows given to the triple collocation: row i holds the i-th values of the three series *)
Theorem C58_triple_rows (u v w : list Q) : List.length v = List.length u -> List.length w = List.length u ->
  exists rows, tc_rows (map Some u) (map Some v) (map Some w) = Some rows /\ List.length rows = List.length u /\
    forall i row, nth_error rows i = Some row -> row 0%nat = Q2R (nth i u 0%Q) /\ row 1%nat = Q2R (nth i v 0%Q) /\ row 2%nat = Q2R (nth i w 0%Q).
Proof.
  intros L1 L2. assert (A : forall l : list Q, all_some (rcol (map Some l)) = Some (map Q2R l)).
  { intros l. unfold rcol. rewrite map_map. induction l as [|q l IH]; [reflexivity|]. cbn [map]. change (all_some (Some (Q2R q) :: map (fun x => omap Q2R (Some x)) l) = Some (Q2R q :: map Q2R l)). cbn [all_some]. rewrite IH. reflexivity. }
  unfold tc_rows. rewrite !A. cbn [obind omap]. eexists. split; [reflexivity|]. split.
  - rewrite map_length, !combine_length, !map_length. lia.
  - intros i row H. rewrite nth_error_map in H. destruct (nth_error (combine (combine (map Q2R u) (map Q2R v)) (map Q2R w)) i) as [[[a b] c]|] eqn:E; [|discriminate].
    cbn [option_map] in H. injection H as <-. cbn [fst snd].
    assert (I : (i < List.length u)%nat).
    { assert (X : (i < List.length (combine (combine (map Q2R u) (map Q2R v)) (map Q2R w)))%nat) by (apply nth_error_Some; congruence). rewrite !combine_length, !map_length in X. lia. }
    apply (nth_error_nth _ _ (0%R, 0%R, 0%R)) in E. rewrite !combine_nth in E by (rewrite ?combine_length, !map_length; lia).
    assert (N : forall l : list Q, (i < List.length l)%nat -> nth i (map Q2R l) 0%R = Q2R (nth i l 0%Q)).
    { intros l L. rewrite (nth_indep (map Q2R l) 0%R (Q2R 0%Q)) by (rewrite map_length; exact L). apply map_nth. }
    rewrite !N in E by lia. injection E as <- <- <-. auto.
Qed.
Print Assumptions C58_triple_rows.

Section Triple.
Variables (min_obs : nat) (meta : metadata) (ppf : R -> option R) (cdf : R -> R) (draws : string -> list (list nat)).
Lemma arrays_of f a b c x y z : column f a = Ok x -> column f b = Ok y -> column f c = Ok z -> tc_arrays f [a; b; c] = [x; y; z].
Proof. intros A B C. unfold tc_arrays. cbn [map]. rewrite A, B, C. reflexivity. Qed.

(* snr, err_std and beta of the three datasets, the reference first; with missing values only the scaling
   factor of the reference has a value, one *)
Theorem C58_triple_values refname o f i :
  good_meta meta i ["n_obs"] -> In refname (f_cols f) -> NoDup (f_cols f) -> List.length (f_cols f) = 3%nat -> (min_obs <= nrows f)%nat ->
  exists d b c, tc_calc min_obs meta ppf cdf draws refname false o f i = Ok d /\ NoDup [refname; b; c] /\ In b (f_cols f) /\ In c (f_cols f) /\
    forall x y z, column f refname = Ok x -> column f b = Ok y -> column f c = Ok z ->
    (forall rows snr err beta, tc_rows x y z = Some rows -> tcol_metrics rows 0 = Ok (snr, err, beta) -> forall k, (k < 3)%nat ->
       holds d ["snr"; nth k [refname; b; c] ""] (RNum (nth k snr None)) /\ holds d ["err_std"; nth k [refname; b; c] ""] (RNum (nth k err None)) /\
       holds d ["beta"; nth k [refname; b; c] ""] (RNum (nth k beta None))) /\
    (tc_rows x y z = None -> holds d ["beta"; refname] (RNum (Some 1%R)) /\ holds d ["beta"; b] (RNum None) /\ holds d ["beta"; c] (RNum None) /\
       forall k, (k < 3)%nat -> holds d ["snr"; nth k [refname; b; c] ""] (RNum None) /\ holds d ["err_std"; nth k [refname; b; c] ""] (RNum None)).
Proof.
  intros G IR ND L3 MO. destruct (tc_ok min_obs meta ppf cdf draws refname o f i G IR ND L3) as (others & d & H). cbv zeta in H.
  destruct H as (E & NN & MEM & _ & _ & _ & _ & OK). destruct (OK MO) as [_ VAL].
  assert (LO : List.length (refname :: others) = 3%nat).
  { rewrite <- L3. apply Permutation_length. apply NoDup_Permutation; [exact NN|exact ND|exact MEM]. }
  destruct others as [|b [|c [|? ?]]]; cbn in LO; try discriminate. exists d, b, c. split; [exact E|]. split; [exact NN|].
  split; [apply MEM; cbn; auto|]. split; [apply MEM; cbn; auto|]. intros x y z CX CY CZ.
  unfold estimates in VAL. rewrite (arrays_of f refname b c x y z CX CY CZ) in VAL. split.
  - intros rows snr err beta ER ET k K. rewrite ER in VAL. unfold tc_of in VAL. rewrite ET in VAL.
    split; [exact (VAL k 0%nat K ltac:(lia))|]. split; [exact (VAL k 1%nat K ltac:(lia))|exact (VAL k 2%nat K ltac:(lia))].
  - intros ER. rewrite ER in VAL. split; [exact (VAL 0%nat 2%nat ltac:(lia) ltac:(lia))|]. split; [exact (VAL 1%nat 2%nat ltac:(lia) ltac:(lia))|]. split; [exact (VAL 2%nat 2%nat ltac:(lia) ltac:(lia))|].
    intros k K. destruct k as [|[|[|k]]]; [| | |lia]; (split; [exact (VAL _ 0%nat K ltac:(lia))|exact (VAL _ 1%nat K ltac:(lia))]).
Qed.
End Triple.
Print Assumptions C58_triple_values.

Example C58_triple_values_ex : let f := Frame ["k1"; "ref"; "k2"] (map (fun n => (mkTs (mkDate 2000 1 (1 + n)) 0, [Some (inject_Z n); Some (inject_Z (n * n)); Some (inject_Z (n mod 3))])) [0; 1; 2; 3]%Z) in
  good_meta None (Info 1 0 0 None) ["n_obs"] /\ In "ref" (f_cols f) /\ NoDup (f_cols f) /\ List.length (f_cols f) = 3%nat /\ (4 <= nrows f)%nat.
Proof.
  cbv zeta. split; [intros m E; discriminate|]. split; [cbn; auto|]. split; [cbn; repeat constructor; cbn; intuition discriminate|]. split; [reflexivity|cbn; lia].
Qed.
