(* CDF matching with percentiles given as a list (C109). *)
From Verif Require Import CdfSeqModel CdfSeqSpec ScalingModel CdfSeqProofs.
From Coq Require Import Lqa Lia Permutation.
Open Scope Q_scope.

(* percentiles given as an array: what the other theorems about CDF matching speak of *)
Theorem C109_array : forall o max_val min_val src ref,
  cdf_match_seq AsArray o max_val min_val src ref = cdf_match o max_val min_val src ref.
Proof. intros. unfold cdf_match_seq, cdf_match. rewrite fit_array. reflexivity. Qed.
Print Assumptions C109_array.

(* given as a list the result is the same, or there is a TypeError *)
Theorem C109_list_same_or_error : forall o max_val min_val src ref,
  cdf_match_seq AsList o max_val min_val src ref = cdf_match_seq AsArray o max_val min_val src ref \/
  cdf_match_seq AsList o max_val min_val src ref = Err EType.
Proof.
  intros. unfold cdf_match_seq. rewrite fit_array. destruct (fit_list o src ref) as [E|E]; rewrite E; [left|right]; reflexivity.
Qed.
Print Assumptions C109_list_same_or_error.

(* there is one exactly if no bin had to be resized and two of the percentiles of the source or of the
   reference have the same value *)
Theorem C109_list_error : forall o ps max_val min_val src ref,
  c_percentiles o = Some ps -> percentile_list ps ->
  fit_source o src ref <> [] -> fit_reference o src ref <> [] ->
  (c_linear_edges o = false \/ (3 <= List.length ps)%nat) ->
  (cdf_match_seq AsList o max_val min_val src ref = Err EType <->
   bins_kept o ps (Nat.min (List.length (fit_source o src ref)) (List.length (fit_reference o src ref))) /\
   (tied (fit_source o src ref) ps \/ tied (fit_reference o src ref) ps)).
Proof.
  intros o ps mx mn src ref Ep P NX NY D. rewrite <- (list_raises o ps src ref Ep P NX NY D). unfold cdf_match_seq. apply mapR_err.
Qed.
Print Assumptions C109_list_error.

(* there is none if percentiles of the same sample have different values *)
Theorem C109_no_ties : forall o ps max_val min_val src ref,
  c_percentiles o = Some ps -> percentile_list ps ->
  fit_source o src ref <> [] -> fit_reference o src ref <> [] ->
  (c_linear_edges o = false \/ (3 <= List.length ps)%nat) ->
  (forall data, data = fit_source o src ref \/ data = fit_reference o src ref ->
     forall p q v, In p ps -> In q ps -> p < q -> percentile_of data p v -> percentile_of data q v -> ~ non_constant data) ->
  cdf_match_seq AsList o max_val min_val src ref = cdf_match_seq AsArray o max_val min_val src ref.
Proof.
  intros o ps mx mn src ref Ep P NX NY D H. destruct (C109_list_same_or_error o mx mn src ref) as [E|E]; [exact E|]. exfalso.
  apply (C109_list_error o ps mx mn src ref Ep P NX NY D) in E as [_ [[NC (p & q & v & A & B & C & F & G)]|[NC (p & q & v & A & B & C & F & G)]]].
  - exact (H _ (or_introl eq_refl) p q v A B C F G NC).
  - exact (H _ (or_intror eq_refl) p q v A B C F G NC).
Qed.
Print Assumptions C109_no_ties.

(* so a list works for observations that are all different, as long as there is at most one percentile up to
   the rank of the smallest and at most one from the rank of the largest observation on *)
Theorem C109_different_observations : forall o ps max_val min_val src ref,
  c_percentiles o = Some ps -> percentile_list ps ->
  fit_source o src ref <> [] -> fit_reference o src ref <> [] ->
  (c_linear_edges o = false \/ (3 <= List.length ps)%nat) ->
  (forall data, data = fit_source o src ref \/ data = fit_reference o src ref ->
     (forall i j a b, nth_error data i = Some a -> nth_error data j = Some b -> a == b -> i = j) /\
     (forall p q, In p ps -> In q ps -> p < q -> rank (List.length data) 0 < q /\ p < rank (List.length data) (List.length data - 1))) ->
  cdf_match_seq AsList o max_val min_val src ref = cdf_match_seq AsArray o max_val min_val src ref.
Proof.
  intros o ps mx mn src ref Ep P NX NY D H. apply (C109_no_ties o ps mx mn src ref Ep P NX NY D). intros data Hd p q v A B L F G NC.
  destruct (H data Hd) as [H1 H2]. apply (different_values data ps H1 H2). split; [exact NC|]. exists p, q, v. auto 10.
Qed.
Print Assumptions C109_different_observations.

Section Ex.
Let cells (l : list Z) : list cell := map (fun z => Some (inject_Z z)) l.
(* the percentiles of CDFStoreParamsScaler, its default *)
Let nine : list Q := map inject_Z [0; 5; 10; 30; 50; 70; 90; 95; 100]%Z.
Let rain : list cell := cells [0; 0; 0; 0; 3; 0; 0; 12; 5; 0]%Z.
Let soil : list cell := cells [20; 25; 24; 22; 21; 29; 28; 27; 26; 23]%Z.
Let plain := mkCdf 100 (Some nine) None false true.
(* the steps of 5 per cent hold only half an observation *)
Let resized := mkCdf 100 (Some nine) (Some 1%Z) false true.
Let quartiles : list Q := map inject_Z [0; 25; 50; 75; 100]%Z.
Let few := mkCdf 100 (Some quartiles) None true true.

Lemma nine_list : percentile_list nine.
Proof. split; [repeat constructor; vm_compute; reflexivity|]. split; vm_compute; reflexivity. Qed.

(* a source with many zeros: an array works, a list does not, and after a resizing it does again *)
Example C109_ex_ties :
  c_percentiles plain = Some nine /\ percentile_list nine /\
  fit_source plain rain soil <> [] /\ fit_reference plain rain soil <> [] /\
  cdf_match_seq AsList plain None None rain soil = Err EType /\
  (exists out, cdf_match_seq AsArray plain None None rain soil = Ok out) /\
  (exists out, cdf_match_seq AsList resized None None rain soil = Ok out).
Proof.
  split; [reflexivity|]. split; [exact nine_list|]. split; [vm_compute; discriminate|]. split; [vm_compute; discriminate|].
  split; [vm_compute; reflexivity|]. split; eexists; vm_compute; reflexivity.
Qed.
(* ten different values and the four quarters *)
Example C109_ex_distinct : percentile_list quartiles /\ (3 <= List.length quartiles)%nat /\
  (forall p q, In p quartiles -> In q quartiles -> p < q -> rank 10 0 < q /\ p < rank 10 9) /\
  exists out, cdf_match_seq AsList few None None soil soil = Ok out /\ cdf_match_seq AsArray few None None soil soil = Ok out.
Proof.
  split; [split; [repeat constructor; vm_compute; reflexivity|split; vm_compute; reflexivity]|]. split; [vm_compute; repeat constructor|].
  split.
  { intros p q A B. vm_compute in A. vm_compute in B.
    repeat (destruct A as [<-|A]); try contradiction; repeat (destruct B as [<-|B]); try contradiction;
      (intros L; first [vm_compute in L; discriminate|split; vm_compute; reflexivity]). }
  eexists. split; vm_compute; reflexivity.
Qed.

(* any increasing percentiles from 0 to 100 are a sequence as documented, but not all work as a list *)
Theorem C109_list_refuted : exists o ps src ref out,
  c_percentiles o = Some ps /\ percentile_list ps /\ non_constant (fit_source o src ref) /\ non_constant (fit_reference o src ref) /\
  cdf_match_seq AsArray o None None src ref = Ok out /\ ~ In None out /\ cdf_match_seq AsList o None None src ref = Err EType.
Proof.
  exists plain, nine, rain, soil. eexists. split; [reflexivity|]. split; [exact nine_list|].
  split; [exists (inject_Z 0), (inject_Z 3); vm_compute; intuition discriminate|].
  split; [exists (inject_Z 20), (inject_Z 25); vm_compute; intuition discriminate|].
  split; [vm_compute; reflexivity|]. split; [cbn; intuition discriminate|vm_compute; reflexivity].
Qed.
End Ex.
Print Assumptions C109_list_refuted.

(* on a sample with as many observations as the first step needs, the two lowest percentiles are both the
   minimum: with steps finer than the sample, ties are the rule even if all observations differ *)
Theorem C109_fine_steps : forall data ps p q,
  non_constant data -> In p ps -> In q ps -> p < q -> q <= rank (List.length data) 0 -> tied data ps.
Proof.
  intros data ps p q NC Hp Hq L B. split; [exact NC|].
  assert (N : data <> []) by (intros E; subst; destruct NC as (u & _ & [] & _)).
  destruct (q_sort data) as [|a s] eqn:E; [exfalso; apply (sort_ne data N E)|].
  exists p, q, a.
  assert (LS : List.length (a :: s) = List.length data) by (rewrite <- E; apply CdfProofs.q_sort_length).
  split; [exact Hp|]. split; [exact Hq|]. split; [exact L|]. split; exists (a :: s); rewrite <- E; (split; [apply CdfProofs.q_sort_perm|]); (split; [apply CdfProofs.q_sort_sorted|]); cbn zeta; left; exists a; rewrite E, LS; (split; [reflexivity|]); (split; [lra|reflexivity]).
Qed.
Print Assumptions C109_fine_steps.
(* ten observations have their first rank at 5 per cent *)
Example C109_ex_fine : rank 10 0 == 5 /\
  tied (map inject_Z [20; 25; 24; 22; 21; 29; 28; 27; 26; 23]%Z) (map inject_Z [0; 5; 10; 30; 50; 70; 90; 95; 100]%Z).
Proof.
  split; [vm_compute; reflexivity|]. apply C109_fine_steps with (p := inject_Z 0) (q := inject_Z 5).
  - exists (inject_Z 20), (inject_Z 25). vm_compute. intuition discriminate.
  - left. reflexivity.
  - right. left. reflexivity.
  - vm_compute. reflexivity.
  - vm_compute. discriminate.
Qed.
