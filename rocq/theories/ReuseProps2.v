(* C103, tightening: when a construction without masking succeeds and what it raises otherwise. *)
From Coq Require Import List String Bool Arith Lia.
From Verif Require Import Base MatchersModel GroupingModel MatchersProofs ResultsProofs StartProofs4 ReuseModel ReuseProofs ReuseProps.
Import ListNotations.
Open Scope string_scope.
Open Scope list_scope.

(* the reference is one of the datasets and has a reader; every calculator is for at least as many datasets as there are *)
Definition reference_given (d : dct) (ref : string) : Prop := exists s, dict_get d ref = Some s /\ dict_get s "class" <> None.
Definition calculators_fit (d : dct) (calcs : list (nat * nat)) : Prop := forall n k, In (n, k) calcs -> (List.length d <= n)%nat.

Theorem C103_accepted h r loc : r_data r = GDict loc -> r_mask r = None -> (loc < List.length h)%nat ->
  ((exists v, snd (v_init h r) = Ok v) <-> reference_given (contents h loc) (r_sref r) /\ calculators_fit (contents h loc) (r_calcs r)) /\
  (~ reference_given (contents h loc) (r_sref r) -> snd (v_init h r) = Err EKey) /\
  (reference_given (contents h loc) (r_sref r) -> ~ calculators_fit (contents h loc) (r_calcs r) -> snd (v_init h r) = Err EValue).
Proof.
  intros ED EM L.
  assert (N : nth_error h loc = Some (contents h loc)) by (apply nth_error_nth'; exact L).
  assert (CL : forall s, has (fill s) "class" = true <-> dict_get s "class" <> None).
  { intros s. unfold has. rewrite fill_get. destruct (dict_get s "class") as [v|] eqn:E; [split; [discriminate|reflexivity]|].
    cbn. split; [discriminate|congruence]. }
  assert (CO : forall m, m_loc m = loc -> calcs_ok (set_at h loc (add_default_values (contents h loc))) m (r_calcs r) = true <-> calculators_fit (contents h loc) (r_calcs r)).
  { intros m EL. unfold calcs_ok, calculators_fit. rewrite EL, contents_same by exact L.
    assert (LN : List.length (add_default_values (contents h loc)) = List.length (contents h loc)) by (unfold add_default_values; apply map_length).
    rewrite LN, forallb_forall. split.
    - intros H n k I. specialize (H (n, k) I). cbn in H. apply negb_true_iff, Nat.ltb_ge in H. exact H.
    - intros H [n k] I. cbn. apply negb_true_iff, Nat.ltb_ge. exact (H n k I). }
  unfold v_init. rewrite ED, EM. unfold dm_init. rewrite N, add_use_lut_none, add_defaults_get. unfold reference_given.
  destruct (dict_get (contents h loc) (r_sref r)) as [s|] eqn:G; cbn [option_map].
  - destruct (has (fill s) "class") eqn:HC.
    + assert (RG : exists s0, Some s = Some s0 /\ dict_get s0 "class" <> None) by (exists s; split; [reflexivity|apply CL, HC]).
      cbn zeta. match goal with |- context [calcs_ok ?a ?m ?c] => pose proof (CO m eq_refl) as CM; destruct (calcs_ok a m c) eqn:E end; cbn [negb].
      * split; [|split].
        -- split; [intros _; split; [exact RG|apply CM; reflexivity]|intros _; cbn; eexists; reflexivity].
        -- intros NR. contradiction.
        -- intros _ NC. exfalso. apply NC, CM. reflexivity.
      * split; [|split; [intros NR; contradiction|reflexivity]].
        split; [intros (v & H); cbn in H; discriminate|]. intros (_ & C). apply CM in C. discriminate.
    + assert (NR : ~ exists s0, Some s = Some s0 /\ dict_get s0 "class" <> None).
      { intros (s0 & E & C). injection E as <-. apply CL in C. congruence. }
      split; [|split; [reflexivity|intros RG; contradiction]]. split; [intros (v & H); cbn in H; discriminate|intros (RG & _); contradiction].
  - assert (NR : ~ exists s0 : spec, None = Some s0 /\ dict_get s0 "class" <> None) by (intros (s0 & E & _); discriminate).
    split; [|split; [reflexivity|intros RG; contradiction]]. split; [intros (v & H); cbn in H; discriminate|intros (RG & _); contradiction].
Qed.
Print Assumptions C103_accepted.

(* two datasets: calculators for two and for three datasets are accepted, a calculator for a single dataset is not, even
   next to one that fits *)
Example C103_ex_accepted :
  let h := [[("a", [("class", DObj 0)]); ("b", [("class", DObj 1)])]] in
  let r c := Request (GDict 0) "a" c None None None in
  (exists v, snd (v_init h (r [(2, 2); (3, 2)]%nat)) = Ok v) /\ snd (v_init h (r [(2, 2); (1, 2)]%nat)) = Err EValue /\
  snd (v_init h (Request (GDict 0) "c" [] None None None)) = Err EKey.
Proof. split; [eexists; vm_compute; reflexivity|]. split; vm_compute; reflexivity. Qed.

(* the manager of a validation: its reference, all other datasets in the given order, and the method `read` for every
   dataset; the references default to the spatial reference *)
Theorem C103_manager_contents h r loc h1 v : r_data r = GDict loc -> r_mask r = None -> NoDup (map fst (contents h loc)) -> v_init h r = (h1, Ok v) ->
  m_ref (v_dm v) = r_sref r /\ ~ In (r_sref r) (m_other (v_dm v)) /\
  (exists before after, map fst (contents h loc) = before ++ r_sref r :: after /\ m_other (v_dm v) = before ++ after) /\
  m_fun (v_dm v) = map (fun n => (n, "read")) (map fst (contents h loc)) /\
  v_tref v = match r_tref r with Some t => t | None => r_sref r end /\ v_scaling_ref v = match r_scaling_ref r with Some t => t | None => r_sref r end /\ v_masking v = None.
Proof.
  intros ED EM N E. unfold v_init in E. rewrite ED, EM in E. unfold dm_init in E.
  destruct (nth_error h loc) as [d|] eqn:EN; [|discriminate].
  assert (EC : contents h loc = d) by (unfold contents; now apply nth_error_nth). rewrite EC in *. rewrite add_use_lut_none in E.
  rewrite add_defaults_get in E. destruct (dict_get d (r_sref r)) as [s|] eqn:G; cbn [option_map] in E; [|discriminate].
  destruct (has (fill s) "class"); [|discriminate]. cbn zeta in E. match type of E with context [negb ?cc] => destruct cc; [|discriminate] end.
  cbn [negb] in E. injection E as <- <-. cbn [v_dm m_ref m_other m_fun v_tref v_scaling_ref v_masking].
  split; [reflexivity|]. split.
  - intros I. apply filter_In in I as (_ & I). rewrite String.eqb_refl in I. discriminate.
  - split; [|split; [|repeat split]].
    + rewrite add_defaults_names. assert (I : In (r_sref r) (map fst d)) by (apply (dict_get_in d) in G; [apply (in_map fst) in G; exact G|exact N]).
      apply in_split in I as (b & a & Eb). exists b, a. split; [exact Eb|]. rewrite Eb in N |- *. rewrite filter_app. cbn [filter]. rewrite String.eqb_refl. cbn [negb].
      apply NoDup_remove in N as (_ & N). assert (K : forall l, ~ In (r_sref r) l -> filter (fun n => negb (String.eqb n (r_sref r))) l = l).
      { induction l as [|x l IH]; intros NI; [reflexivity|]. cbn. destruct (String.eqb_spec x (r_sref r)) as [E|_]; [exfalso; apply NI; left; exact E|]. cbn. f_equal. apply IH. intros I. apply NI. right. exact I. }
      rewrite !K; [reflexivity| |]; intros I; apply N, in_or_app; tauto.
    + unfold add_default_values. rewrite !map_map. reflexivity.
Qed.
Print Assumptions C103_manager_contents.
Example C103_ex_contents : let h := [[("a", [("class", DObj 0)]); ("b", [("class", DObj 1)]); ("c", [("class", DObj 2)])]] in
  exists h1 v, v_init h (Request (GDict 0) "b" [(3, 2)%nat] None None (Some "c")) = (h1, Ok v) /\ m_other (v_dm v) = ["a"; "c"] /\ v_tref v = "b" /\ v_scaling_ref v = "c".
Proof. eexists _, _. split; [vm_compute; reflexivity|]. repeat split. Qed.
