(* Property theorems C30, C31: temporal matchers of the validation framework. *)
From Verif Require Import MatchersSpec BaseProofs SortProofs NamesProofs TemporalProofs MatchersProofs.
From Verif Require Import TemporalModel TemporalSpec.

Definition ex_dfs : df_dict :=
  [("b", mkFrame ["sm"] [(0, [Some 1%Q]); (10, [Some 2%Q])]);
   ("ref", mkFrame ["x"; "y"] [(0, [Some 5%Q; None]); (11, [Some 6%Q; Some 7%Q])]);
   ("a", mkFrame ["sm"] [(1, [Some 3%Q]); (30, [None])])]%string.

(* ---- C30 ----
   The result holds, per alphabetical (n-1)-subset of the other datasets, the frame of all
   reference rows next to the nearest rows of these datasets, without the all-missing rows;
   subsets with an empty frame are left out and there are no further entries. *)
Theorem C30_combinatory_matcher_partial :
  forall (store : cell -> cell) (oob w : Z) (dfs : df_dict) (refkey : string) (n : nat) (ref : frame),
    NoDup (map fst dfs) -> In (refkey, ref) dfs -> (1 <= n)%nat ->
    (forall k f, In (k, f) dfs -> k <> refkey -> usable f) ->
    exists out, combinatory_matcher store oob w dfs refkey n = Ok out /\ NoDup (map fst out) /\
      (forall key f, In (key, f) out -> exists s, key = refkey :: s /\ name_subset dfs refkey (n - 1) s) /\
      (forall s, name_subset dfs refkey (n - 1) s ->
         exists f, NoDup (findex f) /\
           fcols f = columns_named (refkey, ref) ++ flat_map columns_named (pick dfs s) /\
           (forall t r, In (t, r) (frows f) <->
              matched_row ref (map snd (pick dfs s)) w t r /\ exists c, In c r /\ c <> None) /\
           (frows f <> [] -> In (refkey :: s, f) out) /\
           (frows f = [] -> ~ In (refkey :: s) (map fst out))).
Proof. exact combinatory_spec. Qed.
Print Assumptions C30_combinatory_matcher_partial.

Theorem C30_unknown_reference :
  forall (store : cell -> cell) (oob w : Z) (dfs : df_dict) (refkey : string) (n : nat),
    ~ In refkey (map fst dfs) -> combinatory_matcher store oob w dfs refkey n = Err EValue.
Proof. exact combinatory_unknown_ref. Qed.

(* column names of different datasets never clash *)
Theorem C30_column_names_distinct :
  forall a b a' b' : string, tup a b = tup a' b' -> a = a' /\ b = b'.
Proof. exact tup_inj. Qed.

Lemma ex_usable : forall k f, In (k, f) ex_dfs -> usable f.
Proof.
  intros k f [E|[E|[E|[]]]]; injection E as <- <-; (split; [intros t r H; cbn in H; repeat (destruct H as [H|H]; [injection H as <- <-; reflexivity|]); contradiction|]);
    apply chronological_monotone, sortedb_spec; reflexivity.
Qed.
Example C30_ex : exists f, combinatory_matcher (fun c => c) 0 2 ex_dfs "ref" 3 = Ok [(["ref"; "a"; "b"]%string, f)] /\
  frows f = [(0, [Some 5%Q; None; Some 1%Q; Some 3%Q]); (11, [Some 6%Q; Some 7%Q; Some 2%Q; None])] /\
  NoDup (map fst ex_dfs) /\ name_subset ex_dfs "ref" 2 ["a"; "b"]%string.
Proof.
  eexists. split; [vm_compute; reflexivity|]. split; [reflexivity|]. split; [repeat constructor; cbn; intuition discriminate|].
  split; [reflexivity|]. split.
  - repeat constructor; discriminate.
  - intros x [<-|[<-|[]]]; cbn; split; [tauto|discriminate|tauto|discriminate].
Qed.

(* A frame is delivered although no observation of the other dataset was matched: unmatched
   reference rows are kept. *)
Theorem C30_unmatched_rows_refuted :
  exists (w : Z) (dfs : df_dict) (out : list (list string * frame)) (f : frame),
    NoDup (map fst dfs) /\ (forall k g, In (k, g) dfs -> usable g) /\
    combinatory_matcher (fun c => c) 0 w dfs "ref" 2 = Ok out /\
    In (["ref"; "a"]%string, f) out /\
    forall t r, In (t, r) (frows f) -> nth 1 r None = None.
Proof.
  exists 1, [("ref", mkFrame ["x"] [(0, [Some 1%Q]); (5, [Some 2%Q])]); ("a", mkFrame ["y"] [(100, [Some 3%Q])])]%string.
  eexists. eexists. split; [repeat constructor; cbn; intuition discriminate|]. split.
  - intros k g [E|[E|[]]]; injection E as <- <-; (split; [intros t r H; cbn in H; repeat (destruct H as [H|H]; [injection H as <- <-; reflexivity|]); contradiction|]);
      apply chronological_monotone, sortedb_spec; reflexivity.
  - split; [vm_compute; reflexivity|]. split; [left; reflexivity|].
    intros t r [E|[E|[]]]; injection E as <- <-; reflexivity.
Qed.
Print Assumptions C30_unmatched_rows_refuted.

(* ---- C31 ----
   All datasets next to each other at the reference times at which every cell has a value. *)
Theorem C31_combined_matcher :
  forall (store : cell -> cell) (oob hour : Z) (window : option Z) (dfs : df_dict) (refname : string) (n : option nat) (ref : frame),
    NoDup (map fst dfs) -> In (refname, ref) dfs ->
    (forall k f, In (k, f) dfs -> k <> refname -> usable f) ->
    match n with Some m => m = List.length dfs | None => True end ->
    let others := filter (fun e => negb (String.eqb (fst e) refname)) dfs in
    let w := match window with Some w => w | None => hour end in
    exists f, combined_matcher store oob hour window dfs refname n = Ok [(refname :: map fst others, f)] /\
      NoDup (findex f) /\ fcols f = columns_named (refname, ref) ++ flat_map columns_named others /\
      forall t r, In (t, r) (frows f) <-> matched_row ref (map snd others) w t r /\ forall c, In c r -> c <> None.
Proof. exact combined_matcher_spec. Qed.
Print Assumptions C31_combined_matcher.

Theorem C31_wrong_number_of_datasets :
  forall (store : cell -> cell) (oob hour : Z) (window : option Z) (dfs : df_dict) (refname : string) (n : nat),
    n <> List.length dfs -> combined_matcher store oob hour window dfs refname (Some n) = Ok [].
Proof. exact combined_matcher_wrong_number. Qed.
Print Assumptions C31_wrong_number_of_datasets.

(* consequence: every delivered row belongs to the reference, is complete, and the values of each
   dataset come from one of its observations within the window *)
Theorem C31_within_window :
  forall (ref : frame) (others : list frame) (w t : Z) (r : row),
    matched_row ref others w t r -> (forall c, In c r -> c <> None) ->
    (forall o, In o others -> fcols o <> []) ->
    has_time ref t /\ forall o, In o others -> exists s row, In (s, row) (frows o) /\ Z.abs (s - t) <= w /\
      forall c, In c row -> In c r.
Proof.
  intros ref others w t r (rr & rs & F & F2 & ->) K Hc. split.
  { exists rr. apply find_some in F. tauto. }
  assert (G : forall c, In c (List.concat rs) -> c <> None) by (intros c H; apply K, in_or_app; right; exact H).
  assert (I : forall c, In c (List.concat rs) -> In c (rr ++ List.concat rs)) by (intros; apply in_or_app; right; assumption).
  clear K F. revert Hc G I. generalize (rr ++ List.concat rs) as whole.
  intros whole. induction F2 as [|o row os rs Ho F2 IH]; intros Hc G I o' Hin; [contradiction|].
  destruct Hin as [<-|Hin].
  - destruct Ho as [(s & Fs & D & _)|[-> _]].
    + exists s, row. apply find_some in Fs as [Fs _]. split; [exact Fs|]. split; [exact D|].
      intros c Hcr. apply I. cbn. apply in_or_app. left. exact Hcr.
    + exfalso. destruct (fcols o) as [|c cs] eqn:E; [exact (Hc o (or_introl eq_refl) E)|].
      apply (G None); [cbn; left; reflexivity|reflexivity].
  - apply IH; [intros; apply Hc; right; assumption|intros; apply G|intros; apply I|exact Hin]; cbn; apply in_or_app; right; assumption.
Qed.
Print Assumptions C31_within_window.

Example C31_ex : exists f, combined_matcher (fun c => c) 0 1 (Some 2) ex_dfs "ref" (Some 3%nat) = Ok [(["ref"; "b"; "a"]%string, f)] /\
  frows f = [].
Proof. eexists. split; [vm_compute; reflexivity|reflexivity]. Qed.
Example C31_ex2 : exists f, combined_matcher (fun c => c) 0 1 (Some 2)
   [("ref", mkFrame ["x"] [(0, [Some 5%Q]); (11, [Some 6%Q]); (40, [Some 8%Q])]); ("b", mkFrame ["sm"] [(1, [Some 1%Q]); (12, [Some 2%Q]); (30, [None])])]%string
   "ref" None = Ok [(["ref"; "b"]%string, f)] /\ frows f = [(0, [Some 5%Q; Some 1%Q]); (11, [Some 6%Q; Some 2%Q])].
Proof. eexists. split; [vm_compute; reflexivity|reflexivity]. Qed.
