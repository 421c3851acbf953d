(* Property theorem C116_renaming: new names for the datasets in the same alphabetical order change nothing but the names. *)
From Verif Require Import RunSpec BaseProofs NamesProofs MatchersProofs ValidationProofs ValidationProofs2 RunProofs RunProps IndepProps.
From Verif Require Import TemporalModel TemporalSpec.
Open Scope Z_scope.

Definition renamed (rho : string -> string) (key : list dscol) : list dscol := map (fun p => (rho (fst p), snd p)) key.
(* the same data under the new names *)
Definition same_data (rho : string -> string) (dfs dfs' : df_dict) (names : list string) : Prop :=
  forall d f, In d names -> (In (d, f) dfs <-> In (rho d, f) dfs').
Definition distinguishes (rho : string -> string) (names : list string) : Prop :=
  forall a b, In a names -> In b names -> rho a = rho b -> a = b.

Lemma Forall2_mapped {A B C : Type} (P : A -> C -> Prop) (Q : B -> C -> Prop) (h : A -> B) (l : list A) : forall r,
  (forall x v, In x l -> (P x v <-> Q (h x) v)) -> (Forall2 P l r <-> Forall2 Q (map h l) r).
Proof.
  induction l as [|x l IH]; intros r H; cbn [map].
  - split; intros F; inversion F; constructor.
  - split; intros F; inversion F as [|? v ? r' F1 F2]; subst; constructor.
    + apply H; [left; reflexivity|exact F1].
    + apply IH; [intros y v' Y; apply H; right; exact Y|exact F2].
    + apply H; [left; reflexivity|exact F1].
    + apply IH; [intros y v' Y; apply H; right; exact Y|exact F2].
Qed.
Lemma compared_renamed rho dfs dfs' tref w key t r : distinguishes rho (tref :: map fst key) ->
  same_data rho dfs dfs' (tref :: map fst key) -> (compared dfs tref w key t r <-> compared dfs' (rho tref) w (renamed rho key) t r).
Proof.
  intros INJ SD.
  assert (OB : forall x v, In x key -> (observed dfs tref w t x v <-> observed dfs' (rho tref) w t (rho (fst x), snd x) v)).
  { intros x v IX. assert (IN : In (fst x) (tref :: map fst key)) by (right; apply in_map, IX). unfold observed. cbn [fst snd].
    assert (EQ : String.eqb (rho (fst x)) (rho tref) = String.eqb (fst x) tref).
    { destruct (String.eqb_spec (fst x) tref) as [->|N]; [apply String.eqb_refl|]. apply String.eqb_neq. intros E. apply N. apply INJ; [exact IN|left; reflexivity|exact E]. }
    rewrite EQ. split; intros (f & row & i & I & A); exists f, row, i; (split; [apply (SD _ f IN), I|exact A]). }
  unfold compared, renamed. rewrite (Forall2_mapped _ (observed dfs' (rho tref) w t) (fun p => (rho (fst p), snd p)) key r OB).
  assert (RF : (exists ref, In (tref, ref) dfs /\ has_time ref t) <-> (exists ref, In (rho tref, ref) dfs' /\ has_time ref t)).
  { split; intros (ref & I & T); exists ref; (split; [apply (SD tref ref (or_introl eq_refl)), I|exact T]). }
  rewrite RF. reflexivity.
Qed.

(* Two validations of the same data under different names: a combination that is listed in the same order under the new
   names gets the same metrics.  The calculator is the same and does not look at the names of an empty frame (they are the
   names of the datasets; frames with data have the columns ref, k1, ...). *)
Theorem C116_renaming {G V : Type} :
  forall (code : Z -> V) (c c' : @config G V) (rho : string -> string) F F' store oob w g dfs dfs' ignore only_ref only_ref' n n' k f key ref m m',
    plain_run c F -> plain_run c' F' ->
    (forall d r a, c_match c d r a = combinatory_matcher store oob w d r a) -> (forall d r a, c_match c' d r a = combinatory_matcher store oob w d r a) ->
    c_tref c' = rho (c_tref c) -> distinguishes rho (c_tref c :: map fst key) ->
    c_get c g = Ok dfs -> delivered (c_ds c) dfs -> c_get c' g = Ok dfs' -> delivered (c_ds c') dfs' ->
    same_data rho dfs dfs' (c_tref c :: map fst key) -> In (c_tref c, ref) dfs -> chronological (findex ref) ->
    (forall names names', f (mkFrame names []) g = f (mkFrame names' []) g) ->
    reported c only_ref n k f key -> reported c' only_ref' n' k f (renamed rho key) ->
    gpi_metrics code c ignore true only_ref g key m -> gpi_metrics code c' ignore true only_ref' g (renamed rho key) m' ->
    same_values m m'.
Proof.
  intros code c c' rho F F' store oob w g dfs dfs' ignore only_ref only_ref' n n' k f key ref m m' P P' M M' T INJ GET D GET' D' SD IR CH EF REP REP' GM GM'.
  destruct (C89_nearest_observations code c F store oob w g dfs ignore true only_ref n k f key P M GET D REP) as (rows & _ & S1 & R & O).
  destruct (C89_nearest_observations code c' F' store oob w g dfs' ignore true only_ref' n' k f _ P' M' GET' D' REP') as (rows' & _ & S1' & R' & O').
  rewrite T in S1', R'. assert (IR' : In (rho (c_tref c), ref) dfs') by (apply (SD _ ref (or_introl eq_refl)), IR).
  assert (E : rows = rows').
  { apply sorted_rows; [exact (S1 ref IR CH)|exact (S1' ref IR' CH)|]. intros [t r]. rewrite R, R'. apply compared_renamed; assumption. }
  subst rows'. specialize (O m GM). specialize (O' m' GM').
  assert (FW : forall s (x : list (field * fval V)), failed_with code f (renamed rho key) g s x -> failed_with code f key g s x).
  { intros s x (t & X & Y). exists t. split; [rewrite (EF _ (map fst (renamed rho key))); exact X|exact Y]. }
  apply (outcome_same code f (numbered k) key g rows); [exact O|]. unfold outcome in *. destruct rows; [apply FW, O'|]. destruct (f _ g); [exact O'|apply FW, O'].
Qed.

(* An order preserving renaming of all datasets keeps the order of the combinations. *)
Theorem C116_renaming_keeps_order :
  forall (rho : string -> string) (d : ds_dict) k key,
    (forall a b, In a (map fst d) -> In b (map fst d) -> str_lt a b -> str_lt (rho a) (rho b)) ->
    selection d k key -> selection (map (fun e => (rho (fst e), snd e)) d) k (renamed rho key).
Proof.
  intros rho d k key MON (L & S & I). split; [unfold renamed; rewrite map_length; exact L|]. split.
  - assert (IN : forall p, In p key -> In (fst p) (map fst d)) by (intros [a b] P; destruct (I a b P) as (cols & X & _); apply (in_map fst) in X; exact X).
    unfold renamed. rewrite map_map. cbn [fst]. clear I L. induction key as [|p key IH]; [constructor|]. cbn [map] in *. inversion S as [|? ? S1 S2]; subst. constructor.
    + apply IH; [exact S1|intros q Q; apply IN; right; exact Q].
    + rewrite Forall_forall in *. intros x X. apply in_map_iff in X as (q & <- & Q). apply MON; [apply IN; left; reflexivity|apply IN; right; exact Q|apply S2, in_map, Q].
  - intros ds col H. apply in_map_iff in H as ([a b] & E & H). injection E as <- <-. destruct (I a b H) as (cols & X & C). exists cols. split; [|exact C].
    apply in_map_iff. exists (a, cols). split; [reflexivity|exact X].
Qed.

(* ------------------------------------------------------- an example: the datasets a, b, d of C89 called m, n, p *)
Section Example.
Open Scope string_scope.
Definition rho3 (s : string) : string := if String.eqb s "a" then "m" else if String.eqb s "b" then "n" else if String.eqb s "d" then "p" else s.
Definition new_dfs : df_dict := map (fun e => (rho3 (fst e), snd e)) run_dfs.
Definition new_cfg : @config nat Q :=
  mkCfg [("m", ["x"]); ("n", ["y"]); ("p", ["z"])] "m" "m" "m" (fun _ => Ok new_dfs) (combinatory_matcher (fun c => c) 0 2) None [((3%nat, 2%nat), run_calc)] None.
Example C116_renaming_ex : calc inject_Z new_cfg true true false [0]%nat =
  VOk [([("m", "x"); ("n", "y")], [(FName "n", [2]%Q); (FName "sum", [19]%Q); (FName "status", [0]%Q)]);
       ([("m", "x"); ("p", "z")], [(FName "n", [2]%Q); (FName "sum", [31]%Q); (FName "status", [0]%Q)]);
       ([("n", "y"); ("p", "z")], [(FName "n", [1]%Q); (FName "sum", [20]%Q); (FName "status", [0]%Q)])].
Proof. vm_compute. reflexivity. Qed.
Example C116_renaming_hypotheses :
  plain_run new_cfg (fun _ => [FName "n"; FName "sum"; FName "status"]) /\ delivered (c_ds new_cfg) new_dfs /\
  same_data rho3 run_dfs new_dfs ["a"; "b"; "d"] /\ distinguishes rho3 ["a"; "b"; "d"] /\
  reported new_cfg false 3 2 run_calc (renamed rho3 [("b", "y"); ("d", "z")]) /\
  (forall a b, In a ["a"; "b"; "d"] -> In b ["a"; "b"; "d"] -> str_lt a b -> str_lt (rho3 a) (rho3 b)) /\
  (forall g names names', run_calc (mkFrame names []) g = run_calc (mkFrame names' []) g).
Proof.
  split; [|split; [|split; [|split; [|split; [|split; [|reflexivity]]]]]].
  - split; [|split; [reflexivity|split; [reflexivity|split; [left; reflexivity|]]]].
    + split; [|split].
      * split; [repeat constructor; cbn; intuition discriminate|]. intros d cols [E|[E|[E|[]]]]; injection E as <- <-; repeat constructor; intros [].
      * intros n k f [E|[]]. injection E as <- <- <-. lia.
      * repeat constructor; cbn; tauto.
    + intros n k f [E|[]]. injection E as <- <- <-. split; [reflexivity|]. split; [|split; [|split; [|split]]].
      * repeat constructor; cbn; intuition discriminate.
      * cbn. auto.
      * cbn. intros l H. intuition discriminate.
      * intros d g _. eexists. reflexivity.
      * intros d g mm E. injection E as <-. split; [reflexivity|]. cbn. intros k x H. intuition (match goal with H : (_, _) = (_, _) |- _ => injection H as <- <- end; eauto).
  - destruct C89_hypotheses as (_ & _ & (_ & _ & U) & _). split; [repeat constructor; cbn; intuition discriminate|]. split; [intros d; cbn; tauto|].
    intros d f [E|[E|[E|[]]]]; injection E as <- <-.
    + destruct (U "a" _ (or_introl eq_refl)) as (U1 & U2 & _). split; [exact U1|]. split; [exact U2|]. intros cols [E|[E|[E|[]]]]; try discriminate E; injection E as <-; intros x [<-|[]]; cbn; auto.
    + destruct (U "b" _ (or_intror (or_introl eq_refl))) as (U1 & U2 & _). split; [exact U1|]. split; [exact U2|]. intros cols [E|[E|[E|[]]]]; try discriminate E; injection E as <-; intros x [<-|[]]; cbn; auto.
    + destruct (U "d" _ (or_intror (or_intror (or_introl eq_refl)))) as (U1 & U2 & _). split; [exact U1|]. split; [exact U2|]. intros cols [E|[E|[E|[]]]]; try discriminate E; injection E as <-; intros x [<-|[]]; cbn; auto.
  - intros d f [<-|[<-|[<-|[]]]]; (split; intros [E|[E|[E|[]]]]; try discriminate E; injection E as <-; cbn; tauto).
  - intros a b [<-|[<-|[<-|[]]]] [<-|[<-|[<-|[]]]] E; try reflexivity; discriminate E.
  - split; [left; reflexivity|]. split; [|discriminate]. split; [reflexivity|]. split; [repeat constructor; discriminate|].
    intros d col [E|[E|[]]]; injection E as <- <-; eexists; (split; [cbn; eauto|left; reflexivity]).
  - intros a b [<-|[<-|[<-|[]]]] [<-|[<-|[<-|[]]]] [H N]; try (exfalso; apply N; reflexivity); try discriminate H; split; (reflexivity || discriminate).
Qed.
End Example.

Print Assumptions C116_renaming.
Print Assumptions C116_renaming_keeps_order.
