(* Property theorems C118: what the other datasets of a validation change in the metrics of a combination. *)
From Verif Require Import RunScaleSpec BaseProofs NamesProofs MatchersProofs ValidationProofs ValidationProofs2 RunProofs RunProps RunScaleProps.
From Verif Require Import TemporalModel TemporalSpec.
Open Scope Z_scope.

(* the same data of the temporal reference and of the datasets of the given columns *)
Definition agree (dfs dfs' : df_dict) (tref : string) (cols : list dscol) : Prop :=
  forall d f, d = tref \/ In d (map fst cols) -> (In (d, f) dfs <-> In (d, f) dfs').

Lemma observed_agree dfs dfs' tref w t x v : (forall f, In (fst x, f) dfs <-> In (fst x, f) dfs') ->
  observed dfs tref w t x v -> observed dfs' tref w t x v.
Proof. intros H (f & r & i & I & A). exists f, r, i. split; [apply H, I|exact A]. Qed.
Lemma compared_agree dfs dfs' tref w key t r : agree dfs dfs' tref key -> compared dfs tref w key t r -> compared dfs' tref w key t r.
Proof.
  intros A ((ref & I & T) & F & N). split; [exists ref; split; [apply (A tref ref (or_introl eq_refl)), I|exact T]|]. split; [|exact N].
  assert (X : forall x, In x key -> forall f, In (fst x, f) dfs <-> In (fst x, f) dfs').
  { intros x IX f. apply A. right. apply in_map, IX. }
  clear -F X. induction F as [|x v key r O F IH]; constructor; [apply (observed_agree dfs dfs'); [intros f; apply X; left; reflexivity|exact O]|apply IH; intros y Y; apply X; right; exact Y].
Qed.
Lemma agree_sym dfs dfs' tref cols : agree dfs dfs' tref cols -> agree dfs' dfs tref cols.
Proof. intros A d f H. symmetry. apply A, H. Qed.
Lemma sorted_rows (l m : list (Z * row)) : StronglySorted Z.lt (map fst l) -> StronglySorted Z.lt (map fst m) -> (forall x, In x l <-> In x m) -> l = m.
Proof.
  revert m. induction l as [|[t r] l IH]; intros m SL SM E.
  - destruct m as [|y m]; [reflexivity|]. destruct (proj2 (E y) (or_introl eq_refl)).
  - destruct m as [|[t' r'] m]; [destruct (proj1 (E (t, r)) (or_introl eq_refl))|]. cbn [map fst] in SL, SM. inversion SL as [|? ? SL1 SL2]; subst. inversion SM as [|? ? SM1 SM2]; subst.
    rewrite Forall_forall in SL2, SM2.
    assert (LT : forall s q0, In (s, q0) l -> t < s) by (intros s q0 I; apply SL2; apply (in_map fst) in I; exact I).
    assert (LT' : forall s q0, In (s, q0) m -> t' < s) by (intros s q0 I; apply SM2; apply (in_map fst) in I; exact I).
    assert (EQ : (t, r) = (t', r')).
    { destruct (proj1 (E (t, r)) (or_introl eq_refl)) as [H|H]; [symmetry; exact H|]. destruct (proj2 (E (t', r')) (or_introl eq_refl)) as [H'|H']; [exact H'|].
      pose proof (LT _ _ H'). pose proof (LT' _ _ H). lia. }
    injection EQ as <- <-. f_equal. apply IH; [exact SL1|exact SM1|]. intros [s q0]. split; intros I.
    + destruct (proj1 (E (s, q0)) (or_intror I)) as [H|H]; [|exact H]. injection H as <- <-. pose proof (LT _ _ I). lia.
    + destruct (proj2 (E (s, q0)) (or_intror I)) as [H|H]; [|exact H]. injection H as <- <-. pose proof (LT' _ _ I). lia.
Qed.

Section Props.
Context {G V : Type}.
Variable code : Z -> V.
Notation config := (@config G V).
Notation metrics := (list (field * fval V)).

(* the same values of all fields (of fields like (group, "status") only if they are computed) *)
Definition same_values (m m' : metrics) : Prop :=
  forall x, x = FName "status" \/ ~ status_field x -> field_get m x = field_get m' x.
Lemma failed_same f key (g : G) s (m m' : metrics) : failed_with code f key g s m -> failed_with code f key g s m' -> same_values m m'.
Proof.
  intros (t & T & _ & S1 & R) (t' & T' & _ & S1' & R') x [->|N]; [congruence|]. assert (t = t') by congruence. subst t'. rewrite R, R' by exact N. reflexivity.
Qed.
Lemma outcome_same f names key (g : G) rows (m m' : metrics) : outcome code f names key g rows m -> outcome code f names key g rows m' -> same_values m m'.
Proof.
  unfold outcome. destruct rows as [|r rows]; [apply failed_same|]. destruct (f (mkFrame names (r :: rows)) g) as [m0|]; [intros -> -> x _; reflexivity|apply failed_same].
Qed.

(* Two validations with the default matcher, of the same temporal reference and with the same calculator for combinations of
   this size: a combination they have in common gets the same metrics at a grid point if they read the same data of its
   datasets and of the temporal reference (in the order of time).  The other datasets do not matter. *)
Theorem C118_other_datasets :
  forall (c c' : config) F F' store oob w g dfs dfs' ignore ignore' rename only_ref only_ref' n n' k f key ref m m',
    plain_run c F -> plain_run c' F' ->
    (forall d r a, c_match c d r a = combinatory_matcher store oob w d r a) -> (forall d r a, c_match c' d r a = combinatory_matcher store oob w d r a) ->
    c_tref c' = c_tref c ->
    c_get c g = Ok dfs -> delivered (c_ds c) dfs -> c_get c' g = Ok dfs' -> delivered (c_ds c') dfs' ->
    agree dfs dfs' (c_tref c) key -> In (c_tref c, ref) dfs -> chronological (findex ref) ->
    reported c only_ref n k f key -> reported c' only_ref' n' k f key ->
    gpi_metrics code c ignore rename only_ref g key m -> gpi_metrics code c' ignore' rename only_ref' g key m' ->
    same_values m m'.
Proof.
  intros c c' F F' store oob w g dfs dfs' ignore ignore' rename only_ref only_ref' n n' k f key ref m m' P P' M M' T GET D GET' D' A IR CH REP REP' GM GM'.
  destruct (C89_nearest_observations code c F store oob w g dfs ignore rename only_ref n k f key P M GET D REP) as (rows & _ & S1 & R & O).
  destruct (C89_nearest_observations code c' F' store oob w g dfs' ignore' rename only_ref' n' k f key P' M' GET' D' REP') as (rows' & _ & S1' & R' & O').
  rewrite T in S1', R'. assert (IR' : In (c_tref c, ref) dfs') by (apply (A _ ref (or_introl eq_refl)), IR).
  assert (E : rows = rows').
  { apply sorted_rows; [exact (S1 ref IR CH)|exact (S1' ref IR' CH)|]. intros [t r]. rewrite R, R'. split; apply compared_agree; [exact A|apply agree_sym, A]. }
  subst rows'. exact (outcome_same _ _ _ _ _ _ _ (O m GM) (O' m' GM')).
Qed.

Lemma nodup_pos (l : list string) i j x : NoDup l -> nth_error l i = Some x -> nth_error l j = Some x -> i = j.
Proof. intros N A B. rewrite NoDup_nth_error in N. apply N; [apply nth_error_Some; congruence|congruence]. Qed.

(* The same with masking and scaling, where dfs and dfs' are the data after masking: if the scaling of no combination failed. *)
Theorem C118_other_datasets_scaled :
  forall (c c' : config) F F' col store oob w g dfs0 dfs0' dfs dfs' ignore ignore' rename only_ref only_ref' n n' k f key ref m m',
    scaled_run c F col -> scaled_run c' F' col ->
    (forall d r a, c_match c d r a = combinatory_matcher store oob w d r a) -> (forall d r a, c_match c' d r a = combinatory_matcher store oob w d r a) ->
    c_tref c' = c_tref c -> c_sref c' = c_sref c -> c_scale c' = c_scale c ->
    c_get c g = Ok dfs0 -> masked_data c g dfs0 dfs -> delivered (c_ds c) dfs ->
    c_get c' g = Ok dfs0' -> masked_data c' g dfs0' dfs' -> delivered (c_ds c') dfs' ->
    agree dfs dfs' (c_tref c) (columns_read c col key) -> In (c_tref c, ref) dfs -> chronological (findex ref) ->
    reported c only_ref n k f key -> reported c' only_ref' n' k f key ->
    gpi_metrics code c ignore rename only_ref g key m -> gpi_metrics code c' ignore' rename only_ref' g key m' ->
    field_get m (FName "status") <> Ok (code SCALING_FAILED) -> field_get m' (FName "status") <> Ok (code SCALING_FAILED) ->
    same_values m m'.
Proof.
  intros c c' F F' col store oob w g dfs0 dfs0' dfs dfs' ignore ignore' rename only_ref only_ref' n n' k f key ref m m' P P' M M' T SR SC GET MD D GET' MD' D' A IR CH REP REP' GM GM' OK1 OK2.
  destruct (C95_scaled_point code c F col store oob w g dfs0 dfs ignore rename only_ref P M GET MD D) as (R & RS & RO).
  destruct (C95_scaled_point code c' F' col store oob w g dfs0' dfs' ignore' rename only_ref' P' M' GET' MD' D') as (R' & RS' & RO').
  destruct (RS n k f key REP) as (_ & S1 & S2). destruct (RS' n' k f key REP') as (_ & S1' & S2').
  destruct (RO n k f key m REP GM) as (B1 & B2). destruct (RO' n' k f key m' REP' GM') as (B1' & B2').
  assert (NE : ~ some_scaling_error c only_ref g col R) by (intros X; destruct (B1 X) as (t & _ & _ & S & _); contradiction).
  assert (NE' : ~ some_scaling_error c' only_ref' g col R') by (intros X; destruct (B1' X) as (t & _ & _ & S & _); contradiction).
  specialize (B2 NE). specialize (B2' NE').
  assert (CR : columns_read c' col key = columns_read c col key) by (unfold columns_read; rewrite SC, SR; reflexivity).
  rewrite CR in S2', B2'. rewrite T in S1', S2'. assert (IR' : In (c_tref c, ref) dfs') by (apply (A _ ref (or_introl eq_refl)), IR).
  assert (E : R key = R' key).
  { apply sorted_rows; [exact (S1 ref IR CH)|exact (S1' ref IR' CH)|]. intros [t r]. rewrite S2, S2'. split; apply compared_agree; [exact A|apply agree_sym, A]. }
  rewrite <- E in B2'. unfold scaled_outcome in B2, B2'. destruct (R key) as [|r rows]; [exact (failed_same _ _ _ _ _ _ B2 B2')|].
  destruct B2 as (x & X1 & X2). destruct B2' as (y & Y1 & Y2).
  assert (x = y).
  { unfold scaled_to in X1, Y1. rewrite SC, SR in Y1. destruct (c_scale c) as [scale|] eqn:CS; [|congruence].
    destruct X1 as (i & sc & I1 & I2 & ->). destruct Y1 as (i' & sc' & I1' & I2' & ->).
    assert (ND : NoDup (map fst (columns_read c col key))).
    { unfold columns_read. rewrite CS. destruct REP as (_ & (_ & SS & _) & _). destruct (existsb (String.eqb (c_sref c)) (map fst key)) eqn:EX; [apply strict_nodup, SS|].
      rewrite map_app. cbn [map fst]. apply nodup_app; [apply strict_nodup, SS|constructor; [intros []|constructor]|]. intros z Z [Y|[]]. subst z.
      assert (X : existsb (String.eqb (c_sref c)) (map fst key) = true) by (apply existsb_exists; exists (c_sref c); split; [exact Z|apply String.eqb_refl]). congruence. }
    assert (i' = i) by exact (nodup_pos _ _ _ _ ND I1' I1). subst i'. assert (sc = sc') by congruence. subst sc'. reflexivity. }
  subst y. destruct (f (mkFrame _ x) g) as [m0|]; [intros z _; congruence|exact (failed_same _ _ _ _ _ _ X2 Y2)].
Qed.
End Props.

(* ------------------------------------------------------- examples and what goes wrong *)
Section Example.
Open Scope string_scope.
(* the pair (a, b) of the three datasets of C89 on its own *)
Definition pair_cfg : @config nat Q :=
  mkCfg [("a", ["x"]); ("b", ["y"])] "a" "a" "a" (fun _ => Ok (firstn 2 run_dfs)) (combinatory_matcher (fun c => c) 0 2) None [((2%nat, 2%nat), run_calc)] None.
Example C118_ex : calc inject_Z pair_cfg true true false [0]%nat =
  VOk [([("a", "x"); ("b", "y")], [(FName "n", [2]%Q); (FName "sum", [19]%Q); (FName "status", [0]%Q)])].
Proof. vm_compute. reflexivity. Qed.
Example C118_hypotheses : plain_run pair_cfg (fun _ => [FName "n"; FName "sum"; FName "status"]) /\ delivered (c_ds pair_cfg) (firstn 2 run_dfs) /\
  agree run_dfs (firstn 2 run_dfs) "a" [("a", "x"); ("b", "y")] /\
  reported run_cfg false 3 2 run_calc [("a", "x"); ("b", "y")] /\ reported pair_cfg false 2 2 run_calc [("a", "x"); ("b", "y")] /\
  exists ref, In ("a", ref) run_dfs /\ chronological (findex ref).
Proof.
  split; [|split; [|split; [|split; [|split]]]].
  - split; [|split; [reflexivity|split; [reflexivity|split; [left; reflexivity|]]]].
    + split; [|split].
      * split; [repeat constructor; cbn; intuition discriminate|]. intros d cols [E|[E|[]]]; injection E as <- <-; repeat constructor; intros [].
      * intros n k f [E|[]]. injection E as <- <- <-. lia.
      * repeat constructor; cbn; tauto.
    + intros n k f [E|[]]. injection E as <- <- <-. split; [reflexivity|]. split; [|split; [|split; [|split]]].
      * repeat constructor; cbn; intuition discriminate.
      * cbn. auto.
      * cbn. intros l H. intuition discriminate.
      * intros d g _. eexists. reflexivity.
      * intros d g mm E. injection E as <-. split; [reflexivity|]. cbn. intros k x H. intuition (match goal with H : (_, _) = (_, _) |- _ => injection H as <- <- end; eauto).
  - destruct C89_hypotheses as (_ & _ & (_ & _ & U) & _). split; [repeat constructor; cbn; intuition discriminate|]. split; [intros d; cbn; tauto|].
    intros d f I. destruct (U d f) as (U1 & U2 & U3); [cbn in I |- *; tauto|]. split; [exact U1|]. split; [exact U2|]. intros cols IC. apply U3. cbn in IC |- *. tauto.
  - intros d f H. cbn [map fst In] in H. assert (HD : d = "a" \/ d = "b") by intuition. split; [|cbn; tauto].
    intros [E|[E|[E|[]]]]; injection E as <- <-; [left; reflexivity|right; left; reflexivity|destruct HD; discriminate].
  - split; [left; reflexivity|]. split; [|discriminate]. split; [reflexivity|]. split; [repeat constructor; discriminate|].
    intros d col [E|[E|[]]]; injection E as <- <-; eexists; (split; [cbn; eauto|left; reflexivity]).
  - split; [left; reflexivity|]. split; [|discriminate]. split; [reflexivity|]. split; [repeat constructor; discriminate|].
    intros d col [E|[E|[]]]; injection E as <- <-; eexists; (split; [cbn; eauto|left; reflexivity]).
  - eexists. split; [left; reflexivity|]. cbv - [Z.le]. repeat constructor; discriminate.
Qed.

(* A dataset without data at a grid point: the pair of the other two datasets loses its metrics as well. *)
Definition gap_cfg : @config nat Q :=
  mkCfg [("a", ["x"]); ("b", ["y"]); ("d", ["z"])] "a" "a" "a" (fun _ => Ok (firstn 2 run_dfs)) (combinatory_matcher (fun c => c) 0 2) None [((3%nat, 2%nat), run_calc)] None.
Definition pair_fields (r : vres (list (list dscol * list (field * list Q)))) : option (list (field * list Q)) :=
  match r with VOk l => option_map snd (find (fun e => combo_eqb (fst e) [("a", "x"); ("b", "y")]) l) | VErr _ => None end.
Theorem C118_missing_dataset_refuted :
  exists dfs, c_get gap_cfg 0%nat = Ok dfs /\ c_get pair_cfg 0%nat = Ok dfs /\
    pair_fields (calc inject_Z pair_cfg true true false [0]%nat) = Some [(FName "n", [2]%Q); (FName "sum", [19]%Q); (FName "status", [0]%Q)] /\
    pair_fields (calc inject_Z gap_cfg true true false [0]%nat) = Some [(FName "n", [0]%Q); (FName "sum", [0]%Q); (FName "status", [inject_Z NO_TEMP_MATCHED_DATA])].
Proof. eexists. split; [reflexivity|]. split; [reflexivity|]. split; vm_compute; reflexivity. Qed.

(* The combined matcher leaves out the times at which any dataset has no value. *)
Definition pair_cfg2 : @config nat Q :=
  mkCfg [("a", ["x"]); ("b", ["y"])] "a" "a" "a" (fun _ => Ok (firstn 2 run_dfs)) (fun d r m => combined_matcher (fun c => c) 0 1 (Some 2) d r (Some m)) None [((2%nat, 2%nat), run_calc)] None.
Theorem C118_combined_matcher_refuted :
  pair_fields (calc inject_Z pair_cfg2 true true false [0]%nat) = Some [(FName "n", [2]%Q); (FName "sum", [19]%Q); (FName "status", [0]%Q)] /\
  pair_fields (calc inject_Z run_cfg2 true true false [0]%nat) = Some [(FName "n", [1]%Q); (FName "sum", [5]%Q); (FName "status", [0]%Q)].
Proof. split; vm_compute; reflexivity. Qed.

(* A dataset that cannot be scaled (here: one row only) takes the metrics of the other pairs with it. *)
Definition few_dfs : df_dict :=
  [("a", mkFrame ["x"] [(10, [Some 1%Q]); (20, [Some 2%Q]); (30, [Some 3%Q])]);
   ("b", mkFrame ["y"] [(10, [Some 4%Q]); (20, [Some 6%Q]); (30, [Some 5%Q])]);
   ("d", mkFrame ["z"] [(10, [Some 7%Q])])].
Definition scaled_cfg (ds : ds_dict) (dfs : df_dict) : @config nat Q :=
  mkCfg ds "a" "a" "a" (fun _ => Ok dfs) (combinatory_matcher (fun c => c) 0 2) (Some (sc_shift 1)) [((List.length ds, 2%nat), run_calc)] None.
Theorem C118_scaling_refuted :
  pair_fields (calc inject_Z (scaled_cfg [("a", ["x"]); ("b", ["y"])] (firstn 2 few_dfs)) true true true [0]%nat) = Some [(FName "n", [3]%Q); (FName "sum", [13]%Q); (FName "status", [0]%Q)] /\
  pair_fields (calc inject_Z (scaled_cfg [("a", ["x"]); ("b", ["y"]); ("d", ["z"])] few_dfs) true true true [0]%nat) = Some [(FName "n", [0]%Q); (FName "sum", [0]%Q); (FName "status", [inject_Z SCALING_FAILED])].
Proof. split; vm_compute; reflexivity. Qed.
(* the scaled version: three datasets that can be scaled, and the pair on its own *)
Definition ok_dfs : df_dict := (firstn 2 few_dfs ++ [("d", mkFrame ["z"] [(10, [Some 7%Q]); (20, [Some 8%Q])])])%list.
Definition two_ds : ds_dict := [("a", ["x"]); ("b", ["y"])].
Definition three_ds : ds_dict := [("a", ["x"]); ("b", ["y"]); ("d", ["z"])].
Lemma scaled_cfg_run ds dfs : wf_dict ds -> columns_of ds "a" = Some ["x"] -> In "a" (map fst ds) ->
  scaled_run (scaled_cfg ds dfs) (fun _ => [FName "n"; FName "sum"; FName "status"]) "x".
Proof.
  intros W CA IA. split; [|split; [|split; [|split]]].
  - split; [exact W|]. split; [intros n k f [E|[]]; injection E as <- <- <-; lia|repeat constructor; cbn; tauto].
  - intros scale g [= <-] d i sc. unfold sc_shift. destruct (Nat.leb _ _); [discriminate|]. intros [= <-]. cbn [fcols frows]. split; [reflexivity|].
    set (h := fun tr : Z * row => (fst tr, map (fun jv => option_map (fun q => Qred (q - q_mean (col_of d (fst jv)) + q_mean (col_of d i))%Q) (snd jv)) (combine (seq 0 (List.length (snd tr))) (snd tr)))).
    induction (frows d) as [|x l IH]; cbn [map]; constructor; [|exact IH]. split; [reflexivity|]. unfold h. cbn [snd].
    rewrite map_length, combine_length, seq_length. apply Nat.min_id.
  - intros _. exact CA.
  - exact IA.
  - intros n k f [E|[]]. injection E as <- <- <-. split; [reflexivity|]. split; [|split; [|split; [|split]]].
    + repeat constructor; cbn; intuition discriminate.
    + cbn. auto.
    + cbn. intros l H. intuition discriminate.
    + intros d g _. eexists. reflexivity.
    + intros d g mm E. injection E as <-. split; [reflexivity|]. cbn. intros k x H. intuition (match goal with H : (_, _) = (_, _) |- _ => injection H as <- <- end; eauto).
Qed.
Example C118_scaled_hypotheses :
  scaled_run (scaled_cfg two_ds (firstn 2 ok_dfs)) (fun _ => [FName "n"; FName "sum"; FName "status"]) "x" /\
  scaled_run (scaled_cfg three_ds ok_dfs) (fun _ => [FName "n"; FName "sum"; FName "status"]) "x" /\
  delivered three_ds ok_dfs /\ delivered two_ds (firstn 2 ok_dfs) /\
  agree ok_dfs (firstn 2 ok_dfs) "a" [("a", "x"); ("b", "y")] /\
  pair_fields (calc inject_Z (scaled_cfg two_ds (firstn 2 ok_dfs)) true true true [0]%nat) = Some [(FName "n", [3]%Q); (FName "sum", [13]%Q); (FName "status", [0]%Q)] /\
  pair_fields (calc inject_Z (scaled_cfg three_ds ok_dfs) true true true [0]%nat) = Some [(FName "n", [3]%Q); (FName "sum", [13]%Q); (FName "status", [0]%Q)].
Proof.
  assert (U : forall d f, In (d, f) ok_dfs -> usable f).
  { intros d f [E|[E|[E|[]]]]; injection E as <- <-; (split; [intros t r H; cbn in H; intuition (match goal with H : (_, _) = (_, _) |- _ => injection H as <- <- end; reflexivity)|]);
    left; cbv - [Z.lt]; repeat constructor. }
  split; [|split; [|split; [|split; [|split; [|split; vm_compute; reflexivity]]]]].
  - apply scaled_cfg_run; [split; [repeat constructor; cbn; intuition discriminate|intros d cols [E|[E|[]]]; injection E as <- <-; repeat constructor; intros []]|reflexivity|left; reflexivity].
  - apply scaled_cfg_run; [split; [repeat constructor; cbn; intuition discriminate|intros d cols [E|[E|[E|[]]]]; injection E as <- <-; repeat constructor; intros []]|reflexivity|left; reflexivity].
  - split; [repeat constructor; cbn; intuition discriminate|]. split; [intros d; cbn; tauto|]. intros d f I. split; [exact (U d f I)|].
    destruct I as [E|[E|[E|[]]]]; injection E as <- <-; (split; [repeat constructor; cbn; intuition discriminate|]); intros cols [E|[E|[E|[]]]]; try discriminate E; injection E as <-; intros x [<-|[]]; cbn; auto.
  - split; [repeat constructor; cbn; intuition discriminate|]. split; [intros d; cbn; tauto|]. intros d f I. split; [apply (U d f); cbn in I |- *; tauto|].
    destruct I as [E|[E|[]]]; injection E as <- <-; (split; [repeat constructor; cbn; intuition discriminate|]); intros cols [E|[E|[]]]; try discriminate E; injection E as <-; intros x [<-|[]]; cbn; auto.
  - intros d f H. cbn [map fst In] in H. assert (HD : d = "a" \/ d = "b") by intuition. split; [|cbn; tauto].
    intros [E|[E|[E|[]]]]; injection E as <- <-; [left; reflexivity|right; left; reflexivity|destruct HD; discriminate].
Qed.
End Example.

Print Assumptions C118_other_datasets.
Print Assumptions C118_other_datasets_scaled.
Print Assumptions C118_missing_dataset_refuted.
Print Assumptions C118_combined_matcher_refuted.
Print Assumptions C118_scaling_refuted.
