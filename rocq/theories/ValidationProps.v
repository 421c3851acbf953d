(* Property theorems C32-C36: the validation driver. *)
From Verif Require Import ValidationSpec MatchersSpec BaseProofs MatchersProofs ValidationProofs ValidationProofs2 MaskProofs.
From Verif Require Import TemporalModel TemporalSpec.

(* ------------------------------------------------------------------ an example set-up *)
(* two datasets with one column each; grid point 0 and 5 have data, reading point 1 fails, there is
   no data at 2, the calculator fails at 3, point 4 has no common times *)
Section ExampleSetup.
Open Scope string_scope.
Definition ex_a (g : nat) : frame := mkFrame ["x"] (map (fun i => (10 * i, [Some (inject_Z (i + Z.of_nat g))])) [1; 2; 3]).
Definition ex_b (g : nat) : frame :=
  mkFrame ["y"] (map (fun i => ((if Nat.eqb g 4 then 500 else 0) + 10 * i, [Some (inject_Z (2 * i))])) [2; 3; 4]).
Definition ex_get (g : nat) : res df_dict :=
  if Nat.eqb g 1 then Err EOther else if Nat.eqb g 2 then Ok [] else Ok [("a", ex_a g); ("b", ex_b g)].
Definition ex_match (d : df_dict) (r : string) (n : nat) : res (list (list string * frame)) :=
  combinatory_matcher (fun c => c) 0 3 d r n.
Definition ex_calc (d : frame) (g : nat) : res (list (field * fval Z)) :=
  if Nat.eqb g 3 && negb (Nat.eqb (List.length (frows d)) 0) then Err EValue else
  Ok [(FName "gpi", Arr [Z.of_nat g]); (FName "n_obs", Arr [Z.of_nat (List.length (frows d))]);
      (FName "status", Arr [if Nat.eqb (List.length (frows d)) 0 then -1 else 0])].
Definition ex_cfg : @config nat Z :=
  mkCfg [("a", ["x"]); ("b", ["y"])] "a" "a" "a" ex_get ex_match None [((2%nat, 2%nat), ex_calc)] None.
End ExampleSetup.

Definition idz (z : Z) : Z := z.

(* ------------------------------------------------------------------ C32 *)
(* Partial: for points whose reference is not masked away completely, and distinct group sizes. *)
Theorem C32_aligned_entries_partial :
  forall (G V : Type) (code : Z -> V) (c : @config G V) (ignore rename only_ref : bool) (gpis : list G)
         (out : list (list dscol * list (field * list V))),
    wf_config c -> (forall g, In g gpis -> reference_left c g) -> gpis <> [] ->
    calc code c ignore rename only_ref gpis = VOk out ->
    NoDup (map fst out) /\
    (forall key, In key (map fst out) <-> exists n k f, reported c only_ref n k f key) /\
    forall key fields k arr, In (key, fields) out -> In (k, arr) fields ->
      Forall2 (fun g v => exists m, gpi_metrics code c ignore rename only_ref g key m /\ field_get m k = Ok v) gpis arr.
Proof. intros G V. exact calc_ok. Qed.
(* nothing aborts the run in "ignore" mode, if the calculators are regular *)
Theorem C32_no_abort :
  forall (G V : Type) (code : Z -> V) (c : @config G V) (F : nat -> list field) (rename only_ref : bool) (gpis : list G),
    wf_config c -> (forall n k f, In ((n, k), f) (c_calcs c) -> regular (F k) f) ->
    exists out, calc code c true rename only_ref gpis = VOk out /\
      forall key fields, In (key, fields) out -> map fst fields = F (List.length key).
Proof. intros G V. exact calc_total. Qed.
Theorem C32_no_points :
  forall (G V : Type) (code : Z -> V) (c : @config G V) (ignore rename only_ref : bool),
    calc code c ignore rename only_ref [] = VOk [].
Proof. reflexivity. Qed.
(* a run over all kinds of failures *)
Example C32_ex : calc idz ex_cfg true true false [0; 1; 2; 3; 4; 5]%nat =
  VOk [([("a", "x"); ("b", "y")]%string,
        [(FName "gpi", [0; 1; 2; 3; 4; 5]); (FName "n_obs", [2; 0; 0; 0; 0; 2]); (FName "status", [0; 8; 7; 2; 4; 0])])].
Proof. vm_compute. reflexivity. Qed.
Lemma ex_cfg_wf : wf_config ex_cfg.
Proof.
  split; [|split].
  - split; [repeat constructor; cbn; intuition discriminate|].
    intros k cs [E|[E|[]]]; injection E as <- <-; repeat constructor; intros [].
  - intros n k f [E|[]]. injection E as <- <- <-. auto.
  - repeat constructor. intros [].
Qed.
Lemma ex_cfg_regular : forall n k f, In ((n, k), f) (c_calcs ex_cfg) -> regular [FName "gpi"; FName "n_obs"; FName "status"] f.
Proof.
  intros n k f [E|[]]. injection E as <- <- <-. split; [|split; [|split; [|split]]].
  - repeat constructor; cbn; intuition discriminate.
  - cbn; auto.
  - intros l H. cbn in H. intuition discriminate.
  - intros d g H. unfold ex_calc. rewrite H. cbn [List.length Nat.eqb negb]. rewrite andb_false_r. eexists. reflexivity.
  - intros d g m H. unfold ex_calc in H. destruct (Nat.eqb g 3 && _); [discriminate|]. injection H as <-. split; [reflexivity|].
    intros k x [E|[E|[E|[]]]]; injection E as <- <-; eauto.
Qed.
Example C32_ex_reference_left : forall g, reference_left ex_cfg g.
Proof. intros g mds gm dfs ref masked H. discriminate. Qed.

(* A point whose reference is masked completely gets no entry: the arrays are shorter than the list
   of points, and the second entry belongs to the third point. *)
Definition ex_mask_cfg : @config nat Z :=
  mkCfg [("a", ["x"]); ("b", ["y"])]%string "a" "a" "a" ex_get ex_match None [((2%nat, 2%nat), ex_calc)]
    (Some ([("_reference", ["x"]); ("m", ["z"])]%string,
           fun g => Ok [("m"%string, mkFrame ["z"%string]
              (if Nat.eqb g 5 then [(10, [Some 1%Q]); (20, [Some 1%Q]); (30, [Some 1%Q])] else [(10, [Some 1%Q])]))])).
Theorem C32_masked_reference_refuted :
  exists (c : @config nat Z) (gpis : list nat) out,
    wf_config c /\ calc idz c true true false gpis = VOk out /\
    gpis = [0; 5; 6]%nat /\ out = [([("a", "x"); ("b", "y")]%string, [(FName "gpi", [0; 6]); (FName "n_obs", [2; 2]); (FName "status", [0; 0])])].
Proof.
  exists ex_mask_cfg, [0; 5; 6]%nat. eexists. split; [exact ex_cfg_wf|]. split; [|split; reflexivity]. vm_compute. reflexivity.
Qed.
(* A calculator that stores a bare number (as TripleCollocationMetrics does for the status when the
   triple collocation raises) aborts the whole run, even in "ignore" mode. *)
Definition ex_scalar_calc (d : frame) (g : nat) : res (list (field * fval Z)) :=
  Ok [(FName "gpi", Arr [Z.of_nat g]); (FName "status", if Nat.eqb g 5 && negb (Nat.eqb (List.length (frows d)) 0) then Scal 2 else Arr [0])].
Theorem C32_scalar_status_refuted :
  exists (c : @config nat Z) (gpis : list nat), wf_config c /\ (forall g, reference_left c g) /\
    (forall n k f d g, In ((n, k), f) (c_calcs c) -> exists m, f d g = Ok m) /\
    calc idz c true true false gpis = VErr (PError EType).
Proof.
  exists (mkCfg [("a", ["x"]); ("b", ["y"])]%string "a" "a" "a" ex_get ex_match None [((2%nat, 2%nat), ex_scalar_calc)] None)%string, [0; 5; 6]%nat.
  split; [|split; [|split]].
  - split; [exact (proj1 ex_cfg_wf)|split; [|repeat constructor; intros []]]. intros n k f [E|[]]. injection E as <- <- <-. auto.
  - intros g mds gm dfs ref masked H. discriminate.
  - intros n k f d g [E|[]]. injection E as <- <- <-. eexists. reflexivity.
  - vm_compute. reflexivity.
Qed.
Print Assumptions C32_aligned_entries_partial.
Print Assumptions C32_no_abort.
Print Assumptions C32_masked_reference_refuted.
Print Assumptions C32_scalar_status_refuted.

(* ------------------------------------------------------------------ C33 *)
(* a grid point fails as a whole: every reported combination holds the calculator's template (its
   result for no data) with the return code of the failure as status *)
Theorem C33_failed_point :
  forall (G V : Type) (code : Z -> V) (c : @config G V) (rename only_ref : bool) (g : G) (x : exn) r,
    wf_config c -> attempt code c true rename only_ref g = VErr x ->
    validate_gpi code c true rename only_ref g = VOk r ->
    (forall key, In key (map fst r) <-> exists n k f, reported c only_ref n k f key) /\
    forall key ms, In (key, ms) r ->
      exists m m', ms = [m'] /\ template c g key m /\ with_status (code (return_code x)) m m'.
Proof.
  intros G V code c rn oref g x r W A H. destruct (gpi_failed code c rn oref g x r W A H) as [E T]. split; [|exact T].
  intros key. rewrite E. apply key_list_in; apply W.
Qed.
(* the code: data retrieval 8, no data 7, matching 3, nothing matched 4 *)
Theorem C33_reading_fails :
  forall (G V : Type) (code : Z -> V) (c : @config G V) ignore rename only_ref (g : G) e,
    c_get c g = Err e -> attempt code c ignore rename only_ref g = VErr (VError DATA_MANAGER_FAILED).
Proof. intros G V. exact attempt_read_failed. Qed.
Theorem C33_no_data :
  forall (G V : Type) (code : Z -> V) (c : @config G V) ignore rename only_ref (g : G),
    c_get c g = Ok [] -> attempt code c ignore rename only_ref g = VErr (VError NO_GPI_DATA).
Proof. intros G V. exact attempt_no_data. Qed.
Theorem C33_matching_fails :
  forall (G V : Type) (code : Z -> V) (c : @config G V) ignore rename only_ref (g : G) data n k f e,
    matching_input c g data -> In ((n, k), f) (c_calcs c) -> c_match c data (c_tref c) n = Err e ->
    attempt code c ignore rename only_ref g = VErr (VError TEMPORAL_MATCHING_FAILED).
Proof. intros G V. exact attempt_match_failed. Qed.
Theorem C33_nothing_matched :
  forall (G V : Type) (code : Z -> V) (c : @config G V) ignore rename only_ref (g : G) data n k f rest,
    matching_input c g data -> c_calcs c = ((n, k), f) :: rest -> c_match c data (c_tref c) n = Ok [] ->
    (forall e, In e rest -> exists m, c_match c data (c_tref c) (fst (fst e)) = Ok m) ->
    attempt code c ignore rename only_ref g = VErr (VError NO_TEMP_MATCHED_DATA).
Proof. intros G V. exact attempt_no_match. Qed.
(* conversely: a reported failure is one of the stage it names; everything else is 6 *)
Theorem C33_codes_are_truthful :
  forall (G V : Type) (code : Z -> V) (c : @config G V) rename only_ref (g : G) x,
    attempt code c true rename only_ref g = VErr x ->
    (exists s, x = VError s /\ stage_failed c g s) \/ (exists e, x = PError e /\ return_code x = VALIDATION_FAILED).
Proof.
  intros G V code c rn oref g x H. destruct (attempt_err code c rn oref g x H) as [L|(e & ->)]; [left; exact L|right; exists e; auto].
Qed.
(* a single combination: no common data gives 4, a failing calculator 2, with the template *)
Theorem C33_one_combination :
  forall (G V : Type) (code : Z -> V) (c : @config G V) ignore rename only_ref (g : G) f matched key m,
    validate_key code c ignore rename only_ref g f matched key = VOk (Some m) ->
    exists data, extract c true matched key = Ok data /\
    ((frame_len data = 0%nat /\ ignore = true /\
        exists t, f (mkFrame (map fst key) []) g = Ok t /\ set_status_name (code NO_TEMP_MATCHED_DATA) t = Ok m) \/
     (exists d s, data = Some d /\ frows d <> [] /\ scaled_data c g key d s /\
        (f (if rename then rename_columns key s else s) g = Ok m \/
         (ignore = true /\ (exists e, f (if rename then rename_columns key s else s) g = Err e) /\
          exists t, f (mkFrame (map fst key) []) g = Ok t /\ set_status_name (code METRICS_CALCULATION_FAILED) t = Ok m)))).
Proof. intros G V. exact validate_key_cases. Qed.
(* "raise": the first failure ends the run with that failure *)
Theorem C33_raise :
  forall (G V : Type) (code : Z -> V) (c : @config G V) rename only_ref pre (g : G) post x,
    (forall g', In g' pre -> exists r, attempt code c false rename only_ref g' = VOk r) ->
    attempt code c false rename only_ref g = VErr x ->
    calc code c false rename only_ref (pre ++ g :: post) = VErr x.
Proof. intros G V. exact calc_raise. Qed.
Example C33_ex_raise : calc idz ex_cfg false true false [0; 5; 3; 1]%nat = VErr (VError METRICS_CALCULATION_FAILED).
Proof. vm_compute. reflexivity. Qed.
(* the codes at the failing points of the example *)
Example C33_ex_codes : map (fun g => attempt idz ex_cfg true true false g) [1; 2]%nat =
  [VErr (VError 8); VErr (VError 7)].
Proof. vm_compute. reflexivity. Qed.
Definition bad_match (d : df_dict) (r : string) (n : nat) : res (list (list string * frame)) := Err EValue.
Definition ex_bad_cfg : @config nat Z :=
  mkCfg [("a", ["x"]); ("b", ["y"])]%string "a" "a" "a" ex_get bad_match None [((2%nat, 2%nat), ex_calc)] None.
Example C33_ex_matching : calc idz ex_bad_cfg true true false [0; 1]%nat =
  VOk [([("a", "x"); ("b", "y")]%string, [(FName "gpi", [0; 1]); (FName "n_obs", [0; 0]); (FName "status", [3; 8])])].
Proof. vm_compute. reflexivity. Qed.
Example C33_ex_matching_input : matching_input ex_cfg 0%nat [("a"%string, ex_a 0); ("b"%string, ex_b 0)].
Proof.
  exists [("a"%string, ex_a 0); ("b"%string, ex_b 0)], [("a"%string, ex_a 0); ("b"%string, ex_b 0)].
  split; [reflexivity|]. split; [discriminate|]. split; [reflexivity|].
  repeat constructor; cbn; eauto.
Qed.

(* Calculators with grouped status fields: with the fields ("s","status") instead of "status" the
   empty combination of one point is not reported with 4 but the whole point with 6 ... *)
Definition ex_tuple_calc (d : frame) (g : nat) : res (list (field * fval Z)) :=
  Ok [(FName "gpi", Arr [Z.of_nat g]); (FTuple ["s"; "status"]%string, Arr [if Nat.eqb (List.length (frows d)) 0 then -1 else 0])].
(* three datasets, so that one pair can be matched and another not *)
Definition ex3_get (g : nat) : res df_dict :=
  Ok [("a", mkFrame ["x"] [(10, [Some 1%Q]); (20, [Some 2%Q])]); ("b", mkFrame ["y"] [(10, [Some 3%Q]); (20, [Some 4%Q])]);
      ("c", mkFrame ["z"] [(300, [Some 5%Q]); (400, [Some 6%Q])])]%string.
Definition ex3_cfg (f : frame -> nat -> res (list (field * fval Z))) : @config nat Z :=
  mkCfg [("a", ["x"]); ("b", ["y"]); ("c", ["z"])]%string "a" "a" "a" ex3_get ex_match None [((3%nat, 2%nat), f)] None.
Theorem C33_tuple_status_refuted :
  exists (c c' : @config nat Z), wf_config c /\ wf_config c' /\
    (* the same data and combinations: with a plain status field only the combinations with c fail *)
    calc idz c true true true [0]%nat =
      VOk [([("a", "x"); ("b", "y")]%string, [(FName "gpi", [0]); (FName "n_obs", [2]); (FName "status", [0])]);
           ([("a", "x"); ("c", "z")]%string, [(FName "gpi", [0]); (FName "n_obs", [0]); (FName "status", [4])])] /\
    (* with a grouped one everything fails *)
    calc idz c' true true true [0]%nat =
      VOk [([("a", "x"); ("b", "y")]%string, [(FName "gpi", [0]); (FTuple ["s"; "status"]%string, [6])]);
           ([("a", "x"); ("c", "z")]%string, [(FName "gpi", [0]); (FTuple ["s"; "status"]%string, [6])])].
Proof.
  exists (ex3_cfg ex_calc), (ex3_cfg ex_tuple_calc).
  assert (W : forall f, wf_config (ex3_cfg f)).
  { intros f. split; [|split].
    - split; [repeat constructor; cbn; intuition discriminate|].
      intros k cs [E|[E|[E|[]]]]; injection E as <- <-; repeat constructor; intros [].
    - intros n k f' [E|[]]. injection E as <- <- <-. auto.
    - repeat constructor. intros []. }
  split; [apply W|]. split; [apply W|]. split; vm_compute; reflexivity.
Qed.
(* ... and with joined names ("s|status") the failure code is not reported at all *)
Definition ex_join_calc (d : frame) (g : nat) : res (list (field * fval Z)) :=
  Ok [(FName "gpi", Arr [Z.of_nat g]); (FName "s|status", Arr [if Nat.eqb (List.length (frows d)) 0 then -1 else 0])].
Theorem C33_joined_status_refuted :
  exists (c : @config nat Z), wf_config c /\ c_get c 1%nat = Err EOther /\
    calc idz c true true false [0; 1]%nat =
      VOk [([("a", "x"); ("b", "y")]%string, [(FName "gpi", [0; 1]); (FName "s|status", [0; -1])])].
Proof.
  exists (mkCfg [("a", ["x"]); ("b", ["y"])] "a" "a" "a" ex_get ex_match None [((2%nat, 2%nat), ex_join_calc)] None)%string.
  split; [|split].
  - split; [exact (proj1 ex_cfg_wf)|split; [|repeat constructor; intros []]]. intros n k f [E|[]]. injection E as <- <- <-. auto.
  - reflexivity.
  - vm_compute. reflexivity.
Qed.
Print Assumptions C33_failed_point.
Print Assumptions C33_reading_fails.
Print Assumptions C33_no_data.
Print Assumptions C33_matching_fails.
Print Assumptions C33_nothing_matched.
Print Assumptions C33_codes_are_truthful.
Print Assumptions C33_one_combination.
Print Assumptions C33_raise.
Print Assumptions C33_tuple_status_refuted.
Print Assumptions C33_joined_status_refuted.

(* ------------------------------------------------------------------ C34 *)
(* What masking does (with the combinatory matcher): an observation of the reference is kept unless
   some masking column has any value at the observation matched to it, True or False. *)
Theorem C34_masking_partial :
  forall (G V : Type) (c : @config G V) store oob w mds gm ref (g : G) rc masks masked,
    (forall d r n, c_match c d r n = combinatory_matcher store oob w d r n) ->
    wf_dict mds -> columns_of mds "_reference" = Some [rc] ->
    gm g = Ok masks -> NoDup (map fst masks) -> ~ In "_reference"%string (map fst masks) ->
    wf_frame ref -> (forall k f, In (k, f) masks -> usable f) ->
    mask_dataset c mds gm ref g = Ok masked ->
    exists keep, frows masked = filter keep (frows ref) /\
     forall t r, keep (t, r) = true <->
      ~ (exists ds f cols col i j rr row, In (ds, f) masks /\ In (ds, cols) mds /\ In col cols /\
           col_pos rc (fcols ref) = Some i /\ col_pos col (fcols f) = Some j /\
           first_row ref t rr /\ nth i rr None <> None /\
           nearest_row (frows f) (List.length (fcols f)) t w row /\ nth j row None <> None).
Proof. intros G V. exact mask_combinatory. Qed.
(* the reference is not changed otherwise, whatever the matcher *)
Theorem C34_subset_of_reference :
  forall (G V : Type) (c : @config G V) mds gm ref (g : G) rc masked,
    wf_dict mds -> columns_of mds "_reference" = Some [rc] -> mask_dataset c mds gm ref g = Ok masked ->
    fcols masked = fcols ref /\ exists keep, frows masked = filter keep (frows ref).
Proof.
  intros G V c mds gm ref g rc masked W E H. destruct (mask_exact c mds gm ref g rc masked W E H) as (mt & _ & FC & _ & keep & K & _).
  split; [exact FC|]. exists keep. exact K.
Qed.
Definition mask_cfg (m : frame) : @config nat Z :=
  mkCfg [("a", ["x"])]%string "a" "a" "a" ex_get ex_match None []
    (Some ([("_reference", ["x"]); ("m", ["z"])]%string, fun _ => Ok [("m"%string, m)])).
Definition mask_values (v1 v2 : Q) : frame := mkFrame ["z"%string] [(11, [Some v1]); (21, [Some v2])].
(* masking values False (0) remove the observation like True (1) does *)
Theorem C34_false_mask_refuted :
  exists (m ref masked : frame) mds gm,
    c_mask (mask_cfg m) = Some (mds, gm) /\ mask_dataset (mask_cfg m) mds gm ref 0%nat = Ok masked /\
    frows m = [(11, [Some 0%Q]); (21, [Some 1%Q])] /\ findex ref = [10; 20; 30] /\ findex masked = [30].
Proof.
  exists (mask_values 0 1), (ex_a 0). do 3 eexists. split; [reflexivity|]. split; [vm_compute; reflexivity|]. repeat split.
Qed.
Example C34_ex_hyps : wf_frame (ex_a 0) /\ usable (mask_values 0 1) /\
  wf_dict [("_reference", ["x"]); ("m", ["z"])]%string /\ columns_of [("_reference", ["x"]); ("m", ["z"])]%string "_reference" = Some ["x"%string].
Proof.
  split; [|split; [|split]].
  - intros t r [E|[E|[E|[]]]]; injection E as <- <-; reflexivity.
  - split; [|left; cbn; repeat constructor; lia]. intros t r [E|[E|[]]]; injection E as <- <-; reflexivity.
  - split; [repeat constructor; cbn; intuition discriminate|].
    intros k cs [E|[E|[]]]; injection E as <- <-; repeat constructor; intros [].
  - reflexivity.
Qed.
(* With two masking datasets and the combined matcher nothing is matched, and every point fails. *)
Definition two_masks : list (string * frame) :=
  [("m", mkFrame ["z"] [(11, [Some 1%Q])]); ("n", mkFrame ["u"] [(21, [Some 1%Q])])]%string.
Definition two_mask_cfg (matcher : df_dict -> string -> nat -> res (list (list string * frame))) : @config nat Z :=
  mkCfg [("a", ["x"]); ("b", ["y"])]%string "a" "a" "a" ex_get matcher None [((2%nat, 2%nat), ex_calc)]
    (Some ([("_reference", ["x"]); ("m", ["z"]); ("n", ["u"])]%string, fun _ => Ok two_masks)).
Theorem C34_two_masks_combined_matcher_refuted :
  (* one masking dataset at a time works; both together make every point fail with code 6 *)
  exists w, attempt idz (two_mask_cfg (fun d r n => combined_matcher (fun c => c) 0 60 (Some w) d r (Some n))) true true false 0%nat = VErr (PError EIndex) /\
            (exists r, attempt idz (two_mask_cfg (fun d r n => combinatory_matcher (fun c => c) 0 w d r n)) true true false 0%nat = VOk r).
Proof. exists 3. split; [vm_compute; reflexivity|]. eexists. vm_compute. reflexivity. Qed.
Print Assumptions C34_masking_partial.
Print Assumptions C34_subset_of_reference.
Print Assumptions C34_false_mask_refuted.
Print Assumptions C34_two_masks_combined_matcher_refuted.

(* ------------------------------------------------------------------ C35 *)
Theorem C35_cell_grid :
  forall pts : list (Z * (Z * Q * Q)),
    exists js, get_processing_jobs (Some (CellGrid pts)) = map JobTriple js /\
      Permutation (flat_map job_points js) (map snd pts) /\
      forall j, In j js -> job_points j <> [] /\ exists cell, forall p, In p (job_points j) -> In (cell, p) pts.
Proof. exact cell_jobs. Qed.
Theorem C35_no_grid : get_processing_jobs None = [].
Proof. reflexivity. Qed.
Example C35_ex : get_processing_jobs (Some (CellGrid [(7, (1, 10%Q, 20%Q)); (3, (2, 11%Q, 21%Q)); (7, (3, 12%Q, 22%Q))])) =
  [JobTriple ([2], [11%Q], [21%Q]); JobTriple ([1; 3], [10%Q; 12%Q], [20%Q; 22%Q])].
Proof. reflexivity. Qed.
(* for a grid without cells the three arrays of the single job are the "jobs" *)
Theorem C35_basic_grid_refuted :
  exists pts, get_processing_jobs (Some (BasicGrid pts)) = [JobInts [1; 2]; JobFloats [10%Q; 11%Q]; JobFloats [20%Q; 21%Q]] /\
    pts = [(1, 10%Q, 20%Q); (2, 11%Q, 21%Q)].
Proof. eexists. split; [|reflexivity]. reflexivity. Qed.
Print Assumptions C35_cell_grid.
Print Assumptions C35_basic_grid_refuted.

(* ------------------------------------------------------------------ C36 *)
(* a returned frame: the requested columns of all complete rows of a matched set, which is a set of
   exactly the requested datasets, or (if the sets have another size) one of the temporal reference *)
Theorem C36_extracted_data :
  forall temporal_ref matched rt d,
    get_data_for_result_tuple temporal_ref matched rt = Ok (Some d) ->
    exists key f, In (key, f) matched /\ complete_rows f rt d /\
      ((exists x, In (x, f) matched /\ Permutation x (map fst rt)) \/
       (hd_error key = Some temporal_ref /\ exists k0 f0 rest, matched = (k0, f0) :: rest /\ List.length k0 <> List.length rt)).
Proof. exact get_data_ok. Qed.
Theorem C36_no_missing_values :
  forall temporal_ref matched rt d t r,
    get_data_for_result_tuple temporal_ref matched rt = Ok (Some d) -> In (t, r) (frows d) ->
    List.length r = List.length rt /\ (forall x, In x r -> x <> None).
Proof.
  intros tr mt rt d t r H Hr. destruct (get_data_ok _ _ _ _ H) as (key & f & _ & (_ & ps & FP & E) & _). rewrite E in Hr.
  apply filter_In in Hr as [Hr Hn]. apply in_map_iff in Hr as (y & Ey & _). injection Ey as _ <-. cbn [snd] in Hn. split.
  - rewrite map_length. clear -FP. induction FP; cbn; congruence.
  - intros x Hx C. rewrite forallb_forall in Hn. specialize (Hn x Hx). subst x. discriminate.
Qed.
Theorem C36_no_matched_set :
  forall temporal_ref matched rt,
    get_data_for_result_tuple temporal_ref matched rt = Ok None ->
    forall key f, In (key, f) matched -> ~ Permutation key (map fst rt).
Proof. exact get_data_none. Qed.
Theorem C36_single_set :
  forall temporal_ref key f rt,
    hd_error key = Some temporal_ref -> (List.length key = List.length rt -> Permutation key (map fst rt)) ->
    (forall x, In x rt -> In (enc x) (fcols f)) ->
    exists d, get_data_for_result_tuple temporal_ref [(key, f)] rt = Ok (Some d) /\ complete_rows f rt d.
Proof. exact get_data_single. Qed.
Section Ex36.
Open Scope string_scope.
Definition mset (names : list string) : list string * frame :=
  (names, mkFrame (map (fun n => tup n "x") names) [(1, map (fun _ => Some 1%Q) names); (2, None :: map (fun _ => Some 2%Q) (tl names))]).
Example C36_ex : get_data_for_result_tuple "a" [mset ["a"; "b"; "c"]] [("c", "x"); ("a", "x")] =
  Ok (Some (mkFrame [tup "c" "x"; tup "a" "x"] [(1, [Some 1%Q; Some 1%Q])])).
Proof. reflexivity. Qed.
(* matched sets of three datasets, a pair requested: the last set of the temporal reference is
   used, although only another one contains the pair *)
Theorem C36_last_set_refuted :
  exists matched rt, (exists key f, In (key, f) matched /\ (forall x, In x rt -> In (fst x) key /\ In (enc x) (fcols f)) /\ hd_error key = Some "a") /\
    get_data_for_result_tuple "a" matched rt = Err EKey.
Proof.
  exists [mset ["a"; "b"; "c"]; mset ["a"; "b"; "d"]], [("a", "x"); ("c", "x")]. split; [|reflexivity].
  exists ["a"; "b"; "c"]. eexists. split; [left; reflexivity|]. split; [|reflexivity].
  intros x [<-|[<-|[]]]; cbn; auto.
Qed.
End Ex36.
Print Assumptions C36_extracted_data.
Print Assumptions C36_no_missing_values.
Print Assumptions C36_no_matched_set.
Print Assumptions C36_single_set.
Print Assumptions C36_last_set_refuted.
