(* Property theorems for temporal collocation (C01-C06, C66, C67). *)
From Verif Require Import Base BaseProofs TemporalModel TemporalSpec TemporalProofs.
From Verif Require Import DfMatchModel DfMatchSpec DfMatchProofs.

Ltac conj := lazymatch goal with |- let _ := _ in _ => intros; conj | |- _ /\ _ => split; [|conj] | _ => idtac end.

(* a small frame used in the non-vacuity examples *)
Definition ex_other : frame :=
  mkFrame ["sm"%string; "temp"%string]
    [(0, [Some 1%Q; None]); (10, [None; Some 5%Q]); (10, [Some 4%Q; Some 7%Q]); (13, [Some 2%Q; Some 9%Q])].
Definition ex_ref : list Z := [0; 11; 11; 40].

(* ---- C01 ---- *)
Theorem C01_mean_is_window_mean :
  forall (oob : Z) (ref : list Z) (other : frame) (w : Z),
    chronological (findex other) -> chronological ref -> fcols other <> [] ->
    temporal_collocation (fun c => c) oob ref other w mean_opts =
    Ok (mkFrame (fcols other)
          (map (fun t => (t, map (fun i => window_mean t w (series other i))
                                 (seq 0 (List.length (fcols other))))) ref)).
Proof. exact (fun oob => tc_mean_correct (fun c => c) oob). Qed.
Print Assumptions C01_mean_is_window_mean.

Example C01_hypotheses_met :
  chronological (findex ex_other) /\ chronological ex_ref /\ fcols ex_other <> [] /\
  temporal_collocation (fun c => c) 0 ex_ref ex_other 3 mean_opts =
  Ok (mkFrame ["sm"; "temp"]%string
       [(0, [Some (1 / 1)%Q; None]); (11, [Some (6 / 2)%Q; Some (21 / 3)%Q]);
        (11, [Some (6 / 2)%Q; Some (21 / 3)%Q]); (40, [None; None])]).
Proof.
  split; [apply sortedb_spec; reflexivity|]. split; [apply sortedb_spec; reflexivity|].
  split; [discriminate|]. vm_compute. reflexivity.
Qed.

(* the same call on a frame whose first column is of integer type loses the fraction *)
Theorem C01_integer_columns_refuted :
  exists (ref : list Z) (other : frame) (w nanint : Z) (t : Z) (r : row) (out : frame),
    chronological (findex other) /\ chronological ref /\
    temporal_collocation (int_store nanint) 0 ref other w mean_opts = Ok out /\
    In (t, r) (frows out) /\
    ~ ceq (nth 0 r None) (window_mean t w (series other 0)).
Proof.
  exists [0], (mkFrame ["n"%string] [(0, [Some 1%Q]); (1, [Some 2%Q])]), 1, 0, 0, [Some 1%Q].
  eexists. conj; try (apply sortedb_spec; reflexivity).
  - vm_compute. reflexivity.
  - left; reflexivity.
  - vm_compute. discriminate.
Qed.
Print Assumptions C01_integer_columns_refuted.

(* ---- C02 ---- *)
Theorem C02_nearest :
  forall (store : cell -> cell) (oob : Z) (ref : list Z) (other : frame) (w : Z),
    monotone_times (findex (mkFrame (fcols other) (dedup_first fst (frows other)))) ->
    exists g, temporal_collocation store oob ref other w nearest_opts =
        Ok (mkFrame (fcols other) (map (fun t => (t, g t)) (dedup_first (fun t => t) ref))) /\
      (forall t, nearest_row (frows other) (List.length (fcols other)) t w (g t)).
Proof. exact tc_nearest_correct. Qed.
Print Assumptions C02_nearest.

Theorem C02_nearest_error :
  forall (store : cell -> cell) (oob : Z) (ref : list Z) (other : frame) (w : Z),
    ~ monotone_times (findex (mkFrame (fcols other) (dedup_first fst (frows other)))) -> ref <> [] ->
    temporal_collocation store oob ref other w nearest_opts = Err EValue.
Proof. exact tc_nearest_error. Qed.
Print Assumptions C02_nearest_error.

(* a chronologically sorted series always qualifies *)
Theorem C02_sorted_qualifies :
  forall other, chronological (findex other) ->
    monotone_times (findex (mkFrame (fcols other) (dedup_first fst (frows other)))).
Proof. exact chronological_monotone. Qed.
Print Assumptions C02_sorted_qualifies.

(* the rows of the result are the distinct reference times *)
Theorem C02_reference_rows :
  forall ref : list Z, NoDup (dedup_first (fun t => t) ref) /\
    forall t, In t (dedup_first (fun t => t) ref) <-> In t ref.
Proof. exact dedup_ref_spec. Qed.
Print Assumptions C02_reference_rows.

Example C02_hypotheses_met :
  chronological (findex ex_other) /\
  temporal_collocation (fun c => c) 0 ex_ref ex_other 5 nearest_opts =
  Ok (mkFrame ["sm"; "temp"]%string
        [(0, [Some 1%Q; None]); (11, [None; Some 5%Q]); (40, [None; None])]).
Proof. split; [apply sortedb_spec; reflexivity|vm_compute; reflexivity]. Qed.

Example C02_error_met :
  ~ monotone_times (findex (mkFrame ["x"%string] (dedup_first fst [(0, [None]); (5, [None]); (2, [None : cell])]))).
Proof.
  intros [H|H]; inversion H as [|? ? H1 H2]; subst.
  - inversion H1 as [|? ? _ H4]; subst. inversion H4; subst. lia.
  - inversion H2; subst. lia.
Qed.

(* ---- C66: the nearest neighbour is not the nearest *valid* neighbour ---- *)
Theorem C66_nearest_valid_refuted :
  exists (ref : list Z) (other : frame) (w t s : Z) (v : Q) (out : frame),
    chronological (findex other) /\ In t ref /\
    In (s, [Some v]) (frows other) /\ Z.abs (s - t) <= w /\
    temporal_collocation (fun c => c) 0 ref other w nearest_opts = Ok out /\
    In (t, [None]) (frows out).
Proof.
  exists [0], (mkFrame ["sm"%string] [(0, [None]); (1, [Some 3%Q])]), 5, 0, 1, 3%Q.
  eexists. conj; try (apply sortedb_spec; reflexivity).
  - left; reflexivity.
  - right; left; reflexivity.
  - lia.
  - vm_compute. reflexivity.
  - left; reflexivity.
Qed.
Print Assumptions C66_nearest_valid_refuted.

(* it does hold for frames in which no row is incomplete: a missing cell then means that no
   observation is within the window *)
Theorem C66_complete_rows_partial :
  forall (store : cell -> cell) (oob : Z) (ref : list Z) (other : frame) (w : Z) out t r,
    chronological (findex other) ->
    (forall s r', In (s, r') (frows other) -> forall c, In c r' -> c <> None) ->
    temporal_collocation store oob ref other w nearest_opts = Ok out ->
    In (t, r) (frows out) -> In None r ->
    forall s r', In (s, r') (frows other) -> w < Z.abs (s - t).
Proof. exact tc_nearest_missing. Qed.
Print Assumptions C66_complete_rows_partial.

Example C66_hypotheses_met :
  (forall s r', In (s, r') [(0, [Some 1%Q]); (4, [Some 2%Q])] -> forall c, In c r' -> c <> None) /\
  temporal_collocation (fun c => c) 0 [0; 9] (mkFrame ["sm"%string] [(0, [Some 1%Q]); (4, [Some 2%Q])]) 2 nearest_opts
   = Ok (mkFrame ["sm"%string] [(0, [Some 1%Q]); (9, [None])]).
Proof.
  split; [|vm_compute; reflexivity].
  intros s r' [[= <- <-]|[[= <- <-]|[]]] c [<-|[]]; discriminate.
Qed.

(* ---- C03 ---- *)
Theorem C03_flag_excludes :
  forall (store : cell -> cell) (oob : Z) (ref : list Z) (other : frame) (w : Z) (fl : list bool),
    NoDup (findex other) ->
    List.length fl = List.length ref -> List.length fl = List.length (frows other) ->
    temporal_collocation store oob ref other w (with_flag nearest_opts fl false) =
    temporal_collocation store oob ref (keep_rows (map negb fl) other) w nearest_opts.
Proof. exact tc_flag_exclude. Qed.
Print Assumptions C03_flag_excludes.

Theorem C03_flag_fallback :
  forall (store : cell -> cell) (oob : Z) (ref : list Z) (other : frame) (w : Z) (fl : list bool) valid invalid,
    wf_frame other -> NoDup (findex other) ->
    List.length fl = List.length ref -> List.length fl = List.length (frows other) ->
    temporal_collocation store oob ref (keep_rows (map negb fl) other) w nearest_opts = Ok valid ->
    temporal_collocation store oob ref (keep_rows fl other) w nearest_opts = Ok invalid ->
    exists out, temporal_collocation store oob ref other w (with_flag nearest_opts fl true) = Ok out /\
      findex out = findex valid /\
      forall k j, nth j (nth k (map snd (frows out)) []) None =
                  match nth j (nth k (map snd (frows valid)) []) None with
                  | Some v => Some v
                  | None => nth j (nth k (map snd (frows invalid)) []) None
                  end.
Proof. exact tc_flag_fallback_cells. Qed.
Print Assumptions C03_flag_fallback.

Example C03_hypotheses_met :
  let other := mkFrame ["sm"%string] [(0, [Some 1%Q]); (2, [Some 2%Q]); (9, [Some 3%Q])] in
  temporal_collocation (fun c => c) 0 [0; 3; 9] other 1 (with_flag nearest_opts [true; false; true] false)
    = Ok (mkFrame ["sm"%string] [(0, [None]); (3, [Some 2%Q]); (9, [None])]) /\
  temporal_collocation (fun c => c) 0 [0; 3; 9] other 1 (with_flag nearest_opts [true; false; true] true)
    = Ok (mkFrame ["sm"%string] [(0, [Some 1%Q]); (3, [Some 2%Q]); (9, [Some 3%Q])]).
Proof. split; vm_compute; reflexivity. Qed.

(* ---- C04 ---- *)
Theorem C04_flag_per_observation_refuted :
  exists (ref : list Z) (other : frame) (w : Z) (fl : list bool),
    NoDup (findex other) /\ chronological (findex other) /\
    List.length fl = List.length (frows other) /\
    temporal_collocation (fun c => c) 0 ref other w (with_flag nearest_opts fl false) = Err EValue.
Proof.
  exists [0], (mkFrame ["sm"%string] [(0, [Some 1%Q]); (1, [Some 2%Q])]), 5, [true; false].
  conj; [repeat constructor; cbn; intuition lia|apply sortedb_spec; reflexivity|reflexivity|reflexivity].
Qed.
Print Assumptions C04_flag_per_observation_refuted.

Theorem C04_flag_with_duplicates_refuted :
  exists (ref : list Z) (other : frame) (w : Z) (fl : list bool),
    chronological (findex other) /\ chronological ref /\
    List.length fl = List.length (frows other) /\ List.length fl = List.length ref /\
    temporal_collocation (fun c => c) 0 ref other w (with_flag nearest_opts fl false) = Err EValue.
Proof.
  exists [0; 1], (mkFrame ["sm"%string] [(0, [Some 1%Q]); (0, [Some 2%Q])]), 5, [true; false].
  conj; try (apply sortedb_spec; reflexivity); reflexivity.
Qed.
Print Assumptions C04_flag_with_duplicates_refuted.

(* with method="mean" a flag array that marks at least one row always raises *)
Theorem C04_mean_with_flags_refuted :
  forall (store : cell -> cell) (oob : Z) (ref : list Z) (other : frame) (w : Z) (o : tc_opts) (fl : list bool),
    o_method o = MMean -> o_flag o = FlagArr fl -> o_use_invalid o = false ->
    existsb (fun b => b) fl = true ->
    exists e, temporal_collocation store oob ref other w o = Err e.
Proof. exact tc_mean_flag_error. Qed.
Print Assumptions C04_mean_with_flags_refuted.

(* exactly when a marking flag array is rejected by nearest collocation *)
Theorem C04_flag_lengths_partial :
  forall (store : cell -> cell) (oob : Z) (ref : list Z) (other : frame) (w : Z) (fl : list bool) (ui : bool),
    existsb (fun b => b) fl = true ->
    List.length fl <> List.length ref \/ List.length fl <> List.length (dedup_first fst (frows other)) ->
    temporal_collocation store oob ref other w (with_flag nearest_opts fl ui) = Err EValue.
Proof. exact tc_flag_length_error. Qed.
Print Assumptions C04_flag_lengths_partial.

(* ---- C05 ---- *)
Theorem C05_combined :
  forall (store : cell -> cell) (oob : Z) (reference : frame) (others : list frame) (w : Z) (o : tc_opts)
         (cd : combined_dropna) (add_ref : bool) (dfs : list frame),
    NoDup (findex reference) ->
    Forall2 (fun f d => temporal_collocation store oob (findex reference) f w
               (mkOpts (o_method o) false false (o_dropduplicates o) (o_dropna o) (o_flag o) (o_use_invalid o)) = Ok d)
            others dfs ->
    let parts := if add_ref then reference :: dfs else dfs in
    parts <> [] ->
    exists m, combined_temporal_collocation store oob reference others w o cd add_ref = Ok m /\
      fcols m = flat_map fcols parts /\ NoDup (findex m) /\
      (forall t r, In (t, r) (frows m) <->
         (exists f, In f parts /\ has_time f t) /\ row_of parts t r /\ combined_keep cd r).
Proof. exact combined_correct. Qed.
Print Assumptions C05_combined.

Example C05_hypotheses_met :
  let reference := mkFrame ["ref"%string] [(0, [Some 1%Q]); (5, [Some 2%Q]); (9, [None])] in
  let a := mkFrame ["a"%string] [(1, [Some 10%Q]); (9, [Some 11%Q])] in
  let b := mkFrame ["b"%string] [(0, [Some 20%Q]); (5, [Some 21%Q])] in
  let o := mkOpts MNearest false false true true NoFlag false in
  NoDup (findex reference) /\
  combined_temporal_collocation (fun c => c) 0 reference [a; b] 1 o CDAny true =
    Ok (mkFrame ["ref"; "a"; "b"]%string [(0, [Some 1%Q; Some 10%Q; Some 20%Q])]) /\
  combined_temporal_collocation (fun c => c) 0 reference [a; b] 1 o CDAll true =
    Ok (mkFrame ["ref"; "a"; "b"]%string
          [(0, [Some 1%Q; Some 10%Q; Some 20%Q]); (5, [Some 2%Q; None; Some 21%Q]); (9, [None; Some 11%Q; None])]).
Proof.
  conj; [repeat constructor; cbn; intuition lia|vm_compute; reflexivity|vm_compute; reflexivity].
Qed.

(* ---- C06 ---- *)
Theorem C06_asymmetric_window :
  forall (kd : list Z -> Z -> nat) (ref : list Z) (arg : frame) (w : Z) (a : asym),
    kd_correct kd -> 0 < w -> a <> AsymOther -> ref <> [] -> frows arg <> [] ->
    exists rows, df_match kd ref arg (Some w) a false false = Ok rows /\
      Permutation (map fst rows) ref /\ StronglySorted Z.le (map fst rows) /\
      forall t o, In (t, o) rows -> exists m, nearest_match arg t m /\
        ((in_asym_window a w (m_dist m) /\ o = Some m) \/ (~ in_asym_window a w (m_dist m) /\ o = None)).
Proof. exact df_match_window. Qed.
Print Assumptions C06_asymmetric_window.

Theorem C06_dropduplicates :
  forall (kd : list Z -> Z -> nat) (ref : list Z) (arg : frame) (w : Z) (a : asym) (dn : bool),
    kd_correct kd -> 0 < w -> a <> AsymOther -> NoDup ref -> ref <> [] -> frows arg <> [] ->
    exists rows, df_match kd ref arg (Some w) a dn true = Ok (map (fun x => (fst x, Some (snd x))) rows) /\
      (forall t m, In (t, m) rows -> In t ref /\ nearest_match arg t m /\ in_asym_window a w (m_dist m)) /\
      NoDup (map (fun x => m_key (snd x)) rows) /\
      (forall t, In t ref -> exists m, nearest_match arg t m /\ (in_asym_window a w (m_dist m) ->
         exists t' m', In (t', m') rows /\ m_key m' = m_key m /\ Z.abs (m_dist m') <= Z.abs (m_dist m))).
Proof. exact df_match_dups. Qed.
Print Assumptions C06_dropduplicates.

Example C06_hypotheses_met :
  kd_correct scan_nearest /\
  df_match scan_nearest [0; 4; 6; 20] (mkFrame ["x"%string] [(5, [Some 1%Q]); (18, [Some 2%Q])]) (Some 2) AsymGE true true =
  Ok [(4, Some (mkMrow 0 1 5 [Some 1%Q])); (20, Some (mkMrow 1 (-2) 18 [Some 2%Q]))].
Proof. split; [exact scan_nearest_correct|vm_compute; reflexivity]. Qed.

(* ---- C67 ---- *)
Theorem C67_index_and_distance :
  forall (store : cell -> cell) (oob : Z) (ref : list Z) (other : frame) (w : Z) (ri : bool),
    wf_frame other ->
    monotone_times (findex (mkFrame (fcols other) (dedup_first fst (frows other)))) ->
    exists g, temporal_collocation store oob ref other w (mkOpts MNearest ri true false false NoFlag false) =
        Ok (mkFrame (fcols other ++ ["index_other"; "distance_other"]%string)
              (map (fun t => (t, g t)) (dedup_first (fun t => t) ref))) /\
      forall t,
        (exists s r, g t = r ++ [Some (inject_Z s); Some (inject_Z s - inject_Z t)%Q] /\
            find (fun o => fst o =? s) (frows other) = Some (s, r) /\ Z.abs (s - t) <= w /\
            forall s' r', In (s', r') (frows other) ->
              Z.abs (s - t) < Z.abs (s' - t) \/ (Z.abs (s - t) = Z.abs (s' - t) /\ s' <= s))
        \/ (g t = repeat None (List.length (fcols other) + 2) /\
            forall s' r', In (s', r') (frows other) -> w < Z.abs (s' - t)).
Proof. exact tc_nearest_distance. Qed.
Print Assumptions C67_index_and_distance.

Example C67_hypotheses_met :
  wf_frame ex_other /\
  temporal_collocation (fun c => c) 0 [0; 12] ex_other 1 (mkOpts MNearest false true false false NoFlag false) =
  Ok (mkFrame ["sm"; "temp"; "index_other"; "distance_other"]%string
        [(0, [Some 1%Q; None; Some 0%Q; Some (0 - 0)%Q]);
         (12, [Some 2%Q; Some 9%Q; Some 13%Q; Some (13 - 12)%Q])]).
Proof.
  split; [|vm_compute; reflexivity].
  intros t r [[= <- <-]|[[= <- <-]|[[= <- <-]|[[= <- <-]|[]]]]]; reflexivity.
Qed.

(* with flags and use_invalid=True the index reported may belong to another observation than the value *)
Theorem C67_index_with_fallback_refuted :
  exists (ref : list Z) (other : frame) (w : Z) (fl : list bool) (out : frame) (t : Z) (v i : Q),
    NoDup (findex other) /\ chronological (findex other) /\
    temporal_collocation (fun c => c) 0 ref other w (mkOpts MNearest true false false false (FlagArr fl) true) = Ok out /\
    In (t, [Some v; Some i]) (frows out) /\
    ~ (exists s, inject_Z s = i /\ In (s, [Some v]) (frows other)).
Proof.
  exists [0; 5], (mkFrame ["sm"%string] [(0, [None]); (1, [Some 7%Q])]), 1, [false; true].
  eexists. exists 0, 7%Q, (inject_Z 0).
  split; [repeat constructor; cbn; intuition lia|]. split; [apply sortedb_spec; reflexivity|].
  split; [vm_compute; reflexivity|]. split; [left; reflexivity|].
  intros (s & Hs & Hin). injection Hs as ->. destruct Hin as [H|[H|[]]]; discriminate.
Qed.
Print Assumptions C67_index_with_fallback_refuted.
