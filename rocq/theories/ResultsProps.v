(* Property theorems C37-C39, C69: the results manager. *)
From Verif Require Import ResultsSpec BaseProofs NamesProofs MatchersProofs ResultsProofs ResultsProofs2.
From Verif Require Import TemporalModel TemporalSpec.
Open Scope Z_scope.

(* ------------------------------------------------------------------ C37 *)
(* Partial: variables are introduced while the file has no location (see the refutation). *)
Theorem C37_locations_read_back_partial :
  forall h : list call, ok_history empty_table h ->
    exists s, exec_all new_file h = Ok s /\ f_loc s = List.length (t_locs (stored h)) /\
      forall i lon lat values, nth_error (t_locs (stored h)) i = Some ((lon, lat), values) ->
        exists fields, read_loc s i = Ok fields /\ NoDup (map fst fields) /\
          forall n c, In (n, c) fields <->
            (n = "lon"%string /\ c = Some lon) \/ (n = "lat"%string /\ c = Some lat) \/
            (In n (t_lnames (stored h)) /\ c = values n).
Proof.
  intros h H. destruct (exec_all_ok h new_file empty_table inv_new H) as (s & E & I). exists s. split; [exact E|]. split; [exact (i_loc _ _ I)|].
  intros i lon lat values Hn. destruct (read_loc_ok s _ i _ I Hn) as (fields & E1 & N & R). exists fields. auto.
Qed.
(* a call returns the indices of its locations: the next numbers *)
Theorem C37_indices_returned :
  forall (h : list call) lons lats results, ok_history empty_table (h ++ [AddMetrics lons lats results]) ->
    exists s s', exec_all new_file h = Ok s /\
      add_metrics_results s lons lats results = Ok (s', map nat_num (seq (List.length (t_locs (stored h))) (List.length lons))).
Proof.
  intros h lons lats results H. apply ok_history_app in H as [H1 [H2 _]].
  destruct (exec_all_ok h new_file empty_table inv_new H1) as (s & E & I). destruct (step_metrics s _ _ _ _ I H2) as (s' & E' & _).
  exists s, s'. split; [exact E|]. exact E'.
Qed.
(* arrays of different lengths are rejected and nothing is written *)
Theorem C37_shape_error :
  forall s lons lats results,
    ~ (List.length lats = List.length lons /\ forall n l, In (n, l) results -> List.length l = List.length lons) ->
    add_metrics_results s lons lats results = Err EValue.
Proof.
  intros s lons lats results H. unfold add_metrics_results.
  destruct (forallb (Nat.eqb (List.length lons)) (List.length lats :: map (fun r : field * list cell => List.length (snd r)) results)) eqn:E; [|reflexivity].
  exfalso. apply H. rewrite forallb_forall in E. split.
  - symmetry. apply Nat.eqb_eq, E. left. reflexivity.
  - intros n l Hl. symmetry. apply Nat.eqb_eq, E. right. apply in_map_iff. exists (n, l). auto.
Qed.
Section Ex37.
Open Scope string_scope.
Definition ex_h : list call :=
  [AddMetrics [10%Q; 20%Q] [1%Q; 2%Q] [(FName "R", [Some 5%Q; None]); (FTuple ["s"; "n"], [Some 7%Q; Some 8%Q])];
   AddMetrics [30%Q] [3%Q] [(FName "R", [Some 6%Q])]].
Example C37_ex_ok : ok_history empty_table ex_h.
Proof.
  cbn. split; [|split; [|exact I]].
  - split; [discriminate|]. split; [reflexivity|]. split; [|split].
    + intros n l [E|[E|[]]]; injection E as <- <-; reflexivity.
    + split; [repeat constructor; cbn; intuition discriminate|]. intros n [<-|[<-|[]]]; cbn; intuition discriminate.
    + auto.
  - split; [discriminate|]. split; [reflexivity|]. split; [|split].
    + intros n l [E|[]]; injection E as <- <-; reflexivity.
    + split; [repeat constructor; cbn; intuition discriminate|]. intros n [<-|[]]; cbn; intuition discriminate.
    + intros n [<-|[]]. cbn. auto.
Qed.
Example C37_ex : bindR (exec_all new_file ex_h) (fun s => seqR (map (read_loc s) [0; 1; 2]%nat)) =
  Ok [[("lon", Some 10%Q); ("lat", Some 1%Q); ("R", Some 5%Q); ("s__n", Some 7%Q)];
      [("lon", Some 20%Q); ("lat", Some 2%Q); ("R", None); ("s__n", Some 8%Q)];
      [("lon", Some 30%Q); ("lat", Some 3%Q); ("R", Some 6%Q); ("s__n", None)]].
Proof. vm_compute. reflexivity. Qed.
(* A variable that first appears in a later call is written from location 0 on: the value stored
   with location 1 is read back at location 0. *)
Theorem C37_late_variable_refuted :
  exists s s' ids, exec_all new_file [AddMetrics [10%Q] [1%Q] [(FName "R", [Some 5%Q])]] = Ok s /\
    add_metrics_results s [20%Q] [2%Q] [(FName "rho", [Some 7%Q])] = Ok (s', ids) /\ ids = [nat_num 1] /\
    read_loc s' 1%nat = Ok [("lon", Some 20%Q); ("lat", Some 2%Q); ("R", None); ("rho", None)] /\
    read_loc s' 0%nat = Ok [("lon", Some 10%Q); ("lat", Some 1%Q); ("R", Some 5%Q); ("rho", Some 7%Q)].
Proof.
  eexists. eexists. eexists. split; [vm_compute; reflexivity|]. split; [vm_compute; reflexivity|]. split; [vm_compute; reflexivity|]. split; vm_compute; reflexivity.
Qed.
End Ex37.
Print Assumptions C37_locations_read_back_partial.
Print Assumptions C37_indices_returned.
Print Assumptions C37_shape_error.
Print Assumptions C37_late_variable_refuted.

(* ------------------------------------------------------------------ C38 *)
(* Partial: time series variables are introduced while no time stamp is stored, and time series are
   added in the order of the locations. *)
Theorem C38_series_read_back_partial :
  forall h : list call, ok_history empty_table h -> t_tnames (stored h) <> [] ->
    exists s, exec_all new_file h = Ok s /\
      forall i times values, nth_error (t_series (stored h)) i = Some (times, values) ->
        exists cols, read_ts s i = Ok (map Some times, cols) /\ NoDup (map fst cols) /\
          forall n l, In (n, l) cols <->
            In n (t_tnames (stored h)) /\ l = match values n with Some l => l | None => repeat None (List.length times) end.
Proof.
  intros h H T. destruct (exec_all_ok h new_file empty_table inv_new H) as (s & E & I). exists s. split; [exact E|].
  intros i times values Hn. exact (read_ts_ok s _ i _ I Hn T).
Qed.
(* sequences of add_result calls amount to such histories, with the k-th result at location k *)
Theorem C38_results_are_calls :
  forall rs : list result, ok_history empty_table (all_calls 0 rs) ->
    (forall r, In r rs -> r_ts r <> [] -> r_times r <> None) ->
    exists s, store_results new_file rs = Ok s /\ exec_all new_file (all_calls 0 rs) = Ok s.
Proof.
  intros rs. assert (G : forall s t, inv s t -> ok_history t (all_calls (List.length (t_locs t)) rs) -> (forall r, In r rs -> r_ts r <> [] -> r_times r <> None) ->
     store_results s rs = exec_all s (all_calls (List.length (t_locs t)) rs)).
  { unfold store_results, exec_all. induction rs as [|r rs IH]; intros s t I H TM; [reflexivity|]. cbn [fold_left all_calls bindR].
    cbn [all_calls] in H. apply ok_history_app in H as [H1 H2]. rewrite fold_left_app.
    destruct (add_result_step s t r I H1) as (s1 & E1 & I1 & L1); [apply TM; left; reflexivity|]. rewrite E1.
    assert (E1' : fold_left (fun acc c => bindR acc (fun s => exec s c)) (result_calls (List.length (t_locs t)) r) (Ok s) = Ok s1).
    { clear IH H2. unfold store_result, add_result in E1. fold (r_metrics r) in E1. 
      change (map (fun r0 : field * list cell => (var_name (fst r0), snd r0)) (filter (fun e => is_ts (r_tsvars r) (fst e)) (r_data r))) with (r_ts r) in E1.
      unfold result_calls in *. destruct H1 as [Ha Hb]. destruct (step_metrics s t _ _ _ I Ha) as (s0 & E0 & I0). cbn [List.length seq map] in E0.
      assert (CI : cell_index (nat_num (List.length (t_locs t))) = Ok (List.length (t_locs t))).
      { unfold cell_index, nat_num, z_num. rewrite Qround.Qfloor_Z, Nat2Z.id. reflexivity. }
      destruct (r_ts r) as [|x l]; destruct (r_times r) as [times|]; cbn [fold_left bindR exec]; rewrite E0 in *; cbn [bindR mapR fst snd] in *; try exact E1; try discriminate.
      rewrite CI in E1. cbn [bindR] in E1. exact E1. }
    rewrite E1'. rewrite <- L1 in *. apply IH; [exact I1|exact H2|]. intros; apply TM; [right|]; assumption. }
  intros H TM. destruct (exec_all_ok _ new_file empty_table inv_new H) as (s & E & _). exists s. split; [|exact E].
  rewrite (G new_file empty_table inv_new H TM). exact E.
Qed.
Theorem C38_times_required :
  forall s lon lat data ts_vars, (exists e, In e data /\ is_ts ts_vars (fst e) = true) ->
    add_result s lon lat data ts_vars None = Err EValue.
Proof.
  intros s lon lat data tv (e & He & Ht). unfold add_result.
  destruct (map _ (filter (fun r => is_ts tv (fst r)) data)) eqn:E; [|reflexivity].
  apply map_eq_nil in E. assert (X : In e (filter (fun r => is_ts tv (fst r)) data)) by (apply filter_In; auto). rewrite E in X. contradiction.
Qed.
Section Ex38.
Open Scope string_scope.
Definition ex_rs : list result :=
  [mkResult 10 1 [(FName "n", [Some 2%Q]); (FName "rR", [Some 1%Q; Some 2%Q])] ["rR"; "rp"] (Some [100%Q; 101%Q]);
   mkResult 20 2 [(FName "n", [Some 0%Q])] ["rR"; "rp"] None;
   mkResult 30 3 [(FName "n", [Some 1%Q]); (FName "rR", [Some 3%Q])] ["rR"; "rp"] (Some [100%Q])].
Example C38_ex_ok : ok_history empty_table (all_calls 0 ex_rs).
Proof.
  cbn. repeat match goal with |- _ /\ _ => split end; try exact I; try discriminate; try reflexivity; try lia;
    try (repeat constructor; cbn; intuition discriminate);
    try (intros n l H; repeat destruct H as [H|H]; try contradiction; injection H as <- <-; reflexivity);
    try (intros n H; repeat destruct H as [H|H]; try contradiction; subst n; cbn; intuition discriminate);
    try (intros e H; repeat destruct H as [H|H]; try contradiction; subst e; reflexivity).
  3: { intros n [<-|[]]. right. intros e [<-|[]]. reflexivity. }
  all: split; [repeat constructor; cbn; intuition discriminate|]; intros n [<-|[]]; cbn; intuition discriminate.
Qed.
Example C38_ex : bindR (store_results new_file ex_rs) (fun s => seqR (map (read_ts s) [0; 1; 2]%nat)) =
  Ok [([Some 100%Q; Some 101%Q], [("rR", [Some 1%Q; Some 2%Q])]); ([], [("rR", [])]); ([Some 100%Q], [("rR", [Some 3%Q])])].
Proof. vm_compute. reflexivity. Qed.
(* a time series variable that first appears with a later location is read back shifted *)
Theorem C38_late_variable_refuted :
  exists s, store_results new_file
      [mkResult 10 1 [(FName "rR", [Some 1%Q; Some 2%Q])] ["rR"; "rp"] (Some [100%Q; 101%Q]);
       mkResult 20 2 [(FName "rR", [Some 3%Q]); (FName "rp", [Some 4%Q])] ["rR"; "rp"] (Some [100%Q])] = Ok s /\
    read_ts s 1%nat = Ok ([Some 100%Q], [("rR", [Some 3%Q]); ("rp", [None])]) /\
    read_ts s 0%nat = Ok ([Some 100%Q; Some 101%Q], [("rR", [Some 1%Q; Some 2%Q]); ("rp", [Some 4%Q; None])]).
Proof. eexists. split; [vm_compute; reflexivity|]. split; vm_compute; reflexivity. Qed.
(* add_ts_results for an earlier location after a later one overwrites the later one's data *)
Theorem C38_unordered_series_refuted :
  exists s, exec_all new_file
      [AddMetrics [10%Q; 20%Q] [1%Q; 2%Q] []; AddTs 1 [100%Q; 101%Q] [("rR", [Some 1%Q; Some 2%Q])]; AddTs 0 [100%Q] [("rR", [Some 9%Q])]] = Ok s /\
    read_ts s 0%nat = Ok ([Some 100%Q], [("rR", [Some 9%Q])]) /\
    read_ts s 1%nat = Ok ([Some 101%Q], [("rR", [Some 2%Q])]).
Proof. eexists. split; [vm_compute; reflexivity|]. split; vm_compute; reflexivity. Qed.
End Ex38.
Print Assumptions C38_series_read_back_partial.
Print Assumptions C38_results_are_calls.
Print Assumptions C38_late_variable_refuted.
Print Assumptions C38_unordered_series_refuted.

(* ------------------------------------------------------------------ C39 *)
(* Partial: different combinations get different files if the full names fit and the names can be
   told apart (no "." in dataset names, no "with" in any name). *)
Theorem C39_distinct_files_partial :
  forall (root : string) (k1 k2 : list dscol),
    (forall p, In p k1 -> clear_pair p) -> (forall p, In p k2 -> clear_pair p) -> k1 <> [] -> k2 <> [] ->
    (String.length (path_join root (with_ext (full_name k1))) <= 255)%nat ->
    (String.length (path_join root (with_ext (full_name k2))) <= 255)%nat ->
    build_filename root (pair_key k1) = build_filename root (pair_key k2) -> k1 = k2.
Proof. exact build_filename_inj. Qed.
Theorem C39_length_partial :
  forall root key f, build_filename root key = Ok f -> (String.length root <= 241)%nat -> (String.length f <= 255)%nat.
Proof. exact build_filename_length. Qed.
Section Ex39.
Open Scope string_scope.
Example C39_ex : build_filename "/data" (pair_key [("ASCAT", "sm"); ("ISMN", "soil_moisture")]) = Ok "/data/ASCAT.sm_with_ISMN.soil_moisture.nc".
Proof. vm_compute. reflexivity. Qed.
Lemma avoids_dec w s : (forall i, (i <= String.length s)%nat -> prefix w (substring i (String.length s - i) s) = false) -> avoids w s.
Proof.
  intros H a b ->. specialize (H (String.length a)). rewrite str_app_length in H. specialize (H ltac:(lia)).
  assert (E : substring (String.length a) (String.length a + String.length (w ++ b) - String.length a) (a ++ w ++ b) = w ++ b).
  { replace (String.length a + String.length (w ++ b) - String.length a)%nat with (String.length (w ++ b)) by lia.
    clear. induction a as [|c a IH]; [cbn|exact IH]. induction (w ++ b) as [|c s IH]; [reflexivity|]. cbn. f_equal. exact IH. }
  rewrite E in H. clear -H. induction w as [|c w IH]; cbn in *; [destruct b; discriminate|]. destruct (ascii_dec c c); [exact (IH H)|contradiction].
Qed.
Example C39_ex_clear : forall p, In p [("ASCAT", "sm"); ("ISMN", "soil_moisture")] -> clear_pair p.
Proof.
  assert (D : forall w s, forallb (fun i => negb (prefix w (substring i (String.length s - i) s))) (seq 0 (S (String.length s))) = true -> avoids w s).
  { intros w s H. apply avoids_dec. intros i Hi. rewrite forallb_forall in H. apply negb_true_iff, H, in_seq. lia. }
  intros p [<-|[<-|[]]]; (split; [apply D; reflexivity|split; [apply D; reflexivity|intros s; discriminate]]).
Qed.
(* Different combinations, same file. *)
Theorem C39_same_file_refuted :
  exists k1 k2, k1 <> k2 /\ build_filename "/d" (pair_key k1) = Ok "/d/a.b.c.nc" /\ build_filename "/d" (pair_key k2) = Ok "/d/a.b.c.nc".
Proof. exists [("a.b", "c")], [("a", "b.c")]. split; [discriminate|]. split; vm_compute; reflexivity. Qed.
Fixpoint rep (n : nat) (s : string) : string := match n with O => "" | S n => s ++ rep n s end.
(* long names: the columns are dropped, so two columns of a dataset share a file *)
Theorem C39_long_names_refuted :
  exists k1 k2, k1 <> k2 /\ build_filename "/d" (pair_key k1) = Ok "/d/a_with_b.nc" /\ build_filename "/d" (pair_key k2) = Ok "/d/a_with_b.nc".
Proof.
  exists [("a", rep 250 "x"); ("b", "y")], [("a", rep 250 "x"); ("b", "z")]. split; [discriminate|]. split; vm_compute; reflexivity.
Qed.
Theorem C39_too_long_refuted :
  exists root key f, build_filename root key = Ok f /\ (255 < String.length f)%nat.
Proof. exists (rep 250 "r"), (pair_key [("a", "x"); ("b", "y")]). eexists. split; [vm_compute; reflexivity|]. apply Nat.ltb_lt. vm_compute. reflexivity. Qed.
End Ex39.
Print Assumptions C39_distinct_files_partial.
Print Assumptions C39_length_partial.
Print Assumptions C39_same_file_refuted.
Print Assumptions C39_long_names_refuted.
Print Assumptions C39_too_long_refuted.

(* ------------------------------------------------------------------ C69 *)
(* every result key is written to its own new file, which holds exactly the locations of that key *)
Theorem C69_one_file_per_key_partial :
  forall (d : disk) (name_of : list kelem -> res string) (results : list (list kelem * key_results)) (contents : list content) (names : list string),
    Forall2 (fun kr c => fst c = fst kr /\ let '(lons, lats, ms) := snd c in holds_content (snd kr) lons lats ms) results contents ->
    Forall2 (fun kr n => name_of (fst kr) = Ok n) results names -> NoDup names ->
    (forall n, In n names -> dict_get d n = None) ->
    (forall c, In c contents -> ok_call empty_table (content_call c)) ->
    exists d', write_results d name_of None results = Ok d' /\
      Forall2 (fun c n => exists s, dict_get d' n = Some s /\ exec_all new_file [content_call c] = Ok s) contents names /\
      (forall n, ~ In n names -> dict_get d' n = dict_get d n).
Proof.
  intros d name_of results contents names F1 F2 N A O. destruct (write_results_ok name_of results d contents names None F1 F2 N A O) as (d' & E & H & R).
  exists d'. split; [|split; [exact H|exact R]]. unfold write_results. match goal with |- mapR _ ?x = _ => assert (E2 : x = Ok (d', None)) by exact E; rewrite E2 end. reflexivity.
Qed.
Section Ex69.
Open Scope string_scope.
Definition ex_kr : list (list kelem * key_results) :=
  [(pair_key [("a", "x"); ("b", "y")], [(FName "n", [Sc (Some 3%Q); Sc None]); (FName "lat", [Sc (Some 1%Q); Sc (Some 2%Q)]); (FName "lon", [Sc (Some 10%Q); Sc (Some 20%Q)])]);
   (pair_key [("a", "x"); ("c", "z")], [(FName "lon", [Sc (Some 10%Q)]); (FName "lat", [Sc (Some 1%Q)]); (FName "n", [Sc (Some 7%Q)])])].
Example C69_ex : bindR (write_results [] (build_filename "/d") None ex_kr) (fun d =>
    Ok (map (fun e => (fst e, map (read_loc (snd e)) (seq 0 (f_loc (snd e))))) d)) =
  Ok [("/d/a.x_with_b.y.nc", [Ok [("lon", Some 10%Q); ("lat", Some 1%Q); ("n", Some 3%Q)]; Ok [("lon", Some 20%Q); ("lat", Some 2%Q); ("n", None)]]);
      ("/d/a.x_with_c.z.nc", [Ok [("lon", Some 10%Q); ("lat", Some 1%Q); ("n", Some 7%Q)]])].
Proof. vm_compute. reflexivity. Qed.
Example C69_ex_content : holds_content (snd (nth 0 ex_kr ([], []))) [10%Q; 20%Q] [1%Q; 2%Q] [(FName "n", [Some 3%Q; None])].
Proof. split; [repeat constructor; cbn; intuition discriminate|]. cbn. auto 6. Qed.
(* two keys with the same file name: the locations of both end up in one file *)
Theorem C69_mixed_results_refuted :
  exists d, write_results [] (build_filename "/d") None
     [(pair_key [("a.b", "c")], [(FName "lon", [Sc (Some 1%Q)]); (FName "lat", [Sc (Some 2%Q)]); (FName "n", [Sc (Some 3%Q)])]);
      (pair_key [("a", "b.c")], [(FName "lon", [Sc (Some 1%Q)]); (FName "lat", [Sc (Some 2%Q)]); (FName "n", [Sc (Some 4%Q)])])] = Ok d /\
    exists f, d = [("/d/a.b.c.nc", f)] /\ f_loc f = 2%nat /\
      read_loc f 0 = Ok [("lon", Some 1%Q); ("lat", Some 2%Q); ("n", Some 3%Q)] /\ read_loc f 1 = Ok [("lon", Some 1%Q); ("lat", Some 2%Q); ("n", Some 4%Q)].
Proof. eexists. split; [vm_compute; reflexivity|]. eexists. split; [reflexivity|]. split; [reflexivity|]. split; vm_compute; reflexivity. Qed.
(* the coordinates are popped from the caller's dictionaries: a second call fails *)
Theorem C69_not_repeatable_refuted :
  exists results d, write_results [] (build_filename "/d") None results = Ok d /\
    write_results [] (build_filename "/e") None (map (fun kr => (fst kr, popped (snd kr))) results) = Err EKey.
Proof. exists ex_kr. eexists. split; vm_compute; reflexivity. Qed.
(* with time series variables and a key without "time": an error for the first key, and for a later
   key the time stamps of the key before *)
Definition ts_key (n : string) (t : list (field * list entry)) : list kelem * key_results :=
  (pair_key [("a", n)], [(FName "lon", [Sc (Some 1%Q)]); (FName "lat", [Sc (Some 2%Q)])]%list ++ t ++ [(FName "rR", [Ar [Some 5%Q]])])%list.
Theorem C69_missing_time_refuted :
  write_results [] (build_filename "/d") (Some ["rR"]) [ts_key "x" []] = Err EOther /\
  exists d, write_results [] (build_filename "/d") (Some ["rR"]) [ts_key "x" [(FName "time", [Ar [Some 100%Q]])]; ts_key "y" []] = Ok d /\
    option_map (fun s => read_ts s 0) (dict_get d "/d/a.y.nc") = Some (Ok ([Some 100%Q], [("rR", [Some 5%Q])])).
Proof. split; [vm_compute; reflexivity|]. eexists. split; vm_compute; reflexivity. Qed.
End Ex69.
Print Assumptions C69_one_file_per_key_partial.
Print Assumptions C69_mixed_results_refuted.
Print Assumptions C69_not_repeatable_refuted.
Print Assumptions C69_missing_time_refuted.
