(* C80, C81: parallel validation and crashes while results are stored. *)
From Coq Require Import Lia.
From Verif Require Import ResultsProofs ResultsProofs2 StartSpec StartProofs StartProofs2 StartProofs3 StartProofs4 TemporalModel.
Open Scope nat_scope.

(* ------------------------------------------------------------------ C80 *)
(* at every moment of every schedule the disk holds what storing the results of the first jobs one
   after the other gives: results are stored in job order, each exactly once, none left out; a run
   that ends normally has stored all of them *)
Theorem C80_job_order :
  forall (J R D : Type) (process : J -> R) (store : D -> R -> D * option err) (jobs : list J) (d : D) (schedule : list event) (s : cstate D),
    run process store jobs (initial jobs d) schedule = Some s ->
    exists k, k <= List.length jobs /\ (s_out s = Ended -> k = List.length jobs) /\
      sequential store d (map process (firstn k jobs)) = (s_disk s, match s_out s with StoreError e => Some e | _ => None end).
Proof.
  intros J R D process store jobs d schedule s E.
  destruct (ok_run _ _ _ _ _ _ _ schedule _ _ (ok_initial _ _ _ process store jobs d) E) as [_ O].
  destruct (s_out s) as [| | |e|] eqn:U.
  - exists (s_written s). split; [exact (proj1 O)|]. split; [congruence|exact (proj2 O)].
  - exists (List.length jobs). split; [lia|]. split; [auto|]. rewrite firstn_all. exact (proj2 O).
  - exists (s_written s). split; [exact (proj1 O)|]. split; [congruence|exact (proj2 O)].
  - exists (S (s_written s)). split; [lia|]. split; [congruence|exact (proj2 O)].
  - exists (s_written s). split; [exact (proj1 O)|]. split; [congruence|exact (proj2 O)].
Qed.
(* the order in which the engines finish, and failed attempts, leave no trace in what is stored *)
Theorem C80_schedule_independent :
  forall (J R D : Type) (process : J -> R) (store : D -> R -> D * option err) (jobs : list J) (d : D) (l1 l2 : list event) (s1 s2 : cstate D),
    run process store jobs (initial jobs d) l1 = Some s1 -> run process store jobs (initial jobs d) l2 = Some s2 ->
    s_out s1 = Ended -> s_out s2 = Ended -> s_disk s1 = s_disk s2.
Proof.
  intros J R D process store jobs d l1 l2 s1 s2 E1 E2 U1 U2.
  destruct (ok_run _ _ _ _ _ _ _ l1 _ _ (ok_initial _ _ _ process store jobs d) E1) as [_ O1]. rewrite U1 in O1.
  destruct (ok_run _ _ _ _ _ _ _ l2 _ _ (ok_initial _ _ _ process store jobs d) E2) as [_ O2]. rewrite U2 in O2.
  destruct O1 as [_ O1], O2 as [_ O2]. congruence.
Qed.
(* an attempt at a job may fail twice: the run fails only if some job has failed three times *)
Theorem C80_two_failures_tolerated :
  forall (J R D : Type) (process : J -> R) (store : D -> R -> D * option err) (jobs : list J) (d : D) (schedule : list event) (s : cstate D),
    run process store jobs (initial jobs d) schedule = Some s -> s_out s = RemoteError ->
    exists i, i < List.length jobs /\ failures_of i schedule = 3.
Proof. intros. eapply remote_error_why; eassumption. Qed.
(* no schedule is longer than three attempts at each job and one step of the client for each, plus
   one: there is no livelock *)
Theorem C80_terminates :
  forall (J R D : Type) (process : J -> R) (store : D -> R -> D * option err) (jobs : list J) (d : D) (schedule : list event) (s : cstate D),
    run process store jobs (initial jobs d) schedule = Some s -> List.length schedule <= 4 * List.length jobs + 1.
Proof. intros. eapply schedule_bound; eassumption. Qed.
(* and no deadlock: as long as no job has failed three times, the jobs and the client can go on to
   the end *)
Theorem C80_no_deadlock :
  forall (J R D : Type) (process : J -> R) (store : D -> R -> D * option err) (jobs : list J) (d : D) (schedule : list event) (s : cstate D),
    run process store jobs (initial jobs d) schedule = Some s -> s_out s = Running -> (forall i, failures_of i schedule <= 2) ->
    exists rest s', run process store jobs s rest = Some s' /\ (forall e, In e rest -> e = Collect \/ exists i, e = Succeed i) /\
      (s_out s' = Ended \/ exists e, s_out s' = StoreError e).
Proof.
  intros J R D process store jobs d schedule s E U F. destruct (can_finish _ _ _ _ _ _ _ schedule s E U F) as (l & s' & E' & G & O). exists l, s'.
  split; [exact E'|]. split; [|exact O]. intros e He. specialize (G e He). destruct e; try contradiction; eauto.
Qed.
(* the files: every file holds exactly the locations of the results that go to it, in job order.
   [calls]: for each job the file and the coordinates and metrics of each of its results *)
Theorem C80_files_partial :
  forall (J : Type) (name_of : list kelem -> res string) (process : J -> list (list kelem * key_results)) (jobs : list J) (schedule : list event) (s : cstate disk)
         (calls : list (list (string * call))),
    run process (store_files name_of) jobs (initial jobs []) schedule = Some s ->
    Forall2 (Forall2 (means name_of)) (map process jobs) calls ->
    (forall n, ok_history empty_table (calls_to n (List.concat calls))) ->
    (forall e, s_out s <> StoreError e) /\
    (s_out s = Ended -> forall n,
      (calls_to n (List.concat calls) = [] -> dict_get (s_disk s) n = None) /\
      (calls_to n (List.concat calls) <> [] ->
        exists f, dict_get (s_disk s) n = Some f /\ exec_all new_file (calls_to n (List.concat calls)) = Ok f /\
          f_loc f = List.length (t_locs (stored (calls_to n (List.concat calls)))) /\
          forall i lon lat values, nth_error (t_locs (stored (calls_to n (List.concat calls)))) i = Some ((lon, lat), values) ->
            exists fields, read_loc f i = Ok fields /\ NoDup (map fst fields) /\
              forall m c, In (m, c) fields <->
                (m = "lon"%string /\ c = Some lon) \/ (m = "lat"%string /\ c = Some lat) \/
                (In m (t_lnames (stored (calls_to n (List.concat calls)))) /\ c = values m))).
Proof.
  intros J name_of process jobs schedule s calls E F OK.
  destruct (ok_run _ _ _ _ _ _ _ schedule _ _ (ok_initial _ _ _ process (store_files name_of) jobs []) E) as [_ O].
  destruct (tracks_sequential name_of (map process jobs) [] [] calls tracks_empty F OK) as (d & Ed & T). cbn [app] in T. split.
  - intros e U. rewrite U in O. destruct O as [L O].
    assert (FK : Forall2 (Forall2 (means name_of)) (map process (firstn (S (s_written s)) jobs)) (firstn (S (s_written s)) calls)).
    { rewrite <- firstn_map. clear -F. revert F. generalize (S (s_written s)) as k. generalize (map process jobs) as rs. intros rs k F. revert k. induction F as [|r c rs cs M F IH]; intros [|k]; cbn; constructor; auto. }
    destruct (tracks_sequential name_of _ [] [] _ tracks_empty FK) as (d' & Ed' & _).
    { intros n. cbn [app]. apply (ok_prefix n _ (List.concat (skipn (S (s_written s)) calls))). rewrite <- concat_app, firstn_skipn. apply OK. }
    congruence.
  - intros U n. rewrite U in O. destruct O as [_ O]. rewrite Ed in O. injection O as <-. specialize (T n). split.
    + intros Z. rewrite Z in T. exact T.
    + intros NE. destruct (exec_all_ok _ new_file empty_table inv_new (OK n)) as (f & Ef & I). exists f.
      destruct (calls_to n (List.concat calls)) as [|c h] eqn:X; [contradiction|]. destruct T as (f' & Gf & Ef'). assert (f' = f) by congruence. subst f'.
      split; [exact Gf|]. split; [exact Ef|]. split; [exact (i_loc _ _ I)|]. intros i lon lat values Hn.
      destruct (read_loc_ok f _ i _ I Hn) as (fields & R1 & R2 & R3). exists fields. auto.
Qed.
(* without the variable save_path nothing is started; without the variable jobs the missing
   variable is reported and then an exception is raised all the same *)
Theorem C80_no_save_path :
  forall (J D P : Type) (jobs : list J) (d : D), start_validation (P := P) (Some jobs) None d = Ok None.
Proof. reflexivity. Qed.
Theorem C80_jobs_undefined_refuted :
  forall (J D P : Type) (save_path : option P) (d : D), start_validation (J := J) None save_path d = Err EType.
Proof. reflexivity. Qed.

Section Ex80.
Open Scope string_scope.
(* job i: one location with longitude i and the metric R *)
Definition ex_name (k : list kelem) : res string := build_filename "/d" k.
Definition ex_process (i : nat) : list (list kelem * key_results) :=
  [([KTuple ["a"; "x"]; KTuple ["b"; "y"]],
    [(FName "lon", [Sc (nat_num i)]); (FName "lat", [Sc (Some 2%Q)]); (FName "R", [Sc (nat_num (i + 5))])])].
Definition ex_run (l : list event) : option (cstate disk) := run ex_process (store_files ex_name) [1; 2; 3] (initial [1; 2; 3] []) l.
Definition ex_file : string := "/d/a.x_with_b.y.nc".
Definition ex_read (s : cstate disk) : option (list (res (list (string * cell)))) :=
  option_map (fun f => map (read_loc f) (seq 0 (f_loc f))) (dict_get (s_disk s) ex_file).
Definition ex_loc (i : nat) : res (list (string * cell)) := Ok [("lon", nat_num i); ("lat", Some 2%Q); ("R", nat_num (i + 5))].
(* two schedules with the same files: in job order, and with engines finishing in reverse order and
   two failures *)
Example C80_ex1 : option_map (fun s => (s_out s, ex_read s)) (ex_run [Succeed 0; Collect; Succeed 1; Collect; Succeed 2; Collect; Collect]) = Some (Ended, Some [ex_loc 1; ex_loc 2; ex_loc 3]).
Proof. vm_compute. reflexivity. Qed.
Example C80_ex2 : option_map (fun s => (s_out s, ex_read s)) (ex_run [Succeed 2; Fail 1; Fail 1; Succeed 1; Succeed 0; Collect; Collect; Collect; Collect]) = Some (Ended, Some [ex_loc 1; ex_loc 2; ex_loc 3]).
Proof. vm_compute. reflexivity. Qed.
Example C80_ex3 : forall n, ok_history empty_table (calls_to n (List.concat (map (fun i => [(ex_file, AddMetrics [inject_Z (Z.of_nat i)] [2%Q] [(FName "R", [nat_num (i + 5)])])]) [1; 2; 3]))).
Proof.
  intros n. unfold calls_to. cbn [map List.concat app filter fst]. destruct (String.eqb n ex_file); cbn [map]; [|exact Logic.I].
  assert (K : forall t i, t_tnames t = [] -> (t_locs t = [] \/ In "R" (t_lnames t)) -> ok_call t (AddMetrics [inject_Z (Z.of_nat i)] [2%Q] [(FName "R", [nat_num (i + 5)])])).
  { intros t i T L. split; [discriminate|]. split; [reflexivity|]. split; [|split].
    - intros m l [[= <- <-]|[]]. reflexivity.
    - split; [constructor; [intros []|constructor]|]. intros m [<-|[]]. split; [|rewrite T; intros []]. cbn. intuition discriminate.
    - intros m [<-|[]]. tauto. }
  cbn [ok_history]. split; [apply K; cbn; auto|]. split; [apply K; cbn; auto|]. split; [apply K; cbn; auto|]. exact Logic.I.
Qed.
Example C80_ex4 : Forall2 (Forall2 (means ex_name)) (map ex_process [1; 2; 3])
  (map (fun i => [(ex_file, AddMetrics [inject_Z (Z.of_nat i)] [2%Q] [(FName "R", [nat_num (i + 5)])])]) [1; 2; 3]).
Proof.
  assert (K : forall i, Forall2 (means ex_name) (ex_process i) [(ex_file, AddMetrics [inject_Z (Z.of_nat i)] [2%Q] [(FName "R", [nat_num (i + 5)])])]).
  { intros i. constructor; [|constructor]. split; [vm_compute; reflexivity|]. eexists. eexists. eexists. split; [reflexivity|]. split; [|split; [|split]].
    - cbn. repeat constructor; cbn; intuition discriminate.
    - left. reflexivity.
    - right. left. reflexivity.
    - reflexivity. }
  constructor; [apply K|]. constructor; [apply K|]. constructor; [apply K|]. constructor.
Qed.
(* a job that fails three times: the results of later jobs that have finished are lost *)
Theorem C80_finished_results_lost_refuted :
  exists schedule s, ex_run schedule = Some s /\ s_out s = RemoteError /\ s_tasks s = [Broken; Finished; Finished] /\ s_disk s = [].
Proof. exists [Succeed 1; Succeed 2; Fail 0; Fail 0; Fail 0; Collect]. eexists. split; [vm_compute; reflexivity|]. repeat split. Qed.
(* a run that was killed and is started again stores the locations it had finished a second time *)
Theorem C80_restart_duplicates_refuted :
  exists l1 s1 l2 s2, ex_run l1 = Some s1 /\ s_out s1 = Killed /\
    run ex_process (store_files ex_name) [1; 2; 3] (initial [1; 2; 3] (s_disk s1)) l2 = Some s2 /\ s_out s2 = Ended /\
    ex_read s2 = Some [ex_loc 1; ex_loc 1; ex_loc 2; ex_loc 3].
Proof.
  exists [Succeed 0; Collect; Kill]. eexists. exists [Succeed 0; Collect; Succeed 1; Collect; Succeed 2; Collect; Collect]. eexists.
  split; [vm_compute; reflexivity|]. split; [reflexivity|]. split; [vm_compute; reflexivity|]. split; vm_compute; reflexivity.
Qed.
End Ex80.
Print Assumptions C80_job_order.
Print Assumptions C80_schedule_independent.
Print Assumptions C80_two_failures_tolerated.
Print Assumptions C80_terminates.
Print Assumptions C80_no_deadlock.
Print Assumptions C80_files_partial.
Print Assumptions C80_no_save_path.
Print Assumptions C80_jobs_undefined_refuted.
Print Assumptions C80_finished_results_lost_refuted.
Print Assumptions C80_restart_duplicates_refuted.

(* ------------------------------------------------------------------ C81 *)
(* a call killed after any number of its assignments leaves every location and time series stored
   before as it was *)
Theorem C81_crash_keeps_stored_results :
  forall (h : list call) (k : nat) (lons lats : list Q) (results : list (field * list cell)),
    ok_history empty_table h -> fits (t_lnames (stored h)) (mkAttempt (Some k) lons lats results) ->
    exists s s', exec_all new_file h = Ok s /\ add_metrics_killed k s lons lats results = Ok s' /\
      forall i, i < f_loc s -> read_loc s' i = read_loc s i /\ read_ts s' i = read_ts s i.
Proof.
  intros h k lons lats results H F. destruct (crash_keeps h lons lats results k H F) as (s & s' & E & E' & K & _). exists s, s'. auto.
Qed.
(* killed after its last assignment the call is complete *)
Theorem C81_all_assignments :
  forall (s : ncfile) (lons lats : list Q) (results : list (field * list cell)) (s' : ncfile) (ids : list cell),
    add_metrics_results s lons lats results = Ok (s', ids) -> add_metrics_killed (4 + List.length results) s lons lats results = Ok s'.
Proof.
  intros s lons lats results s' ids E. assert (X := add_metrics_perform s lons lats results). rewrite E in X. cbn [mapR fst] in X.
  destruct (add_metrics_killed (4 + List.length results) s lons lats results) as [s1|e]; [|discriminate]. cbn [bindR] in X.
  destruct (get_var s1 "idx"); cbn in X; congruence.
Qed.
(* any history of complete and killed calls after a first complete one, with variables of that first
   call: the locations of every complete call are found behind the places taken before it, with
   their coordinates and values *)
Theorem C81_complete_calls_survive_partial :
  forall (first : attempt) (rest : list attempt),
    a_killed first = None -> (forall a, In a (first :: rest) -> fits (names_of (a_results first)) a) ->
    exists s, do_attempts new_file (first :: rest) = Ok s /\ f_loc s = taken (first :: rest) /\
      forall before a after k, first :: rest = before ++ a :: after -> a_killed a = None -> k < List.length (a_lons a) ->
        exists fields, read_loc s (taken before + k) = Ok fields /\ NoDup (map fst fields) /\
          In ("lon"%string, Some (nth k (a_lons a) 0%Q)) fields /\ In ("lat"%string, Some (nth k (a_lats a) 0%Q)) fields /\
          forall name values, In (name, values) (a_results a) -> In (var_name name, nth k values None) fields.
Proof.
  intros first rest K F. destruct (history_ok first rest K F) as (s & E & L & V). exists s. split; [exact E|]. split; [exact L|].
  intros before a after k EQ Ka Hk. destruct (V before a after k EQ Ka Hk) as (fields & R1 & R2 & R3 & R4 & R5). exists fields. split; [exact R1|]. split; [exact R2|]. split; [exact R3|]. split; [exact R4|].
  intros name values Hn. apply R5. unfold values_at. apply in_map_iff. exists (name, values). auto.
Qed.
Section Ex81.
Open Scope string_scope.
Definition ex_att (kl : option nat) (i : Z) : attempt := mkAttempt kl [inject_Z i] [2%Q] [(FName "R", [Some (inject_Z (i + 5))])].
Definition reads (l : list attempt) : res (list (res (list (string * cell)))) := mapR (fun s => map (read_loc s) (seq 0 (f_loc s))) (do_attempts new_file l).
Example C81_ex : a_killed (ex_att None 10) = None /\ (forall a, In a [ex_att None 10; ex_att (Some 3) 20; ex_att None 30] -> fits (names_of (a_results (ex_att None 10))) a) /\
  reads [ex_att None 10; ex_att (Some 3) 20; ex_att None 30] =
    Ok [Ok [("lon", Some 10%Q); ("lat", Some 2%Q); ("R", Some 15%Q)]; Ok [("lon", Some 20%Q); ("lat", None); ("R", None)]; Ok [("lon", Some 30%Q); ("lat", Some 2%Q); ("R", Some 35%Q)]].
Proof.
  split; [reflexivity|]. split; [|vm_compute; reflexivity].
  assert (K : forall kl i, fits ["R"] (ex_att kl i)).
  { intros kl i. split; [discriminate|]. split; [reflexivity|]. split; [|split].
    - intros n l [[= <- <-]|[]]. reflexivity.
    - constructor; [intros []|constructor].
    - intros n [<-|[]]. split; [left; reflexivity|]. cbn. intuition discriminate. }
  intros a [<-|[<-|[<-|[]]]]; apply K.
Qed.
(* a killed call leaves places with missing coordinates or values behind: a restart does not remove
   them (above), and if the very first call is killed before all its variables exist, the values of
   the next call are read at the wrong location *)
Theorem C81_incomplete_location_refuted :
  reads [ex_att None 10; ex_att (Some 2) 20; ex_att None 20] =
    Ok [Ok [("lon", Some 10%Q); ("lat", Some 2%Q); ("R", Some 15%Q)]; Ok [("lon", None); ("lat", None); ("R", None)]; Ok [("lon", Some 20%Q); ("lat", Some 2%Q); ("R", Some 25%Q)]].
Proof. vm_compute. reflexivity. Qed.
Theorem C81_first_call_killed_refuted :
  reads [ex_att (Some 4) 10; ex_att None 20] =
    Ok [Ok [("lon", Some 10%Q); ("lat", Some 2%Q); ("R", Some 25%Q)]; Ok [("lon", Some 20%Q); ("lat", Some 2%Q); ("R", None)]].
Proof. vm_compute. reflexivity. Qed.
End Ex81.
Print Assumptions C81_crash_keeps_stored_results.
Print Assumptions C81_all_assignments.
Print Assumptions C81_complete_calls_survive_partial.
Print Assumptions C81_incomplete_location_refuted.
Print Assumptions C81_first_call_killed_refuted.
