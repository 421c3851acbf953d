(* Model of src/pytesmo/validation_framework/start_validation.py: jobs are processed by IPython
   engines in any order, the client stores the results in job order.  Also the results manager's
   add_metrics_results as a sequence of single assignments, for crashes in between. *)
From Coq Require Import Qround.
From Verif Require Export ResultsModel.
Open Scope Z_scope.

Section Start.
Variables (J R D : Type).
(* start_validation.py:15-19 func: start_processing(job) of the user's setup code *)
Variable process : J -> R.
(* netcdf_results_manager(result, save_path): what is stored afterwards, and the exception if any *)
Variable store : D -> R -> D * option err.

(* a job as the load balanced view sees it: submitted (with the number of failed attempts so far),
   finished, or given up *)
Inductive task := Waiting (failures : nat) | Finished | Broken.
(* the client: in the loop, past the loop, left by an exception (of a job, or of storing), or killed *)
Inductive outcome := Running | Ended | RemoteError | StoreError (e : err) | Killed.
Record cstate := mkS { s_tasks : list task; s_written : nat; s_disk : D; s_out : outcome }.
(* an engine finishes or fails an attempt at job number i; the client goes on with the loop; the
   client sees the error of a broken job before it has taken the results in front of it (the
   iterator over the AsyncMapResult raises at once if all jobs are done); the client is killed *)
Inductive event := Succeed (i : nat) | Fail (i : nat) | Collect | Raise | Kill.

Fixpoint set_nth {A} (i : nat) (a : A) (l : list A) : list A :=
  match l, i with
  | [], _ => []
  | _ :: r, O => a :: r
  | x :: r, S i => x :: set_nth i a r
  end.
(* start_validation.py:50 temp_flags(retries=2) *)
Definition retries : nat := 2.
Definition broken (t : task) : bool := match t with Broken => true | _ => false end.
(* start_validation.py:49-57, one event; [None]: the event cannot happen now *)
Definition step (jobs : list J) (s : cstate) (e : event) : option cstate :=
  match s_out s with
  | Running =>
      match e with
      | Succeed i =>
          match nth_error (s_tasks s) i with
          | Some (Waiting _) => Some (mkS (set_nth i Finished (s_tasks s)) (s_written s) (s_disk s) Running)
          | _ => None
          end
      | Fail i =>
          match nth_error (s_tasks s) i with
          | Some (Waiting f) => Some (mkS (set_nth i (if Nat.ltb f retries then Waiting (S f) else Broken) (s_tasks s)) (s_written s) (s_disk s) Running)
          | _ => None
          end
      | Collect =>
          match nth_error jobs (s_written s) with
          | None => Some (mkS (s_tasks s) (s_written s) (s_disk s) Ended)
          | Some j =>
              match nth_error (s_tasks s) (s_written s) with
              | Some Finished =>
                  match store (s_disk s) (process j) with
                  | (d, None) => Some (mkS (s_tasks s) (S (s_written s)) d Running)
                  | (d, Some x) => Some (mkS (s_tasks s) (s_written s) d (StoreError x))
                  end
              | Some Broken => Some (mkS (s_tasks s) (s_written s) (s_disk s) RemoteError)
              | _ => None
              end
          end
      | Raise => if existsb broken (s_tasks s) then Some (mkS (s_tasks s) (s_written s) (s_disk s) RemoteError) else None
      | Kill => Some (mkS (s_tasks s) (s_written s) (s_disk s) Killed)
      end
  | _ => None
  end.
Definition initial (jobs : list J) (d : D) : cstate := mkS (map (fun _ => Waiting 0) jobs) 0 d Running.
(* a schedule: events that happen one after the other *)
Fixpoint run (jobs : list J) (s : cstate) (l : list event) : option cstate :=
  match l with
  | [] => Some s
  | e :: r => match step jobs s e with Some s' => run jobs s' r | None => None end
  end.
(* start_validation.py:36-49: the variables defined by the setup code; [None]: not defined.
   len(jobs) is evaluated before the test *)
Definition start_validation {P : Type} (jobs : option (list J)) (save_path : option P) (d : D) : res (option cstate) :=
  match jobs with
  | None => Err EType
  | Some js => Ok (match save_path with None => None | Some _ => Some (initial js d) end)
  end.
End Start.
Arguments mkS {D}.
Arguments s_tasks {D}.
Arguments s_written {D}.
Arguments s_disk {D}.
Arguments s_out {D}.
Arguments initial {J D}.
Arguments start_validation {J D P}.
Arguments step {J R D}.
Arguments run {J R D}.

(* the results manager of a job's result (no time series variables) *)
Definition store_files (name_of : list kelem -> res string) (d : disk) (results : list (list kelem * key_results)) : disk * option err :=
  match write_results d name_of None results with Ok d' => (d', None) | Err e => (d, Some e) end.

(* ------------------------------------------------------------ single assignments *)
(* results_manager.py:235-286 add_metrics_results as the list of its assignments to the file, after
   the shape test and the computation of the first index [idx]; 277-284: one per variable *)
Definition put_result (idx : nat) (r : field * list cell) (s : ncfile) : res ncfile :=
  match dict_get (f_vars s) (var_name (fst r)) with
  | None => Ok (create_var s (var_name (fst r)) DLoc (snd r))
  | Some _ => write s (var_name (fst r)) idx (snd r)
  end.
Definition assignments (idx : nat) (lons lats : list Q) (results : list (field * list cell)) : list (ncfile -> res ncfile) :=
  [ (fun s => write s "idx" idx (map nat_num (seq idx (List.length lons))));
    (fun s => write s "_row_size" idx (repeat (z_num 0) (f_loc s - idx)));
    (fun s => write s "lon" idx (map Some lons));
    (fun s => write s "lat" idx (map Some lats)) ]%string
  ++ map (put_result idx) results.
Definition perform (l : list (ncfile -> res ncfile)) (s : ncfile) : res ncfile :=
  fold_left (fun acc (f : ncfile -> res ncfile) => bindR acc f) l (Ok s).
(* results_manager.py:247-256 the next index *)
Definition next_index (s : ncfile) : res nat :=
  bindR (get_var s "idx") (fun vi =>
  match rev (cells s vi) with
  | [] => Ok 0%nat
  | Some q :: _ => let i := Qfloor q + 1 in if i <? 0 then Err EOther else Ok (Z.to_nat i)
  | None :: _ => Err EType
  end).
(* the call, with the process killed after [k] assignments (each is atomic and durable) *)
Definition add_metrics_killed (k : nat) (s : ncfile) (lons lats : list Q) (results : list (field * list cell)) : res ncfile :=
  if negb (forallb (Nat.eqb (List.length lons)) (List.length lats :: map (fun r => List.length (snd r)) results)) then Err EValue else
  bindR (next_index s) (fun idx => perform (firstn k (assignments idx lons lats results)) s).
