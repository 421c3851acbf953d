(* Model of src/pytesmo/validation_framework/results_manager.py.
   A netCDF file with two unlimited dimensions is a table of variables; a cell never written reads
   as missing ([None]).  Not modelled: attributes, compression, data types (all values are
   numbers), and the conversion of dates to "days since 1900" and back. *)
From Coq Require Import Qround.
From Verif Require Export ValidationModel TemporalModel.
Open Scope Z_scope.

(* ------------------------------------------------------------ files *)
Inductive dim := DLoc | DObs.
Definition dim_eqb (a b : dim) : bool := match a, b with DLoc, DLoc => true | DObs, DObs => true | _, _ => false end.
Record ncvar := mkVar { v_dim : dim; v_data : list cell }.
Record ncfile := mkFile { f_loc : nat; f_obs : nat; f_vars : list (string * ncvar) }.
Definition dim_len (s : ncfile) (d : dim) : nat := match d with DLoc => f_loc s | DObs => f_obs s end.
Definition get_var (s : ncfile) (name : string) : res ncvar :=
  match dict_get (f_vars s) name with Some v => Ok v | None => Err EIndex end.

(* netCDF4: var[start:] = d.  The dimension grows if needed, cells in between stay missing. *)
Definition write_at (start : nat) (d l : list cell) : list cell :=
  match d with
  | [] => l
  | _ => firstn start (l ++ repeat None (start - List.length l)) ++ d ++ skipn (start + List.length d) l
  end.
Definition grow (s : ncfile) (d : dim) (n : nat) : ncfile :=
  match d with
  | DLoc => mkFile (Nat.max (f_loc s) n) (f_obs s) (f_vars s)
  | DObs => mkFile (f_loc s) (Nat.max (f_obs s) n) (f_vars s)
  end.
Definition put_var (s : ncfile) (name : string) (v : ncvar) : ncfile :=
  mkFile (f_loc s) (f_obs s) (dict_set String.eqb (f_vars s) name v).
Definition write (s : ncfile) (name : string) (start : nat) (d : list cell) : res ncfile :=
  bindR (get_var s name) (fun v =>
  Ok (grow (put_var s name (mkVar (v_dim v) (write_at start d (v_data v)))) (v_dim v)
           (match d with [] => 0 | _ => start + List.length d end)%nat)).
(* pynetcf write_var(name, data=d, dim=dm) for a new variable: var[:] = d, from position 0 *)
Definition create_var (s : ncfile) (name : string) (dm : dim) (d : list cell) : ncfile :=
  grow (put_var s name (mkVar dm d)) dm (List.length d).
(* var[:] *)
Definition cells (s : ncfile) (v : ncvar) : list cell := map (fun i => nth i (v_data v) None) (seq 0 (dim_len s (v_dim v))).

(* results_manager.py:53-141 __init__: a new file *)
Definition new_file : ncfile :=
  mkFile 0 0 [("lon", mkVar DLoc []); ("lat", mkVar DLoc []); ("idx", mkVar DLoc []); ("_row_size", mkVar DLoc []);
              ("time", mkVar DObs [])]%string.

Definition z_num (z : Z) : cell := Some (inject_Z z).
Definition nat_num (n : nat) : cell := z_num (Z.of_nat n).
(* masked cells are skipped by sum() *)
Definition cells_sum (l : list cell) : nat := Z.to_nat (Qfloor (qsum (vals l))).

(* one loop of results_manager.py:228-233 / 277-284 *)
Definition store_all (s : ncfile) (dm : dim) (start : nat) (results : list (string * list cell)) : res ncfile :=
  fold_left (fun acc r => bindR acc (fun s =>
    match dict_get (f_vars s) (fst r) with
    | None => Ok (create_var s (fst r) dm (snd r))
    | Some _ => write s (fst r) start (snd r)
    end)) results (Ok s).

(* results_manager.py:204-233 add_ts_results *)
Definition add_ts_results (s : ncfile) (idx : nat) (times : list Q) (results : list (string * list cell)) : res ncfile :=
  bindR (get_var s "_row_size") (fun rs =>
  let start := cells_sum (firstn idx (cells s rs)) in
  bindR (write s "time" start (map Some times)) (fun s =>
  bindR (write s "_row_size" idx [nat_num (List.length times)]) (fun s =>
  store_all s DObs start results))).

Fixpoint join_names (sep : string) (l : list string) : string :=
  match l with
  | [] => ""
  | [x] => x
  | x :: r => x ++ sep ++ join_names sep r
  end%string.
Definition var_name (k : field) : string := match k with FName s => s | FTuple l => join_names "__" l end.

(* results_manager.py:235-286 add_metrics_results; returns the file and the new indices *)
Definition add_metrics_results (s : ncfile) (lons lats : list Q) (results : list (field * list cell))
  : res (ncfile * list cell) :=
  let n := List.length lons in
  if negb (forallb (Nat.eqb n) (List.length lats :: map (fun r => List.length (snd r)) results)) then Err EValue else
  bindR (get_var s "idx") (fun vi =>
  bindR (match rev (cells s vi) with
         | [] => Ok 0%nat
         | Some q :: _ => let i := Qfloor q + 1 in if i <? 0 then Err EOther (* slice from the end: not modelled *)
                          else Ok (Z.to_nat i)
         | None :: _ => Err EType
         end) (fun idx =>
  bindR (write s "idx" idx (map nat_num (seq idx n))) (fun s =>
  bindR (write s "_row_size" idx (repeat (z_num 0) (f_loc s - idx))) (fun s =>
  bindR (write s "lon" idx (map Some lons)) (fun s =>
  bindR (write s "lat" idx (map Some lats)) (fun s =>
  bindR (store_all s DLoc idx (map (fun r => (var_name (fst r), snd r)) results)) (fun s =>
  mapR (fun vi => (s, skipn idx (cells s vi))) (get_var s "idx")))))))).

(* results_manager.py:290-341 add_result.  Field names in ts_vars are plain strings. *)
Definition is_ts (ts_vars : list string) (k : field) : bool :=
  match k with FName s => existsb (String.eqb s) ts_vars | FTuple _ => false end.
Definition cell_index (c : cell) : res nat := match c with Some q => Ok (Z.to_nat (Qfloor q)) | None => Err EType end.
Definition add_result (s : ncfile) (lon lat : Q) (data : list (field * list cell)) (ts_vars : list string)
    (times : option (list Q)) : res ncfile :=
  let metric_results := filter (fun r => negb (is_ts ts_vars (fst r))) data in
  let ts_results := map (fun r => (var_name (fst r), snd r)) (filter (fun r => is_ts ts_vars (fst r)) data) in
  match times, ts_results with
  | None, _ :: _ => Err EValue
  | _, _ =>
      bindR (add_metrics_results s [lon] [lat] metric_results) (fun so =>
      match ts_results, times with
      | _ :: _, Some times =>
          match snd so with
          | [i] => bindR (cell_index i) (fun i => add_ts_results (fst so) i times ts_results)
          | _ => Err EOther (* AssertionError *)
          end
      | _, _ => Ok (fst so)
      end)
  end.

Definition is_special (n : string) : bool := existsb (String.eqb n) ["time"; "idx"; "_row_size"]%string.
(* results_manager.py:343-360 read_ts: the time stamps and the columns.  Without a time series
   variable the selection is None *)
Definition read_ts (s : ncfile) (idx : nat) : res (list cell * list (string * list cell)) :=
  bindR (get_var s "_row_size") (fun rs =>
  bindR (match nth_error (cells s rs) idx with Some c => cell_index c | None => Err EIndex end) (fun n =>
  let start := cells_sum (firstn idx (cells s rs)) in
  let sel v := firstn n (skipn start (cells s v)) in
  let vars := filter (fun nv => negb (is_special (fst nv)) && dim_eqb (v_dim (snd nv)) DObs) (f_vars s) in
  if Nat.eqb (List.length vars) 0 then Err EOther else
  bindR (get_var s "time") (fun vt => Ok (sel vt, map (fun nv => (fst nv, sel (snd nv))) vars)))).

(* results_manager.py:362-378 read_loc for one index *)
Definition read_loc (s : ncfile) (idx : nat) : res (list (string * cell)) :=
  if Nat.leb (f_loc s) idx then Err EIndex else
  Ok (map (fun nv => (fst nv, nth idx (cells s (snd nv)) None))
        (filter (fun nv => negb (is_special (fst nv)) && dim_eqb (v_dim (snd nv)) DLoc) (f_vars s))).

(* ------------------------------------------------------------ file names *)
(* an element of a result key: a tuple of strings or a string *)
Inductive kelem := KTuple (l : list string) | KStr (s : string).
(* os.path.join (posix) of two components *)
Definition path_join (root name : string) : string :=
  match name with
  | String "/" _ => name
  | _ => match root with
         | EmptyString => name
         | _ => if String.eqb (substring (String.length root - 1) 1 root) "/" then (root ++ name)%string else (root ++ "/" ++ name)%string
         end
  end.
Definition with_ext (fname : string) : string := (fname ++ ".nc")%string.
(* results_manager.py:16-50 build_filename; [None]: ds[0] of an empty tuple or string *)
Definition first_item (e : kelem) : option string :=
  match e with
  | KTuple (x :: _) => Some x
  | KStr (String c _) => Some (String c EmptyString)
  | _ => None
  end.
Fixpoint all_some {A} (l : list (option A)) : option (list A) :=
  match l with
  | [] => Some []
  | Some a :: r => option_map (cons a) (all_some r)
  | None :: _ => None
  end.
Definition elem_name (e : kelem) : string := match e with KTuple l => join_names "." l | KStr s => s end.
Definition build_filename (root : string) (key : list kelem) : res string :=
  let fname := join_names "_with_" (map elem_name key) in
  let path f := path_join root (with_ext f) in
  if Nat.ltb 255 (String.length (path fname)) then
    match all_some (map first_item key) with
    | None => Err EIndex
    | Some names =>
        let fname := join_names "_with_" names in
        if Nat.ltb 255 (String.length (path fname)) then Ok (path "validation"%string) else Ok (path fname)
    end
  else Ok (path fname).

(* ------------------------------------------------------------ writing all results *)
(* an entry of a result array: a number, or an array (time series, time stamps) *)
Inductive entry := Sc (c : cell) | Ar (l : list cell).
Notation key_results := (list (field * list entry)).
Fixpoint pop (k : string) (r : key_results) : option (list entry * key_results) :=
  match r with
  | [] => None
  | (n, v) :: r' => if field_eqb n (FName k) then Some (v, r')
                    else option_map (fun vr => (fst vr, (n, v) :: snd vr)) (pop k r')
  end.
Definition lower_ascii (c : ascii) : ascii :=
  let n := nat_of_ascii c in if (Nat.leb 65 n && Nat.leb n 90)%bool then ascii_of_nat (n + 32) else c.
Fixpoint lower (s : string) : string := match s with EmptyString => EmptyString | String c r => String (lower_ascii c) (lower r) end.
(* plain numbers; anything else (missing coordinates, nested arrays) is not modelled *)
Definition numbers (l : list entry) : res (list Q) := seqR (map (fun e => match e with Sc (Some q) => Ok q | _ => Err EOther end) l).
Definition flat (l : list entry) : res (list cell) := seqR (map (fun e => match e with Sc c => Ok c | Ar _ => Err EOther end) l).
Definition stamps (l : list cell) : res (list Q) := seqR (map (fun c => match c with Some q => Ok q | None => Err EOther end) l).
(* results_manager.py:420-444: the data of location i; the variable [time] keeps its last value *)
Definition point_data (r : key_results) (ts_vars : list string) (i : nat) (time : option (list Q))
  : res (option (list Q) * list (field * list cell)) :=
  fold_left (fun acc kv => bindR acc (fun td =>
      match fst kv with
      | FTuple _ => Err EOther (* tuple.lower() *)
      | FName k =>
          if String.eqb (lower k) "time" then
            match find (fun e => field_eqb (fst e) (FName "time")) r with
            | None => Err EKey
            | Some (_, v) => match nth_error v i with
                             | Some (Ar l) => mapR (fun t => (Some t, snd td)) (stamps l)
                             | Some (Sc _) => Err EType
                             | None => Err EIndex
                             end
            end
          else match nth_error (snd kv) i with
               | None => Err EIndex
               | Some (Sc c) => if existsb (String.eqb k) ts_vars then Err EType (* len() of a number *)
                                else Ok (fst td, snd td ++ [(fst kv, [c])])
               | Some (Ar l) => Ok (fst td, snd td ++ [(fst kv, l)])
               end
      end)) r (Ok (time, [])).
(* results_manager.py:417-447: one result key; threads the file and the variable [time] *)
Definition write_key (ts_vars : option (list string)) (s : ncfile) (time : option (list Q)) (r : key_results)
  : res (ncfile * option (list Q)) :=
  match pop "lon" r with
  | None => Err EKey
  | Some (lons, r) =>
    match pop "lat" r with
    | None => Err EKey
    | Some (lats, r) =>
      bindR (numbers lons) (fun lons => bindR (numbers lats) (fun lats =>
      match ts_vars with
      | None => bindR (seqR (map (fun kv => mapR (fun l => (fst kv, l)) (flat (snd kv))) r)) (fun results =>
                mapR (fun so => (fst so, time)) (add_metrics_results s lons lats results))
      | Some tv =>
          fold_left (fun acc ill => bindR acc (fun st =>
              let '(i, (lon, lat)) := ill in
              bindR (point_data r tv i (snd st)) (fun td =>
              match fst td with
              | None => Err EOther (* UnboundLocalError *)
              | Some t => mapR (fun s => (s, Some t)) (add_result (fst st) lon lat (snd td) tv (Some t))
              end))) (combine (seq 0 (List.length lons)) (combine lons lats)) (Ok (s, time))
      end))
    end
  end.
(* results_manager.py:381-447 netcdf_results_manager on a disk of files; an existing file is
   continued *)
Definition disk := list (string * ncfile).
Definition write_results (d : disk) (name_of : list kelem -> res string) (ts_vars : option (list string))
    (results : list (list kelem * key_results)) : res disk :=
  mapR fst (fold_left (fun acc kr => bindR acc (fun dt =>
      bindR (name_of (fst kr)) (fun fname =>
      let s := match dict_get (fst dt) fname with Some s => s | None => new_file end in
      mapR (fun st => (dict_set String.eqb (fst dt) fname (fst st), snd st)) (write_key ts_vars s (snd dt) (snd kr)))))
    results (Ok (d, None))).
(* the dictionaries after the call: "lon" and "lat" have been popped *)
Definition popped (r : key_results) : key_results :=
  match pop "lon" r with
  | None => r
  | Some (_, r) => match pop "lat" r with None => r | Some (_, r) => r end
  end.
