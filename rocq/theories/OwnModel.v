(* Model of which frames src/pytesmo/validation_framework/adapters.py changes in place.
   Frames are objects in a store; a reader hands out a new frame or, like a reader that keeps its
   data in memory, the same object at every call.  [data[mask]] and [data.loc[...]] make new frames,
   [data[column] = ...] and [data.index = ...] change the frame itself. *)
From Verif Require Export AdaptersModel.
Open Scope Z_scope.

(* a frame and whether its index has a time zone (times are instants, so the zone changes nothing else) *)
Record obj := mkObj { o_tab : tab cell; o_zone : bool }.
Definition store := list obj.
Definition ref := nat.
Definition get (h : store) (r : ref) : option obj := nth_error h r.
Fixpoint put (h : store) (r : ref) (o : obj) : store :=
  match h, r with
  | [], _ => []
  | _ :: h', O => o :: h'
  | x :: h', S r' => x :: put h' r' o
  end.
Definition alloc (h : store) (o : obj) : store * ref := (h ++ [o], List.length h).

(* what a reader's read function does: no data, always the same frame, or a new frame at each call *)
Inductive reader := RNone | RShared (r : ref) | RFresh (o : obj).
Definition call (rd : reader) (h : store) : store * option ref :=
  match rd with
  | RNone => (h, None)
  | RShared r => (h, Some r)
  | RFresh o => let (h', r) := alloc h o in (h', Some r)
  end.

(* the adapters with their arguments; calc_anomaly and calc_climatology are given as functions *)
Inductive adapter :=
| ABasic
| AMask (o : op) (threshold : cell) (column_name : option string)
| ASelf (o : op) (threshold : cell) (column_name : string)
| AAdvanced (filters : list (string * op * cell)) (ignore_nans : bool)
| AAnomaly (anomaly : list (cell * cell) -> list cell) (columns : option (list string))
| AClim (anomaly_clim : list (cell * cell) -> list cell * list cell) (columns : option (list string)) (return_clim : bool)
| ACombine (func : list cell -> cell) (columns : option (list string)) (new_name : string)
| ATime (o : ts_opts).

(* adapters.py:96-109 _adapt of the base class: a new empty frame for None; the time zone is
   dropped by assigning to the index of the frame itself *)
Definition eff_basic (h : store) (d : option ref) : store * ref :=
  match d with
  | None => alloc h (mkObj (mkTab [] []) false)
  | Some r => match get h r with
              | Some o => (if o_zone o then put h r (mkObj (o_tab o) false) else h, r)
              | None => (h, r)
              end
  end.

(* a computation that ends in a new frame or an exception *)
Definition eff_new (h : store) (x : res (tab cell)) : store * res ref :=
  match x with
  | Ok t => let (h', r) := alloc h (mkObj t false) in (h', Ok r)
  | Err e => (h, Err e)
  end.
(* data[name] = values *)
Definition eff_assign (h : store) (r : ref) (n : string) (values : list cell) : store :=
  match get h r with Some o => put h r (mkObj (assign (o_tab o) n values) (o_zone o)) | None => h end.

(* adapters.py:375-377: the columns are assigned one after the other *)
Fixpoint eff_anomaly (anomaly : list (cell * cell) -> list cell) (cols : list string) (h : store) (r : ref) : store * res ref :=
  match cols with
  | [] => (h, Ok r)
  | n :: rest =>
      match get h r with
      | None => (h, Err EKey)
      | Some o => match column (o_tab o) n with
                  | Err e => (h, Err e)
                  | Ok v => eff_anomaly anomaly rest (eff_assign h r n (anomaly (series (o_tab o) v))) r
                  end
      end
  end.
(* adapters.py:435-444 *)
Fixpoint eff_clim (f : list (cell * cell) -> list cell * list cell) (return_clim : bool) (cols : list string) (h : store) (r : ref) : store * res ref :=
  match cols with
  | [] => (h, Ok r)
  | n :: rest =>
      match get h r with
      | None => (h, Err EKey)
      | Some o => match column (o_tab o) n with
                  | Err e => (h, Err e)
                  | Ok v => let '(a, c) := f (series (o_tab o) v) in
                            let h1 := eff_assign h r n a in
                            eff_clim f return_clim rest (if return_clim then eff_assign h1 r (n ++ "_climatology")%string c else h1) r
                  end
      end
  end.
(* adapters.py:511-522 *)
Definition eff_combine (func : list cell -> cell) (columns : option (list string)) (new_name : string) (h : store) (r : ref) : store * res ref :=
  match get h r with
  | None => (h, Err EKey)
  | Some o =>
      let t := o_tab o in
      match tcols t, trows t with
      | [], _ | _, [] => (eff_assign h r new_name (map (fun _ => None) (trows t)), Ok r)
      | _, _ =>
          match seqR (map (column t) (match columns with None => tcols t | Some l => l end)) with
          | Err e => (h, Err e)
          | Ok vs => (eff_assign h r new_name (map (fun k => func (map (fun v => nth k v None) vs)) (seq 0 (List.length (trows t)))), Ok r)
          end
      end
  end.

(* a boolean frame: true is 1 and false is 0 *)
Definition of_bools (b : list string * list (cell * list bool)) : tab cell :=
  mkTab (fst b) (map (fun r => (fst r, map (fun x : bool => Some (if x then 1 else 0)%Q) (snd r))) (snd b)).

(* one adapter applied to what the reader below it returned.  An operator that is not known is
   refused when the masking adapters are made, before anything is read (adapters.py:177-182,
   235-240); here the refusal is the answer to the read *)
Definition eff_adapt (a : adapter) (h : store) (d : option ref) : store * res ref :=
  let (h, r) := eff_basic h d in
  match get h r with
  | None => (h, Err EKey)
  | Some o =>
      let t := o_tab o in
      match a with
      | ABasic => (h, Ok r)
      | AMask f threshold n => eff_new h (mapR of_bools (masking_adapter f threshold n (Some t)))
      | ASelf f threshold n => eff_new h (self_masking f threshold n (Some t))
      | AAdvanced fs ign => eff_new h (advanced_masking fs ign (Some t))
      | AAnomaly f cols => eff_anomaly f (match cols with None => tcols t | Some l => l end) h r
      | AClim f cols rc => eff_clim f rc (match cols with None => tcols t | Some l => l end) h r
      | ACombine f cols n => eff_combine f cols n h r
      | ATime opts => eff_new h (timestamp_adapter opts (Some t))
      end
  end.

(* an adapted reader: adapters on top of a reader, the lowest first (adapters.py:111-122: each
   read calls the reader below and adapts what it returned) *)
Fixpoint eff_stack (l : list adapter) (h : store) (d : option ref) : store * res (option ref) :=
  match l with
  | [] => (h, Ok d)
  | a :: rest => match eff_adapt a h d with
                 | (h', Ok r) => eff_stack rest h' (Some r)
                 | (h', Err e) => (h', Err e)
                 end
  end.
Definition read (rd : reader) (l : list adapter) (h : store) : store * res (option ref) :=
  let (h', d) := call rd h in eff_stack l h' d.

(* several reads through different adapters on the same reader, in any order *)
Fixpoint reads (rd : reader) (ls : list (list adapter)) (h : store) : store * list (res (option ref)) :=
  match ls with
  | [] => (h, [])
  | l :: rest => let (h1, x) := read rd l h in let (h2, xs) := reads rd rest h1 in (h2, x :: xs)
  end.

(* grouping.py:317-319 select with set_nan assigns into the caller's frame and returns this frame.
   The frame after a series of such selections *)
Fixpoint select_in_place (Ds : list distributor) (df : list frow) : res (list frow) :=
  match Ds with
  | [] => Ok df
  | D :: rest => bindR (ts_select D df true) (fun df' => select_in_place rest df')
  end.
