(* Model of what the constructors of DataManager and Validation do to the dictionaries they are given:
   /repo/src/pytesmo/validation_framework/data_manager.py 100-169 and validation.py 119-183.

   The dictionaries of datasets are objects that the caller, every manager and every validation share; the
   heap maps an object number to its present contents.  The dictionary of one dataset is a value: the code
   replaces it by a new one and never changes it afterwards.

   Simplifications: no upscaling and no lookup tables (they are computed in the constructor and kept in the
   object itself); no period; the temporal matcher and the scaler are not part of the state. *)
From Coq Require Import List String Bool Arith.
From Verif Require Import Base MatchersModel GroupingModel.
Import ListNotations.
Open Scope string_scope.
Open Scope list_scope.

(* a value of a dataset's dictionary: objects (readers) are numbered *)
Inductive dval := DObj (id : nat) | DStrings (l : list string) | DArgs (l : list nat) | DKwargs (l : list (string * nat)) | DBool (b : bool) | DInf | DDist (m : nat).
Definition spec := list (string * dval).
Definition dct := list (string * spec).
Definition heap := list dct.
Definition contents (h : heap) (l : nat) : dct := nth l h [].

(* data_manager.py 154-160 *)
Definition defaults : spec :=
  [("use_lut", DBool false); ("args", DArgs []); ("kwargs", DKwargs []); ("grids_compatible", DBool false); ("max_dist", DInf)].
Definition has {V} (d : list (string * V)) (k : string) : bool := match dict_get d k with Some _ => true | None => false end.
(* 162-163: dict(defaults), then update: default keys keep their place, other keys follow *)
Definition fill (s : spec) : spec :=
  map (fun e => (fst e, match dict_get s (fst e) with Some v => v | None => snd e end)) defaults
  ++ filter (fun e => negb (has defaults (fst e))) s.
(* 161-164 *)
Definition add_default_values (d : dct) : dct := map (fun e => (fst e, fill (snd e))) d.
(* 115-118 *)
Definition add_use_lut (ref : string) (d : dct) : dct :=
  map (fun e => if negb (String.eqb (fst e) ref) && negb (has (snd e) "use_lut") then (fst e, snd e ++ [("use_lut", DBool false)]) else e) d.

Fixpoint set_at {A} (l : list A) (i : nat) (x : A) : list A :=
  match l, i with [], _ => [] | _ :: r, O => x :: r | y :: r, S i => y :: set_at r i x end.

Record manager := Manager { m_loc : nat; m_ref : string; m_other : list string; m_fun : list (string * string) }.

(* 100-150 DataManager.__init__; the dictionary has been changed even if an exception is raised afterwards *)
Definition dm_init (h : heap) (loc : nat) (ref read_name : string) : heap * res manager :=
  match nth_error h loc with
  | None => (h, Err EOther)
  | Some d =>
      let d := add_use_lut ref (add_default_values d) in
      (set_at h loc d,
       match dict_get d ref with
       | None => Err EKey
       | Some s => if has s "class"
                   then Ok (Manager loc ref (filter (fun n => negb (String.eqb n ref)) (map fst d)) (map (fun e => (fst e, read_name)) d))
                   else Err EKey
       end)
  end.

(* the argument `datasets` of Validation: a dictionary or a DataManager *)
Inductive given := GDict (loc : nat) | GManager (m : manager).
Record request := Request {
  r_data : given; r_sref : string; r_calcs : list (nat * nat); r_tref : option string; r_mask : option nat; r_scaling_ref : option string }.
Record validation := Validation { v_dm : manager; v_tref : string; v_masking : option manager; v_scaling_ref : string }.

(* validation.py 154-157: every n must be at least the number of datasets *)
Definition calcs_ok (h : heap) (m : manager) (calcs : list (nat * nat)) : bool :=
  forallb (fun nk => negb (Nat.ltb (fst nk) (List.length (contents h (m_loc m))))) calcs.

(* validation.py 119-183 Validation.__init__ *)
Definition v_init (h : heap) (r : request) : heap * res validation :=
  let '(h, dm) := match r_data r with
                  | GManager m => (h, Ok m)
                  | GDict loc => dm_init h loc (r_sref r) "read"
                  end in
  match dm with
  | Err e => (h, Err e)
  | Ok m =>
      let tref := match r_tref r with Some t => t | None => m_ref m end in
      let sref := match r_scaling_ref r with Some s => s | None => m_ref m end in
      if negb (calcs_ok h m (r_calcs r)) then (h, Err EValue) else
      match r_mask r with
      | None => (h, Ok (Validation m tref None sref))
      | Some ml =>
          match r_data r with
          | GManager _ => (h, Err EType)                                       (* datasets[...] of a DataManager *)
          | GDict loc =>
              match dict_get (contents h loc) tref with
              | None => (h, Err EKey)
              | Some s =>
                  let h := set_at h ml (dict_set String.eqb (contents h ml) "_reference" s) in
                  let '(h, mm) := dm_init h ml "_reference" "read" in
                  (h, mapR (fun mm => Validation m tref (Some mm) sref) mm)
              end
          end
      end
  end.

(* any number of constructions one after the other *)
Definition v_inits (h : heap) (rs : list request) : heap := fold_left (fun h r => fst (v_init h r)) rs h.

(* what a manager uses of dataset n when it reads: data_manager.py 305-395 (get_data, read_ds) look the
   dictionary up at the time of reading *)
Definition field (h : heap) (m : manager) (n f : string) : option dval :=
  match dict_get (contents h (m_loc m)) n with Some s => dict_get s f | None => None end.
