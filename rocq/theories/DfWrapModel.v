(* Model of the functions of /repo/src/pytesmo/df_metrics.py that wrap a metric for data frames
   (lines 88-311, 607-621). *)
From Verif Require Import Base NamesModel DfMetricsModel MetricsModel TcolModel.
From Coq Require Import Reals Qreals Ascii String.
Open Scope nat_scope.

(* ---- collections.namedtuple ---- *)

(* str.isidentifier, for ASCII strings *)
Definition letter (c : ascii) : bool :=
  let n := nat_of_ascii c in (Nat.leb 65 n && Nat.leb n 90) || (Nat.leb 97 n && Nat.leb n 122) || Nat.eqb n 95.
Definition digit (c : ascii) : bool := let n := nat_of_ascii c in Nat.leb 48 n && Nat.leb n 57.
Fixpoint all_chars (p : ascii -> bool) (s : string) : bool :=
  match s with EmptyString => true | String c r => p c && all_chars p r end.
Definition is_identifier (s : string) : bool :=
  match s with EmptyString => false | String c r => letter c && all_chars (fun c => letter c || digit c) r end.
(* keyword.iskeyword *)
Definition keywords : list string :=
  ["False"; "None"; "True"; "and"; "as"; "assert"; "async"; "await"; "break"; "class"; "continue"; "def"; "del"; "elif"; "else";
   "except"; "finally"; "for"; "from"; "global"; "if"; "import"; "in"; "is"; "lambda"; "nonlocal"; "not"; "or"; "pass"; "raise";
   "return"; "try"; "while"; "with"; "yield"]%string.
Definition underscore (c : ascii) : bool := Nat.eqb (nat_of_ascii c) 95.
Definition starts_underscore (s : string) : bool := match s with String c _ => underscore c | EmptyString => false end.
(* namedtuple(name, fields): ValueError unless the fields are different identifiers, no keywords and do not begin with
   an underscore (the type names used in df_metrics.py are valid) *)
Definition valid_field (s : string) : bool :=
  is_identifier s && negb (existsb (String.eqb s) keywords) && negb (starts_underscore s).
Fixpoint nodup_str (l : list string) : bool :=
  match l with [] => true | s :: r => negb (existsb (String.eqb s) r) && nodup_str r end.
Definition namedtuple {V} (fields : list (string * V)) : res (list (string * V)) :=
  if forallb (fun f => valid_field (fst f)) fields && nodup_str (map fst fields) then Ok fields else Err EValue.

(* df_metrics.py 607-621: _dict_to_namedtuple *)
Definition dict_to_namedtuple {V} (d : list (list string * V)) : res (list (string * V)) :=
  namedtuple (map (fun kv => (String.concat "_and_" (fst kv), snd kv)) d).

(* ---- wrapped metrics ---- *)

(* a metric of two arrays without missing values *)
Definition on_arrays (metric : pairs -> option R) (args : list (list cell)) : res (list (option R)) :=
  match args with
  | [x; y] => Ok [metric (combine (map Q2R (vals x)) (map Q2R (vals y)))]
  | _ => Err EType
  end.

(* df_metrics.py 88-136: _wrap_metric; a metric with several values makes nwise_apply return a tuple, which has no
   items() *)
Definition wrapped {V} (metric : list (list cell) -> res (list V)) (symmetric : bool) (f : frame) : res (list (string * option V)) :=
  bindR (nwise_apply metric metric f 2 symmetric MNone) (fun ds =>
  match ds with [d] => dict_to_namedtuple d | _ => Err EOther end).

(* df_metrics.py 255-258: tcol_snr *)
Definition tcol_snr (f : frame) (ref : nat) : res (list (list (list (string * option R)))) := df_tcol_metrics f (Some 0).

(* df_metrics.py 302-311: the results are named tuples, too *)
Definition tcol_tuples (f : frame) (ref : option nat) : res (list (list (list (string * option R)))) :=
  bindR (df_tcol_metrics f ref) (fun parts => seqR (map (fun part => seqR (map namedtuple part)) parts)).
