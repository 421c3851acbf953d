(* Specification for C115: attributes of variables in result files, locations by coordinates. *)
From Verif Require Import ResultsModel ResultsSpec MatchersModel ValidationModel TemporalModel ResAttrModel.
Open Scope Z_scope.

(* calls that write results with attributes *)
Inductive acall :=
| AMetrics (attr : attr_dict) (fields : list field)
| ATs (attr : attr_dict) (names : list string)
| AResult (attr : attr_dict) (fields : list field) (ts_vars : list string).
Definition run_attrs (vars : var_attrs) (c : acall) : var_attrs * attr_dict :=
  match c with
  | AMetrics attr fields => metrics_attrs vars attr fields
  | ATs attr names => ts_attrs vars attr names
  | AResult attr fields ts_vars => result_attrs vars attr fields ts_vars
  end.
Definition run_all_attrs (vars : var_attrs) (h : list acall) : var_attrs := fold_left (fun v c => fst (run_attrs v c)) h vars.
Definition dict_of (c : acall) : attr_dict := match c with AMetrics a _ => a | ATs a _ => a | AResult a _ _ => a end.

(* the variable a call writes for a name *)
Definition mentions (c : acall) (n : string) : Prop :=
  match c with
  | AMetrics _ fields => In n (map var_name fields)
  | ATs _ names => In n names
  | AResult _ fields _ => In n (map var_name fields)
  end.
Definition distinct_names (c : acall) : Prop :=
  match c with
  | AMetrics _ fields => NoDup (map var_name fields)
  | ATs _ names => NoDup names
  | AResult _ fields _ => NoDup (map var_name fields)
  end.
(* the attributes that the dictionary of the call has for this variable *)
Definition given (c : acall) (n : string) : option attrs := fget (dict_of c) (FName n).
(* add_result passes on only attributes for names that are results themselves, which the joined name of a tuple is not *)
Definition passed_on (c : acall) (n : string) : Prop := match c with AResult _ fields _ => In (FName n) fields | _ => True end.

(* attributes of a variable: the given ones, and coordinates if none are given *)
Definition described (g : option attrs) (a : attrs) : Prop :=
  forall k, dict_get a k = match dict_get (match g with Some x => x | None => [] end) k with
                           | Some v => Some v
                           | None => if String.eqb k "coordinates" then Some "idx lat lon"%string else None
                           end.
(* a dictionary before and after a call: the same keys; an inner dictionary is unchanged or has got coordinates *)
Definition only_coordinates (d d' : attr_dict) : Prop :=
  Forall2 (fun x y => fst y = fst x /\ (snd y = snd x \/ dict_get (snd x) "coordinates" = None /\ snd y = snd x ++ [("coordinates", "idx lat lon")]%string)) d d'.
