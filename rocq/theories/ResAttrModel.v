(* Attributes of the variables of a result file, and finding locations by coordinates:
   /repo/src/pytesmo/validation_framework/results_manager.py 178-202, 226-233, 279-286, 309-341. *)
From Verif Require Import ResultsModel GroupingModel MatchersModel ValidationModel TemporalModel.
Open Scope Z_scope.

(* values of attributes are opaque (strings here) *)
Definition attrs := list (string * string).
(* the dictionary given by the user: the keys are names of results, plain names or tuples; the inner dictionaries are
   objects of the caller and may be changed.  Two keys with one and the same inner dictionary are not modelled. *)
Definition attr_dict := list (field * attrs).
(* the variables of a file in the order of their creation, with the attributes they were created with *)
Definition var_attrs := list (string * attrs).

Definition fget (d : attr_dict) (k : field) : option attrs := option_map snd (find (fun e => field_eqb (fst e) k) d).

(* results_manager.py 188-202 _sel_attr: the attributes of the variable, and the dictionary of the caller afterwards:
   var_attr["coordinates"] = ... changes the inner dictionary itself.  attr=None is the empty dictionary (190-191). *)
Definition coordinates (time : bool) : string := if time then "idx lat lon time"%string else "idx lat lon"%string.
Definition sel_attr (attr : attr_dict) (name : string) (time : bool) : attrs * attr_dict :=
  let var_attr := match fget attr (FName name) with Some a => a | None => [] end in
  let var_attr := match dict_get var_attr "coordinates"%string with
                  | Some _ => var_attr
                  | None => var_attr ++ [("coordinates"%string, coordinates time)]
                  end in
  (var_attr, match fget attr (FName name) with
             | Some _ => dict_set field_eqb attr (FName name) var_attr
             | None => attr
             end).

(* results_manager.py 226-233 / 279-286, the attributes: write_var (pynetcf) creates the variable with them; the values
   are in ResultsModel.store_all *)
Definition store_attrs (vars : var_attrs) (attr : attr_dict) (names : list string) : var_attrs * attr_dict :=
  fold_left (fun va name =>
    match dict_get (fst va) name with
    | Some _ => va
    | None => let '(a, attr) := sel_attr (snd va) name false in (fst va ++ [(name, a)], attr)
    end) names (vars, attr).

(* results_manager.py 204-233 add_ts_results *)
Definition ts_attrs (vars : var_attrs) (attr : attr_dict) (names : list string) := store_attrs vars attr names.
(* results_manager.py 235-286 add_metrics_results *)
Definition metrics_attrs (vars : var_attrs) (attr : attr_dict) (fields : list field) := store_attrs vars attr (map var_name fields).
(* the inner dictionaries of [part] are those of [attr] *)
Definition shared (attr part : attr_dict) : attr_dict :=
  map (fun ka => (fst ka, match fget part (fst ka) with Some a => a | None => snd ka end)) attr.
(* results_manager.py 309-341 add_result: dictionaries of attributes for the two kinds of results.  Without time
   series add_ts_results is not called, which is the same as calling it without names. *)
Definition result_attrs (vars : var_attrs) (attr : attr_dict) (fields : list field) (ts_vars : list string) : var_attrs * attr_dict :=
  let metric_fields := filter (fun k => negb (is_ts ts_vars k)) fields in
  let ts_fields := filter (is_ts ts_vars) fields in
  let pick fs := filter (fun ka => existsb (field_eqb (fst ka)) fs) attr in
  let '(vars, m) := metrics_attrs vars (pick metric_fields) metric_fields in
  let '(vars, t) := ts_attrs vars (pick ts_fields) (map var_name ts_fields) in
  (vars, shared (shared attr m) t).

(* results_manager.py 178-182 _lonlat2idx: all positions with these coordinates.  Comparing masked cells is not modelled:
   a missing coordinate equals nothing here. *)
Definition cell_is (c : cell) (q : Q) : bool := match c with Some x => Qeq_bool x q | None => false end.
Definition lonlat2idx (s : ncfile) (lon lat : Q) : res (list nat) :=
  bindR (get_var s "lon") (fun vlon => bindR (get_var s "lat") (fun vlat =>
  Ok (filter (fun i => cell_is (nth i (cells s vlon) None) lon && cell_is (nth i (cells s vlat) None) lat) (seq 0 (f_loc s))))).
(* results_manager.py 184-186 _idx2lonlat, for a non-negative index *)
Definition idx2lonlat (s : ncfile) (i : nat) : res (cell * cell) :=
  bindR (get_var s "lon") (fun vlon => bindR (get_var s "lat") (fun vlat =>
  match nth_error (cells s vlon) i, nth_error (cells s vlat) i with
  | Some a, Some b => Ok (a, b)
  | _, _ => Err EIndex
  end)).
