(* Model of the metric calculator adapters:
   /repo/src/pytesmo/validation_framework/metric_calculators_adapters.py.

   Simplifications: the adapted calculator is any function from a frame and a location to a result
   dictionary; numpy's str_ in tuple keys is str; the representation of a tuple in a joined name assumes
   strings without quotes and backslashes. *)
From Coq Require Import Reals List.
From Verif Require Import Base GroupingModel CalcModel.
Open Scope list_scope.
Open Scope string_scope.

Inductive grouping := GTuple | GJoin.
(* 86-87: the assertion on group_results *)
Definition parse_grouping (s : string) : res grouping :=
  if String.eqb s "tuple" then Ok GTuple else if String.eqb s "join" then Ok GJoin else Err EOther.

(* f"{metric}" *)
Definition show (k : key) : string :=
  match k with [s] => s | _ => "(" ++ String.concat ", " (map (fun s => "'" ++ s ++ "'") k) ++ ")" end.

Section Adapter.
Variable template : dataset.                        (* calculator.result_template *)
Variable meta : metadata.                           (* calculator.metadata_template *)
Variable calc : frame -> gpi_info -> res dataset.   (* calculator.calc_metrics *)
Variable mode : grouping.

(* 91-95 *)
Definition non_seas_metrics : list string :=
  (["gpi"; "lon"; "lat"] ++ match meta with None => [] | Some m => map fst m end)%list.

(* 107-117: _genname *)
Definition genname (setname : string) (metric : key) : key :=
  if match metric with [s] => existsb (String.eqb s) non_seas_metrics | _ => false end then metric
  else match mode with
       | GTuple => setname :: metric
       | GJoin => [setname ++ "|" ++ show metric]
       end.

(* 97-105: the template of the adapter *)
Definition subset_template (subsets : list (string * distributor)) : dataset :=
  fold_left (fun d sd => fold_left (fun d kv => ds_set d (genname (fst sd) (fst kv)) (snd kv)) template d) subsets [].

(* 135-138: no selection from an empty frame *)
Definition subset_frame (D : distributor) (f : frame) : res frame :=
  match f_rows f with
  | [] => Ok f
  | rows => mapR (fun r => Frame (f_cols f) r) (ts_select D rows false)
  end.
(* 140-142 *)
Definition store (setname : string) (d ds : dataset) : dataset :=
  fold_left (fun d kv => ds_set d (genname setname (fst kv)) (snd kv)) ds d.
(* 134-144 *)
Fixpoint subset_loop (d : dataset) (subsets : list (string * distributor)) (f : frame) (info : gpi_info) : res dataset :=
  match subsets with
  | [] => Ok d
  | (name, D) :: r =>
      bindR (subset_frame D f) (fun g => bindR (calc g info) (fun ds => subset_loop (store name d ds) r f info))
  end.
Definition subset_calc (subsets : list (string * distributor)) (f : frame) (info : gpi_info) : res dataset :=
  subset_loop (subset_template subsets) subsets f info.
End Adapter.

(* ---- MonthsMetricsAdapter, 147-203 ---- *)
(* an entry of the dictionary passed by the user: a list of months, or a distributor *)
Inductive month_entry := Months (l : list Z) | Selected (D : distributor).
(* 195-200: the user's dictionary is overwritten; a distributor cannot be iterated over.  The result is the
   dictionary after the loop *)
Fixpoint months_loop (l : list (string * month_entry)) : res (list (string * month_entry)) :=
  match l with
  | [] => Ok []
  | (name, Months m) :: r => mapR (cons (name, Selected (months_distributor m))) (months_loop r)
  | (_, Selected _) :: _ => Err EType
  end.
Definition entry_subsets (l : list (string * month_entry)) : list (string * distributor) :=
  flat_map (fun e => match snd e with Selected D => [(fst e, D)] | Months _ => [] end) l.
Definition months_init (l : list (string * month_entry)) : res (list (string * month_entry) * list (string * distributor)) :=
  mapR (fun d => (d, entry_subsets d)) (months_loop l).
