(* Model of get_dataset_names in src/pytesmo/validation_framework/metric_calculators.py. *)
From Verif Require Export NamesModel.

(* metric_calculators.py:1379-1412 get_dataset_names: the dataset names of the first combination.  The
   dictionary of datasets is given by the columns of each dataset (a dataset without the entry "columns",
   a KeyError, is not modelled). *)
Definition get_dataset_names (ref_key : string) (datasets : ds_dict) (n : nat) : res (list string) :=
  bindR (get_result_names datasets ref_key n) (fun ds_names =>
  match ds_names with
  | [] => Err EIndex
  | first :: _ => Ok (map fst first)
  end).
