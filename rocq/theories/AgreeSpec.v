(* C125: what it takes for the metric calculators to see the same data. *)
From Coq Require Import Reals Qreals List.
From Verif Require Import Base RStats MetricsModel TcolModel ConfintModel CalcModel CalcSpec.
Open Scope R_scope.
Open Scope list_scope.
Open Scope string_scope.

(* no value is missing, as in the data frames a validation passes on *)
Definition no_gaps (f : frame) : Prop := forall r c, In r (f_rows f) -> In c (snd r) -> notna c = true.

(* the metric functions of pytesmo.metrics as they are applied to a pair of columns *)
Definition one_metric (g : pairs -> option R) (args : list (list cell)) : res (list (option R)) :=
  match args with [x; y] => Ok [on_pairs g x y] | _ => Err EType end.
Definition mse_metric (args : list (list cell)) : res (list (option R)) :=
  match args with
  | [x; y] => let m := obind (complete x y) mse_decomposition in
      Ok [omap (fun q => fst (fst (fst q))) m; omap (fun q => snd (fst (fst q))) m; omap (fun q => snd (fst q)) m; omap snd m]
  | _ => Err EType
  end.
(* a correlation with its p-value *)
Definition two_metric (g : list cell -> list cell -> option R * option R) (args : list (list cell)) : res (list (option R)) :=
  match args with [x; y] => Ok [fst (g x y); snd (g x y)] | _ => Err EType end.

(* two results store the same under the names *)
Definition same_entry (d : dataset) (k : key) (e : dataset) (l : key) : Prop := exists v, holds d k v /\ holds e l v.
