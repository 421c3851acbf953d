(* Specification vocabulary for a complete validation run: which observations are compared. *)
From Verif Require Export ValidationSpec MatchersSpec.
From Verif Require Import TemporalModel TemporalSpec.

(* the value v of column (dataset, name) that belongs to time t of the temporal reference: its own
   value at t if the dataset is the temporal reference, the value of the nearest observation within
   w otherwise (missing if there is none) *)
Definition observed (dfs : df_dict) (tref : string) (w t : Z) (x : dscol) (v : cell) : Prop :=
  exists f row i, In (fst x, f) dfs /\ nth_error (fcols f) i = Some (snd x) /\ nth_error row i = Some v /\
    if String.eqb (fst x) tref then first_row f t row
    else nearest_row (frows f) (List.length (fcols f)) t w row.

(* r holds the values of the combination at an observation time t of the temporal reference, and
   none of them is missing *)
Definition compared (dfs : df_dict) (tref : string) (w : Z) (key : list dscol) (t : Z) (r : row) : Prop :=
  (exists ref, In (tref, ref) dfs /\ has_time ref t) /\
  Forall2 (observed dfs tref w t) key r /\ forall v, In v r -> v <> None.

(* all configured columns have a value at time t *)
Definition all_observed (ds : ds_dict) (dfs : df_dict) (tref : string) (w t : Z) : Prop :=
  forall d cols col, In (d, cols) ds -> In col cols -> exists v, observed dfs tref w t (d, col) v /\ v <> None.

(* the data manager has delivered every configured dataset, with the configured columns *)
Definition delivered (ds : ds_dict) (dfs : df_dict) : Prop :=
  NoDup (map fst dfs) /\ (forall d, In d (map fst dfs) <-> In d (map fst ds)) /\
  forall d f, In (d, f) dfs -> usable f /\ NoDup (fcols f) /\ forall cols, In (d, cols) ds -> incl cols (fcols f).

Section Outcome.
Context {G V : Type}.
Variable code : Z -> V.
Notation metrics := (list (field * fval V)).

(* the metrics of no data, with status s *)
Definition failed_with (calculator : frame -> G -> res metrics) (key : list dscol) (g : G) (s : Z) (m : metrics) : Prop :=
  exists t, calculator (mkFrame (map fst key) []) g = Ok t /\ map fst m = map fst t /\
    field_get m (FName "status") = Ok (code s) /\
    forall k, ~ status_field k -> field_get m k = field_get t k.

(* the metrics of the rows, which get the given column names *)
Definition outcome (calculator : frame -> G -> res metrics) (names : list string) (key : list dscol) (g : G)
    (rows : list (Z * row)) (m : metrics) : Prop :=
  match rows with
  | [] => failed_with calculator key g NO_TEMP_MATCHED_DATA m
  | _ => match calculator (mkFrame names rows) g with
         | Ok m' => m = m'
         | Err _ => failed_with calculator key g METRICS_CALCULATION_FAILED m
         end
  end.
End Outcome.

(* the column names ref, k1, k2, ... *)
Definition numbered (k : nat) : list string :=
  map (fun i => match i with O => "ref"%string | _ => ("k" ++ decimal i)%string end) (seq 0 k).
