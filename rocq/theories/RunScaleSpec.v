(* Specification vocabulary for validation runs with scaling and masking. *)
From Verif Require Export RunSpec.
From Verif Require Import TemporalModel TemporalSpec.

Section Spec.
Context {G V : Type}.
Variable code : Z -> V.
Notation metrics := (list (field * fval V)).
Variable c : @config G V.

(* the columns whose values are needed for a combination: its own and, with scaling, the column col of the scaling reference *)
Definition columns_read (col : string) (key : list dscol) : list dscol :=
  match c_scale c with
  | None => key
  | Some _ => if existsb (String.eqb (c_sref c)) (map fst key) then key else key ++ [(c_sref c, col)]
  end.

(* the scaling method raises for these rows *)
Definition scaling_error (g : G) (rt : list dscol) (rows : list (Z * row)) : Prop :=
  exists scale i e, c_scale c = Some scale /\ nth_error (map fst rt) i = Some (c_sref c) /\ rows <> [] /\
    scale (mkFrame (map fst rt) rows) i g = Err e.

(* rows' are the rows scaled to the scaling reference, without the column that was added for scaling *)
Definition scaled_to (g : G) (key rt : list dscol) (rows rows' : list (Z * row)) : Prop :=
  match c_scale c with
  | None => rows' = rows
  | Some scale => exists i sc, nth_error (map fst rt) i = Some (c_sref c) /\ scale (mkFrame (map fst rt) rows) i g = Ok sc /\
      rows' = map (fun tr => (fst tr, firstn (List.length key) (snd tr))) (frows sc)
  end.

(* the metrics of a combination: those of its scaled rows *)
Definition scaled_outcome (calculator : frame -> G -> res metrics) (names : list string) (key rt : list dscol) (g : G)
    (rows : list (Z * row)) (m : metrics) : Prop :=
  match rows with
  | [] => failed_with code calculator key g NO_TEMP_MATCHED_DATA m
  | _ => exists rows', scaled_to g key rt rows rows' /\
         match calculator (mkFrame names rows') g with
         | Ok m' => m = m'
         | Err _ => failed_with code calculator key g METRICS_CALCULATION_FAILED m
         end
  end.

(* a scaling method that returns the columns and rows it was given, with other values *)
Definition keeps_shape : Prop :=
  forall scale g, c_scale c = Some scale -> forall d i sc, scale d i g = Ok sc ->
    fcols sc = fcols d /\ Forall2 (fun r r' : Z * row => fst r' = fst r /\ List.length (snd r') = List.length (snd r)) (frows d) (frows sc).

(* a run over all datasets at once with calculators that fill their fields; with scaling, the scaling reference has
   the one column col *)
Definition scaled_run (F : nat -> list field) (col : string) : Prop :=
  wf_config c /\ keeps_shape /\ (c_scale c <> None -> columns_of (c_ds c) (c_sref c) = Some [col]) /\ In (c_tref c) (map fst (c_ds c)) /\
  (forall n k f, In ((n, k), f) (c_calcs c) -> n = List.length (c_ds c) /\ regular (F k) f).

(* the scaling of some reported combination fails; R gives the rows of each combination *)
Definition some_scaling_error (only_ref : bool) (g : G) (col : string) (R : list dscol -> list (Z * row)) : Prop :=
  exists n k f key, reported c only_ref n k f key /\ scaling_error g (columns_read col key) (R key).
End Spec.
