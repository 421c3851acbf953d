(* Model of a validation that scales with stored parameters: the loop over the combinations of
   src/pytesmo/validation_framework/validation.py:428-463 with CDFStoreParamsScaler
   (src/pytesmo/validation_framework/data_scalers.py:101-257) as scaling.  The parameter files are the state. *)
From Verif Require Export ValidationModel StoredModel.
Open Scope Z_scope.

(* the columns of a frame by name *)
Definition to_columns (f : frame) : list (string * list cell) :=
  map (fun j => (nth j (fcols f) EmptyString, map (fun tr => nth j (snd tr) None) (frows f))) (seq 0 (List.length (fcols f))).

Section Loop.
Context {G V : Type}.
(* validation.py:428-463 for one grid point, with handle_errors = "ignore": a combination without data gets a
   dummy result and is not scaled; an exception while scaling (451-457) ends the grid point.  Results: the scaled
   frames of the combinations.  The scaler is called with the dataset names as column names (445-447). *)
Fixpoint scale_keys (o : scaler_opts) (st : store) (c : @config G V) (only_ref : bool) (matched : list (list string * frame)) (gpi : Z)
    (keys : list (list dscol)) : store * vres (list (list dscol * list (string * list cell))) :=
  match keys with
  | [] => (st, VOk [])
  | key :: rest =>
      match extract c true matched key with
      | Err e => (st, VErr (PError e))
      | Ok None => scale_keys o st c only_ref matched gpi rest
      | Ok (Some data) =>
          if skip_key c only_ref key then scale_keys o st c only_ref matched gpi rest else
          if Nat.eqb (List.length (frows data)) 0 then scale_keys o st c only_ref matched gpi rest else
          let data := drop_multiindex data in
          match index_of (c_sref c) (fcols data) with
          | Err e => (st, VErr (PError e))
          | Ok i =>
              match stored_scale o st (to_columns data) (Z.of_nat i) gpi with
              | (st1, Err _) => (st1, VErr (VError SCALING_FAILED))
              | (st1, Ok out) =>
                  let (st2, r) := scale_keys o st1 c only_ref matched gpi rest in
                  (st2, bindV r (fun l => VOk ((key, out) :: l)))
              end
          end
      end
  end.
End Loop.
