(* Specification vocabulary for scaling with stored parameters within a validation. *)
From Verif Require Export StoredValModel NamesSpec ValidationSpec.
Open Scope Z_scope.

(* the values of a named column *)
Definition named_col (f : frame) (name : string) : list cell :=
  match col_pos name (fcols f) with
  | Some j => map (fun tr => nth j (snd tr) None) (frows f)
  | None => []
  end.
Definition single_columns (d : ds_dict) : Prop := forall ds cols, In (ds, cols) d -> exists col, cols = [col].
