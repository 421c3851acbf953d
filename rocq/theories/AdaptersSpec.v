(* Vocabulary of the properties of the reader adapters. *)
From Verif Require Export AdaptersModel.
From Coq Require Export SetoidList.
Open Scope Z_scope.

(* the value of a named column in a row *)
Definition value (cols : list string) (r : list cell) (n : string) : cell :=
  match position n cols with Some k => nth k r None | None => None end.
Definition wf {I} (t : tab I) : Prop :=
  NoDup (tcols t) /\ forall r, In r (trows t) -> List.length (snd r) = List.length (tcols t).

(* a row passes a filter (column, operator, threshold) *)
Definition passes (ignore_nans : bool) (cols : list string) (r : list cell) (flt : string * (cell -> cell -> bool) * cell) : bool :=
  let '(n, f, threshold) := flt in
  f (value cols r n) threshold || (ignore_nans && is_nan (value cols r n)).

(* offset of a field with a unit of [k] ns; missing values count as zero; whole numbers of the unit *)
Definition offset_ns (cols : list string) (r : list cell) (fk : string * Z) : Z :=
  match value cols r (fst fk) with Some x => trunc x * snd fk | None => 0 end.
Definition zsum (l : list Z) : Z := fold_right Z.add 0 l.
(* the base time of a row, in ns *)
Definition base_of (o : ts_opts) (cols : list string) (r : cell * list cell) : cell :=
  match to_base o with Some f => value cols (snd r) f | None => fst r end.
Definition base_ns (o : ts_opts) (base_unit : Z) (b : Q) : Q :=
  match to_reference o with None => b | Some ref => inject_Z (ref + trunc b * base_unit) end.
Definition has_base (o : ts_opts) (cols : list string) (r : cell * list cell) : bool := notna (base_of o cols r).
(* the time the adapter documents: base time plus all offsets *)
Definition exact_time (o : ts_opts) (base_unit : Z) (cols : list string) (offsets : list (string * Z)) (r : cell * list cell) : Q :=
  (base_ns o base_unit (match base_of o cols r with Some b => b | None => 0 end) +
   inject_Z (zsum (map (offset_ns cols (snd r)) offsets)))%Q.
(* the columns that remain *)
Definition remaining (o : ts_opts) (cols : list string) : list string :=
  if to_drop o
  then filter (fun n => negb (existsb (String.eqb n) (match to_fields o with Some l => l | None => [] end)) &&
                        match to_base o with Some f => negb (String.eqb n f) | None => true end) cols
  else cols.

(* the offset fields with their units in ns, one unit per field *)
Definition offsets_of (o : ts_opts) (cols : list string) (offsets : list (string * Z)) : Prop :=
  match to_fields o with
  | None => offsets = []
  | Some fields => exists ks, Forall2 (fun u k => unit_ns u = Some k) (to_units o) ks /\
                              List.length fields = List.length ks /\ offsets = combine fields ks /\
                              forall f, In f fields -> In f cols
  end.
Definition base_unit_of (o : ts_opts) (k : Z) : Prop := to_reference o = None \/ unit_ns (to_base_units o) = Some k.
Definition base_present (o : ts_opts) (cols : list string) : Prop := match to_base o with Some f => In f cols | None => True end.
