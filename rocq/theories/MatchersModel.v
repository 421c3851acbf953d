(* Model of src/pytesmo/validation_framework/temporal_matchers.py on the frames of
   TemporalModel.  A dictionary of frames is an association list in insertion order.
   MultiIndex column names (a, b) are represented by strings through an injective encoding. *)
From Verif Require Export GroupingModel NamesModel TemporalModel.

Definition df_dict := list (string * frame).
Definition dict_get {V} (d : list (string * V)) (k : string) : option V :=
  option_map snd (find (fun e => String.eqb (fst e) k) d).

(* a python tuple of two strings as one string: every character of the first is preceded by
   "1", then "0", then the second *)
Fixpoint tup (a b : string) : string :=
  match a with
  | EmptyString => String "0" b
  | String c a' => String "1" (String c (tup a' b))
  end.

(* temporal_matchers.py:214-224 df_name_multiindex *)
Definition df_name_multiindex (f : frame) (name : string) : frame :=
  mkFrame (map (tup name) (fcols f)) (frows f).

(* the options of both matchers: dropna=True, dropduplicates=True, method="nearest" *)
Definition match_opts : tc_opts := mkOpts MNearest false false true true NoFlag false.

(* dictionary keys are tuples of names *)
Fixpoint key_eqb (a b : list string) : bool :=
  match a, b with
  | [], [] => true
  | x :: a', y :: b' => String.eqb x y && key_eqb a' b'
  | _, _ => false
  end.

Section Matchers.
Variable store : cell -> cell.
Variable oob : Z.

(* temporal_matchers.py:55-70 BasicTemporalMatching.match *)
Definition basic_match (window : Z) (reference : frame) (args : list frame) : res frame :=
  combined_temporal_collocation store oob reference args window match_opts CDAll true.

(* the frames of the given keys; KeyError cannot occur for keys of the dictionary *)
Definition named_frames (dfs : df_dict) (keys : list string) : list frame :=
  flat_map (fun k => match dict_get dfs k with Some f => [df_name_multiindex f k] | None => [] end) keys.

(* list.index(x); pop: removes the first occurrence, ValueError if absent *)
Fixpoint list_remove (x : string) (l : list string) : option (list string) :=
  match l with
  | [] => None
  | y :: r => if String.eqb y x then Some r else option_map (cons y) (list_remove x r)
  end.

(* temporal_matchers.py:106-121: the loop over the combinations *)
Fixpoint match_loop (window : Z) (dfs : df_dict) (refkey : string) (ref_df : frame)
    (combos : list (list string)) (matched : list (list string * frame))
  : res (list (list string * frame)) :=
  match combos with
  | [] => Ok matched
  | iterkeys :: rest =>
      bindR (basic_match window ref_df (named_frames dfs iterkeys)) (fun joined =>
      let matched_key := refkey :: s_sort str_leb iterkeys in
      let matched' := if Nat.eqb (List.length (frows joined)) 0 then matched
                      else dict_set key_eqb matched matched_key joined in
      match_loop window dfs refkey ref_df rest matched')
  end.

(* temporal_matchers.py:72-123 BasicTemporalMatching.combinatory_matcher *)
Definition combinatory_matcher (window : Z) (dfs : df_dict) (refkey : string) (n : nat)
  : res (list (list string * frame)) :=
  match list_remove refkey (map fst dfs) with
  | None => Err EValue
  | Some keys =>
      match dict_get dfs refkey with
      | None => Err EKey
      | Some ref_df =>
          match n with
          | O => Err EValue       (* combinations(keys, -1) *)
          | S n' => match_loop window dfs refkey (df_name_multiindex ref_df refkey)
                      (combinations n' keys) []
          end
      end
  end.

(* temporal_matchers.py:126-177 dfdict_combined_temporal_collocation with the keyword arguments
   set by make_combined_temporal_matcher (180-211): dropna=True, combined_dropna="any",
   dropduplicates=True.  [hour] is pd.Timedelta(hours=1) in ticks. *)
Definition combined_matcher (hour : Z) (window : option Z) (dfs : df_dict) (refname : string)
    (n : option nat) : res (list (list string * frame)) :=
  if match n with Some m => negb (Nat.eqb (List.length dfs) m) | None => false end then Ok []
  else
    let w := match window with Some w => w | None => hour end in
    let othernames := filter (fun k => negb (String.eqb k refname)) (map fst dfs) in
    match dict_get dfs refname with
    | None => Err EKey
    | Some ref =>
        bindR (combined_temporal_collocation store oob (df_name_multiindex ref refname)
                 (named_frames dfs othernames) w match_opts CDAny true) (fun matched =>
        match list_remove refname (map fst dfs) with
        | None => Err EValue
        | Some names => Ok [(refname :: names, matched)]
        end)
    end.
End Matchers.
