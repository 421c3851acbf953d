(* C94: temporal matching depends on differences of times only. *)
From Verif Require Import Base NamesModel GroupingModel MatchersModel TemporalModel ShiftProofs.
Open Scope Z_scope.

(* the same frame on another time axis: other epoch (s), other unit (k ticks for one) *)
Definition on_axis (k s : Z) (g : frame) : frame := mkFrame (fcols g) (map (fun p => (k * fst p + s, snd p)) (frows g)).

Theorem C94_collocation k s store oob oob' ref other window o : 0 < k -> o_return_index o = false -> o_return_distance o = false ->
  temporal_collocation store oob' (map (fun t => k * t + s) ref) (on_axis k s other) (k * window) o =
  mapR (on_axis k s) (temporal_collocation store oob ref other window o).
Proof. intros K. exact (collocation_f k s K oob oob' store ref other window o). Qed.
Print Assumptions C94_collocation.

Theorem C94_combined_collocation k s store oob oob' ref others window o cd add_ref : 0 < k ->
  combined_temporal_collocation store oob' (on_axis k s ref) (map (on_axis k s) others) (k * window) o cd add_ref =
  mapR (on_axis k s) (combined_temporal_collocation store oob ref others window o cd add_ref).
Proof. intros K. exact (combined_f k s K oob oob' store ref others window o cd add_ref). Qed.
Print Assumptions C94_combined_collocation.

(* The matchers of the validation framework: the same keys, the same frames on the other axis. *)
Definition dict_on_axis k s (dfs : df_dict) : df_dict := map (fun e => (fst e, on_axis k s (snd e))) dfs.
Definition result_on_axis k s (r : list (list string * frame)) : list (list string * frame) := map (fun e => (fst e, on_axis k s (snd e))) r.
Lemma dict_get_axis k s (dfs : df_dict) n : dict_get (dict_on_axis k s dfs) n = option_map (on_axis k s) (dict_get dfs n).
Proof. unfold dict_get, dict_on_axis. induction dfs as [|[m g] r IH]; [reflexivity|]. cbn. destruct (String.eqb m n); [reflexivity|exact IH]. Qed.
Lemma names_axis k s dfs : map fst (dict_on_axis k s dfs) = map fst dfs.
Proof. unfold dict_on_axis. rewrite map_map. reflexivity. Qed.
Lemma multi_axis k s g n : df_name_multiindex (on_axis k s g) n = on_axis k s (df_name_multiindex g n).
Proof. reflexivity. Qed.
Lemma named_axis k s dfs keys : named_frames (dict_on_axis k s dfs) keys = map (on_axis k s) (named_frames dfs keys).
Proof.
  unfold named_frames. induction keys as [|n keys IH]; cbn [flat_map]; [reflexivity|]. rewrite map_app, dict_get_axis, IH. destruct (dict_get dfs n); reflexivity.
Qed.
Lemma set_axis k s m n g : dict_set key_eqb (result_on_axis k s m) n (on_axis k s g) = result_on_axis k s (dict_set key_eqb m n g).
Proof. induction m as [|[x h] m IH]; cbn; [reflexivity|]. destruct (key_eqb x n); cbn; [reflexivity|]. f_equal. exact IH. Qed.
Lemma loop_axis k s store oob oob' window dfs refkey ref combos : 0 < k -> forall matched,
  match_loop store oob' (k * window) (dict_on_axis k s dfs) refkey (on_axis k s ref) combos (result_on_axis k s matched) =
  mapR (result_on_axis k s) (match_loop store oob window dfs refkey ref combos matched).
Proof.
  intros K. induction combos as [|c combos IH]; intros matched; cbn [match_loop]; [reflexivity|]. unfold basic_match. rewrite named_axis, (C94_combined_collocation k s store oob oob' _ _ _ _ _ _ K).
  destruct (combined_temporal_collocation store oob _ _ _ _ _ _) as [j|]; [|reflexivity]. cbn [mapR bindR]. rewrite <- IH. f_equal. cbn [on_axis frows]. rewrite map_length.
  destruct (Nat.eqb _ 0); [reflexivity|]. apply set_axis.
Qed.
Theorem C94_combinatory_matcher k s store oob oob' window dfs refkey n : 0 < k ->
  combinatory_matcher store oob' (k * window) (dict_on_axis k s dfs) refkey n = mapR (result_on_axis k s) (combinatory_matcher store oob window dfs refkey n).
Proof.
  intros K. unfold combinatory_matcher. rewrite names_axis, dict_get_axis. destruct (list_remove refkey (map fst dfs)); [|reflexivity]. destruct (dict_get dfs refkey) as [g|]; [|reflexivity]. cbn [option_map].
  destruct n as [|n]; [reflexivity|]. exact (loop_axis k s store oob oob' window dfs refkey (df_name_multiindex g refkey) _ K []).
Qed.
Print Assumptions C94_combinatory_matcher.
Theorem C94_combined_matcher k s store oob oob' hour window dfs refname n : 0 < k ->
  combined_matcher store oob' (k * hour) (option_map (Z.mul k) window) (dict_on_axis k s dfs) refname n =
  mapR (result_on_axis k s) (combined_matcher store oob hour window dfs refname n).
Proof.
  intros K. unfold combined_matcher. rewrite !names_axis, dict_get_axis. unfold dict_on_axis at 1. rewrite map_length. destruct (match n with Some m => _ | None => false end); [reflexivity|]. cbv zeta.
  destruct (dict_get dfs refname) as [g|]; [|reflexivity]. cbn [option_map]. rewrite named_axis, multi_axis.
  replace (match option_map (Z.mul k) window with Some w => w | None => k * hour end) with (k * match window with Some w => w | None => hour end) by (destruct window; reflexivity).
  rewrite (C94_combined_collocation k s store oob oob' _ _ _ _ _ _ K). destruct (combined_temporal_collocation store oob _ _ _ _ _ _); [|reflexivity]. cbn [mapR bindR]. destruct (list_remove _ _); reflexivity.
Qed.
Print Assumptions C94_combined_matcher.

(* hours and minutes since another day *)
Example C94_ex : let ref := mkFrame ["r"]%string [(0, [Some 1%Q]); (24, [Some 2%Q]); (48, [Some 3%Q])] in
  let oth := mkFrame ["o"]%string [(2, [Some 10%Q]); (23, [Some 20%Q]); (60, [Some 30%Q])] in
  combined_matcher (fun c => c) 0 1 (Some 3) [("a", ref); ("b", oth)]%string "a" (Some 2%nat) =
    Ok [(["a"; "b"]%string, mkFrame [tup "a" "r"; tup "b" "o"] [(0, [Some 1%Q; Some 10%Q]); (24, [Some 2%Q; Some 20%Q])])] /\
  combined_matcher (fun c => c) 7 60 (Some 180) [("a", on_axis 60 1000 ref); ("b", on_axis 60 1000 oth)]%string "a" (Some 2%nat) =
    Ok [(["a"; "b"]%string, mkFrame [tup "a" "r"; tup "b" "o"] [(1000, [Some 1%Q; Some 10%Q]); (2440, [Some 2%Q; Some 20%Q])])].
Proof. split; vm_compute; reflexivity. Qed.
