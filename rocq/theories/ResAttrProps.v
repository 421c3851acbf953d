(* Property theorems C115: attributes of the variables in result files, and locations by their coordinates. *)
From Coq Require Import Lia.
From Verif Require Import ResultsModel ResultsSpec MatchersModel ValidationModel NamesProofs MatchersProofs ResultsProofs ResultsProofs2.
From Verif Require Import TemporalModel TemporalSpec ResAttrModel ResAttrSpec ResAttrProofs.
Open Scope Z_scope.

(* over all histories of calls a variable has the attributes given by the first call that writes it *)
Theorem C115_first_call : forall (vars : var_attrs) (before after : list acall) (c : acall) (n : string),
  dict_get vars n = None -> (forall c', In c' before -> ~ mentions c' n) -> mentions c n -> distinct_names c -> passed_on c n ->
  exists a, dict_get (run_all_attrs vars (before ++ c :: after)) n = Some a /\ described (given c n) a.
Proof.
  intros vars before after c n V B M D P. unfold run_all_attrs. rewrite fold_left_app. cbn [fold_left]. fold (run_all_attrs vars before).
  destruct (run_new (run_all_attrs vars before) c n D M) as (a & E & G & _); [rewrite run_all_other by exact B; exact V|].
  exists a. split; [apply (run_all_keep after); exact E|apply G; exact P].
Qed.
(* variables that exist keep their attributes, and variables no call writes are not created *)
Theorem C115_kept : forall (vars : var_attrs) (h : list acall) (n : string),
  (forall a, dict_get vars n = Some a -> dict_get (run_all_attrs vars h) n = Some a) /\
  ((forall c, In c h -> ~ mentions c n) -> dict_get (run_all_attrs vars h) n = dict_get vars n).
Proof. intros vars h n. split; [intros a; apply run_all_keep|apply run_all_other]. Qed.
(* the only change to the dictionary of the caller are missing coordinates *)
Theorem C115_caller : forall vars c, NoDup (map fst (dict_of c)) -> only_coordinates (dict_of c) (snd (run_attrs vars c)).
Proof. exact run_caller. Qed.
(* so that it can be used again, for the same or for other files *)
Theorem C115_used_again : forall d d' n a, only_coordinates d d' ->
  (described (fget d' (FName n)) a <-> described (fget d (FName n)) a).
Proof.
  intros d d' n a O. pose proof (oc_get d d' (FName n) O) as G.
  assert (Q : forall x y, oc1 (FName n, x) (FName n, y) -> (described (Some y) a <-> described (Some x) a)).
  { intros x y [_ [H|[H1 H2]]]; cbn [snd] in *; [subst; reflexivity|]. subst y. unfold described. split; intros D k; specialize (D k); rewrite dget_app, dget_one in *.
    - destruct (dict_get x k); [exact D|]. rewrite String.eqb_sym in D. destruct (String.eqb k "coordinates"); exact D.
    - rewrite D. destruct (dict_get x k); [reflexivity|]. rewrite (String.eqb_sym "coordinates" k). destruct (String.eqb k "coordinates"); reflexivity. }
  destruct (fget d (FName n)) as [x|], (fget d' (FName n)) as [y|]; try contradiction; [apply Q; exact G|reflexivity].
Qed.

(* the variables of time series do not name their time coordinate *)
Theorem C115_time_coordinate_refuted :
  ~ (forall vars attr names n a, In n names -> dict_get vars n = None -> fget attr (FName n) = None ->
       dict_get (fst (run_attrs vars (ATs attr names))) n = Some a -> dict_get a "coordinates" = Some "idx lat lon time"%string).
Proof.
  intros H. specialize (H [] [] ["rR"%string] "rR"%string _ (or_introl eq_refl) eq_refl eq_refl eq_refl). discriminate H.
Qed.
(* the attributes of a result whose name is a tuple are lost when the point is written with add_result, under the name of the
   variable and under the tuple, while add_metrics_results finds them under the name of the variable *)
Theorem C115_tuple_refuted :
  exists attr fields n a, map var_name fields = [n] /\ given (AResult attr fields []) n = Some a /\ dict_get a "units" <> None /\
    option_map (fun x => dict_get x "units") (dict_get (fst (run_attrs [] (AResult attr fields []))) n) = Some None /\
    option_map (fun x => dict_get x "units") (dict_get (fst (run_attrs [] (AMetrics attr fields))) n) = Some (dict_get a "units") /\
    fget attr (FTuple ["R"; "ab"]%string) <> None.
Proof.
  exists [(FName "R__ab", [("units", "1")]); (FTuple ["R"; "ab"], [("units", "1")])]%string, [FTuple ["R"; "ab"]%string], "R__ab"%string, [("units", "1")]%string.
  repeat split; try reflexivity; discriminate.
Qed.
(* the dictionary of the caller is changed *)
Theorem C115_caller_refuted : ~ (forall vars c, snd (run_attrs vars c) = dict_of c).
Proof. intros H. specialize (H [] (AMetrics [(FName "R", [("units", "1")])]%string [FName "R"])). discriminate H. Qed.

(* after any history of calls the locations with given coordinates are exactly those found *)
Theorem C115_found_by_coordinates : forall h : list call, ok_history empty_table h ->
  exists s, exec_all new_file h = Ok s /\
    forall lon lat, exists l, lonlat2idx s lon lat = Ok l /\ NoDup l /\
      forall i, In i l <-> exists p, nth_error (t_locs (stored h)) i = Some p /\ (fst (fst p) == lon)%Q /\ (snd (fst p) == lat)%Q.
Proof.
  intros h H. destruct (exec_all_ok h new_file empty_table inv_new H) as (s & E & I). exists s. split; [exact E|]. intros lon lat. apply (lookup_ok s _ lon lat I).
Qed.
(* the coordinates of an index are those stored, and lead back to it; to nothing else if no other location has them *)
Theorem C115_there_and_back : forall h : list call, ok_history empty_table h ->
  exists s, exec_all new_file h = Ok s /\
    forall i lon lat v, nth_error (t_locs (stored h)) i = Some ((lon, lat), v) ->
      idx2lonlat s i = Ok (Some lon, Some lat) /\
      exists l, lonlat2idx s lon lat = Ok l /\ In i l /\
        ((forall j p, nth_error (t_locs (stored h)) j = Some p -> (fst (fst p) == lon)%Q -> (snd (fst p) == lat)%Q -> j = i) -> l = [i]).
Proof.
  intros h H. destruct (exec_all_ok h new_file empty_table inv_new H) as (s & E & I). exists s. split; [exact E|]. intros i lon lat v L. split; [apply (coords_ok s _ i _ I L)|].
  destruct (lookup_ok s _ lon lat I) as (l & El & N & W). exists l. split; [exact El|].
  assert (Ii : In i l). { apply W. exists ((lon, lat), v). split; [exact L|]. split; reflexivity. }
  split; [exact Ii|]. intros U. assert (A : forall j, In j l -> j = i). { intros j Hj. apply W in Hj as (p & Ep & Q1 & Q2). apply (U j p Ep Q1 Q2). }
  clear -N Ii A. destruct l as [|x [|y l]]; [destruct Ii|rewrite (A x (or_introl eq_refl)); reflexivity|].
  exfalso. inversion_clear N as [|? ? N1 _]. apply N1. rewrite (A x (or_introl eq_refl)), <- (A y (or_intror (or_introl eq_refl))). left. reflexivity.
Qed.
Print Assumptions C115_first_call.
Print Assumptions C115_kept.
Print Assumptions C115_caller.
Print Assumptions C115_used_again.
Print Assumptions C115_time_coordinate_refuted.
Print Assumptions C115_tuple_refuted.
Print Assumptions C115_caller_refuted.
Print Assumptions C115_found_by_coordinates.
Print Assumptions C115_there_and_back.

(* two points with a metric and a time series each; the second gives other attributes, which have no effect *)
Definition ex_attr1 : attr_dict := [(FName "R", [("units", "1")]); (FName "rR", [("units", "-"); ("coordinates", "time")])]%string.
Definition ex_attr2 : attr_dict := [(FName "R", [("units", "percent")])]%string.
Definition ex_acalls : list acall := [AResult ex_attr1 [FName "R"; FName "rR"] ["rR"%string]; AResult ex_attr2 [FName "R"; FName "rR"; FName "n"] ["rR"%string]].
Example C115_ex : Forall distinct_names ex_acalls /\ (forall c n, In c ex_acalls -> mentions c n -> passed_on c n) /\
  run_all_attrs [] ex_acalls = [("R", [("units", "1"); ("coordinates", "idx lat lon")]); ("rR", [("units", "-"); ("coordinates", "time")]); ("n", [("coordinates", "idx lat lon")])]%string.
Proof.
  split; [|split].
  - repeat (constructor; [repeat (constructor; [cbn; intuition discriminate|]); constructor|]). constructor.
  - intros c n [<-|[<-|[]]]; cbn; intuition (subst; auto).
  - reflexivity.
Qed.
Definition ex_locations : list call := [AddMetrics [10; 10; 20]%Q [5; 6; 5]%Q [(FName "R", [Some (1#2); None; Some 1]%Q)]].
Example C115_location_ex : ok_history empty_table ex_locations /\
  bindR (exec_all new_file ex_locations) (fun s => lonlat2idx s 10 6) = Ok [1%nat] /\
  bindR (exec_all new_file ex_locations) (fun s => idx2lonlat s 2) = Ok (Some 20, Some 5)%Q /\
  bindR (exec_all new_file ex_locations) (fun s => lonlat2idx s 20 6) = Ok [].
Proof.
  split; [|split; [|split]]; try reflexivity. cbn [ok_history ex_locations ok_call]. split; [|exact Logic.I].
  split; [discriminate|]. split; [reflexivity|]. split; [intros n l [E|[]]; injection E as <- <-; reflexivity|]. split.
  - split; [repeat (constructor; [cbn; intuition discriminate|]); constructor|]. intros n [<-|[]]. cbn. intuition discriminate.
  - intros n _. right. reflexivity.
Qed.
