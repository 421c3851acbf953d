(* Property C60: metrics on subsets. *)
From Coq Require Import Reals List Lia.
From Verif Require Import Base BaseProofs GroupingModel GroupingSpec GroupingProofs CalcModel CalcProofs SubsetModel SubsetSpec SubsetProofs.
Open Scope Z_scope.
Open Scope list_scope.

(* [P name] says which times belong to the subset; C15, C16 and C17 give it for the selections that can be
   configured *)
Theorem C60_tuple template meta calc subsets f info (P : string -> ts -> Prop) :
  NoDup (map fst subsets) ->
  (forall name D, In (name, D) subsets ->
     exists mask, ts_filter D (map fst (f_rows f)) = Ok mask /\ marks (P name) (map fst (f_rows f)) mask) ->
  (forall g, f_cols g = f_cols f -> exists ds, calc g info = Ok ds /\ is_dict ds) ->
  exists d, subset_calc template meta calc GTuple subsets f info = Ok d /\
    (* the metrics of each subset are those of the calculator on the rows of that subset *)
    (forall name, In name (map fst subsets) -> exists g ds, rows_where (P name) f g /\ calc g info = Ok ds /\
       forall k, ~ location_or_metadata meta k -> ds_get ds k <> None -> ds_get d (name :: k) = ds_get ds k) /\
    (* the location and the metadata keep their names *)
    (forall k v, subsets <> [] -> location_or_metadata meta k ->
       (forall g ds, f_cols g = f_cols f -> calc g info = Ok ds -> ds_get ds k = Some v) -> ds_get d k = Some v) /\
    (* every other key names its subset *)
    (forall k, ds_get d k <> None -> location_or_metadata meta k \/ exists name k', k = name :: k' /\ In name (map fst subsets)).
Proof. exact (tuple_ok template meta calc subsets f info P). Qed.
Print Assumptions C60_tuple.

(* names joined with "|": subset and metadata names must not contain it *)
Theorem C60_join_partial template meta calc subsets f info (P : string -> ts -> Prop) :
  NoDup (map fst subsets) -> (forall name, In name (map fst subsets) -> no_bar name) ->
  (forall s m, meta = Some m -> In s (map fst m) -> no_bar s) ->
  (forall name D, In (name, D) subsets ->
     exists mask, ts_filter D (map fst (f_rows f)) = Ok mask /\ marks (P name) (map fst (f_rows f)) mask) ->
  (forall g, f_cols g = f_cols f -> exists ds, calc g info = Ok ds /\ is_dict ds /\ forall k, In k (map fst ds) -> exists s, k = [s]) ->
  exists d, subset_calc template meta calc GJoin subsets f info = Ok d /\
    (forall name, In name (map fst subsets) -> exists g ds, rows_where (P name) f g /\ calc g info = Ok ds /\
       forall s, ~ location_or_metadata meta [s] -> ds_get ds [s] <> None -> ds_get d [name ++ "|" ++ s]%string = ds_get ds [s]) /\
    (forall k v, subsets <> [] -> location_or_metadata meta k ->
       (forall g ds, f_cols g = f_cols f -> calc g info = Ok ds -> ds_get ds k = Some v) -> ds_get d k = Some v).
Proof. exact (join_ok template meta calc subsets f info P). Qed.
Print Assumptions C60_join_partial.

(* MonthsMetricsAdapter: the rows of a subset are those of its months, whatever the years.  Times are in
   whole seconds, see C17_subsecond_refuted *)
Theorem C60_months template meta calc (months : list (string * list Z)) f info :
  NoDup (map fst months) -> (forall name l m, In (name, l) months -> In m l -> 1 <= m <= 12) ->
  (forall r, In r (f_rows f) -> valid_ts (fst r) /\ whole_second (fst r)) ->
  (forall g, f_cols g = f_cols f -> exists ds, calc g info = Ok ds /\ is_dict ds) ->
  exists own subsets d, months_init (map (fun e => (fst e, Months (snd e))) months) = Ok (own, subsets) /\
    subset_calc template meta calc GTuple subsets f info = Ok d /\
    (forall name l, In (name, l) months -> exists g ds,
       rows_where (fun t => In (dm (t_date t)) l) f g /\ calc g info = Ok ds /\
       forall k, ~ location_or_metadata meta k -> ds_get ds k <> None -> ds_get d (name :: k) = ds_get ds k) /\
    (forall k v, months <> [] -> location_or_metadata meta k ->
       (forall g ds, f_cols g = f_cols f -> calc g info = Ok ds -> ds_get ds k = Some v) -> ds_get d k = Some v).
Proof. exact (months_ok template meta calc months f info). Qed.
Print Assumptions C60_months.

(* a calculator that counts the rows *)
Definition counter (f : frame) (i : gpi_info) : res dataset :=
  Ok [(["gpi"%string], Arr [RInt (i_gpi i)]); (["n_obs"%string], Arr [count f])].
Definition on_day (y m d : Z) : frow := (mkTs (mkDate y m d) 0, [Some 1%Q]).
Definition four_days : frame := Frame ["ref"%string] [on_day 2019 12 31; on_day 2020 2 29; on_day 2020 3 1; on_day 2020 7 1].

Example C60_hypotheses_met :
  NoDup (map fst default_month_subsets) /\
  (forall name l m, In (name, l) default_month_subsets -> In m l -> 1 <= m <= 12) /\
  (forall r, In r (f_rows four_days) -> valid_ts (fst r) /\ whole_second (fst r)) /\
  (forall g, f_cols g = f_cols four_days -> exists ds, counter g (Info 7 0%R 0%R None) = Ok ds /\ is_dict ds) /\
  exists d, subset_calc [] None counter GTuple (map (fun e => (fst e, months_distributor (snd e))) default_month_subsets)
              four_days (Info 7 0%R 0%R None) = Ok d /\
    ds_get d ["DJF"; "n_obs"]%string = Some (Arr [RInt 2]) /\ ds_get d ["MAM"; "n_obs"]%string = Some (Arr [RInt 1]) /\
    ds_get d ["SON"; "n_obs"]%string = Some (Arr [RInt 0]) /\ ds_get d ["ALL"; "n_obs"]%string = Some (Arr [RInt 4]) /\
    ds_get d ["gpi"]%string = Some (Arr [RInt 7]).
Proof.
  split; [|split; [|split; [|split]]].
  - cbn. repeat constructor; cbn; intuition discriminate.
  - intros name l m I Im. cbn in I. repeat destruct I as [E|I]; try contradiction; injection E as <- <-;
      cbn in Im; repeat destruct Im as [<-|Im]; try contradiction; lia.
  - intros r I. cbn in I. repeat destruct I as [<-|I]; try contradiction;
      (split; [vm_compute; repeat split; discriminate|exists 0; reflexivity]).
  - intros g _. eexists. split; [reflexivity|]. split.
    + cbn. repeat constructor; cbn; intuition discriminate.
    + cbn. intuition discriminate.
  - eexists. split; [vm_compute; reflexivity|]. repeat split.
Qed.

(* two subsets, two metrics and one name: the metric "x|m" of the subset "a" is replaced by the metric "m" of
   the subset "a|x" *)
Theorem C60_join_refuted : exists calc subsets f info d ds,
  NoDup (map fst subsets) /\ In "a"%string (map fst subsets) /\
  (forall g, calc g info = Ok ds) /\ is_dict ds /\
  subset_calc [] None calc GJoin subsets f info = Ok d /\
  ds_get ds ["x|m"%string] = Some (Arr [RInt 1]) /\ ds_get d ["a|x|m"%string] = Some (Arr [RInt 2]).
Proof.
  set (ds := [(["x|m"%string], Arr [RInt 1]); (["m"%string], Arr [RInt 2])] : dataset).
  exists (fun _ _ => Ok ds), [("a"%string, months_distributor [1]); ("a|x"%string, months_distributor [2])],
    (Frame [] []), (Info 1 0%R 0%R None).
  eexists. exists ds. split; [cbn; repeat constructor; cbn; intuition discriminate|].
  split; [now left|]. split; [reflexivity|].
  split; [split; cbn; [repeat constructor; cbn; intuition discriminate|intuition discriminate]|].
  split; [reflexivity|]. split; reflexivity.
Qed.
Print Assumptions C60_join_refuted.

(* the constructor replaces the months in the user's dictionary: a second adapter built from the same
   dictionary fails *)
Theorem C60_dictionary_reused_refuted : forall months : list (string * list Z), months <> [] ->
  exists own subsets, months_init (map (fun e => (fst e, Months (snd e))) months) = Ok (own, subsets) /\
    months_init own = Err EType.
Proof.
  intros months NE. eexists _, _. split; [apply months_init_ok|]. now apply months_again.
Qed.
Print Assumptions C60_dictionary_reused_refuted.

Theorem C60_grouping_option s : parse_grouping s = Err EOther <-> s <> "tuple"%string /\ s <> "join"%string.
Proof.
  unfold parse_grouping. destruct (String.eqb_spec s "tuple") as [->|N1]; [split; [discriminate|intros [H _]; congruence]|].
  destruct (String.eqb_spec s "join") as [->|N2]; [split; [discriminate|intros [_ H]; congruence]|]. split; auto.
Qed.
Print Assumptions C60_grouping_option.
