(* C116: which dataset the column "ref" of a metric calculator is. *)
From Verif Require Import DsNamesSpec SortProofs NamesProofs DsNamesProofs.
From Verif Require Import ValidationSpec ValidationInputProps NamesProps.
From Verif Require Import TemporalModel TemporalSpec.
Open Scope string_scope.
Open Scope list_scope.

(* C116: the i-th column that a calculator is given holds the dataset of the combination that has i names before
   it in alphabetical order; the first one is called "ref". *)
Section Columns.
Context {G V : Type}.
Variable code : Z -> V.
Notation config := (@config G V).
Theorem C116_calculator_columns (c : config) ignore only_ref g f matched k out key m :
  wf_dict (c_ds c) -> (1 <= k)%nat -> get_result_combinations (c_ds c) k = Ok out -> In key out ->
  validate_key code c ignore true only_ref g f matched key = VOk (Some m) -> scaling_keeps_shape c g ->
  (c_scale c <> None -> forall col0 rest, columns_of (c_ds c) (c_sref c) = Some (col0 :: rest) -> forall col, In (c_sref c, col) key -> col = col0) ->
  (exists t s, f (mkFrame (map fst key) []) g = Ok t /\ set_status_name (code s) t = Ok m /\ In s [NO_TEMP_MATCHED_DATA; METRICS_CALCULATION_FAILED]) \/
  (exists input kf d, f input g = Ok m /\ In kf matched /\ (exists rt, read_columns c key rt /\ complete_rows (snd kf) rt d) /\
     List.length (fcols input) = k /\ (c_scale c = None -> frows input = frows d) /\
     forall i name, nth_error (fcols input) i = Some name ->
       exists ds col, nth_error key i = Some (ds, col) /\ names_before ds (map fst key) = i /\ (name = "ref" <-> i = 0%nat)).
Proof.
  intros W K E I H KS SC. destruct (combinations_spec _ k W K) as (out' & E' & _ & _ & SP). assert (out' = out) by congruence. subst out'.
  destruct (proj1 (SP key) I) as (L & SS & _).
  destruct (C73_calculator_input_partial code c ignore true only_ref g f matched key m H (strict_nodup _ SS) KS SC) as [D|(input & rt & kf & d & F & FC & RC & IK & CR & NE & SCA)]; [left; exact D|].
  right. exists input, kf, d. split; [exact F|]. split; [exact IK|]. split; [exists rt; auto|]. rewrite FC. split; [unfold short_names; rewrite map_length, seq_length; exact L|].
  split; [intros N; rewrite N in SCA; exact SCA|]. intros i name N.
  assert (LI : (i < List.length key)%nat) by (assert (X : nth_error (short_names (List.length key)) i <> None) by congruence; apply nth_error_Some in X; unfold short_names in X; rewrite map_length, seq_length in X; exact X).
  destruct (nth_error key i) as [[ds col]|] eqn:EK; [|apply nth_error_None in EK; lia]. exists ds, col. split; [reflexivity|]. split.
  - apply before_pos; [exact SS|]. exact (map_nth_error fst i key EK).
  - unfold short_names in N. rewrite nth_error_map, (nth_error_nth' _ 0%nat) in N by (rewrite seq_length; exact LI). rewrite seq_nth in N by exact LI. cbn [option_map Nat.add] in N.
    destruct i as [|i]; [split; [reflexivity|intros _; congruence]|]. split; [|discriminate]. intros ->. cbn [append] in N. discriminate.
Qed.
End Columns.

(* so "ref" is the reference exactly if no other dataset of the combination has a smaller name *)
Theorem C116_reference_column : forall (d : ds_dict) (k : nat) out key (ref : string),
  wf_dict d -> (1 <= k)%nat -> get_result_combinations d k = Ok out -> In key out -> In ref (map fst key) ->
  (option_map fst (nth_error key 0) = Some ref <-> forall ds, In ds (map fst key) -> str_leb ref ds = true).
Proof.
  intros d k out key ref W K E I R0. destruct (combinations_spec d k W K) as (out' & E' & _ & _ & SP). assert (out' = out) by congruence. subst out'.
  destruct (proj1 (SP key) I) as (L & SS & _). destruct key as [|[a b] key]; [destruct R0|]. cbn [nth_error option_map fst map] in *. inversion SS as [|? ? S1 F]; subst. rewrite Forall_forall in F. split.
  - intros [= ->] ds [<-|D]; [apply str_leb_refl|]. apply F, D.
  - intros H. f_equal. destruct R0 as [R0|R0]; [exact R0|]. apply str_leb_antisym; [apply F, R0|apply H; left; reflexivity].
Qed.

(* C116: get_dataset_names returns the reference and the first of the other datasets, in alphabetical order. *)
Theorem C116_dataset_names : forall (d : ds_dict) (ref : string) (n : nat),
  wf_dict d -> has_columns d -> In ref (map fst d) -> (1 <= n)%nat -> (n <= List.length d)%nat ->
  exists l, get_dataset_names ref d n = Ok l /\ first_datasets d ref n l.
Proof. exact dataset_names_spec. Qed.
Theorem C116_dataset_names_errors : forall (d : ds_dict) (ref : string) (n : nat), wf_dict d ->
  (~ In ref (map fst d) -> get_dataset_names ref d n = Err EKey) /\
  (In ref (map fst d) -> get_dataset_names ref d 0 = Err EValue) /\
  (In ref (map fst d) -> (List.length d < n)%nat -> get_dataset_names ref d n = Err EIndex).
Proof.
  intros d ref n W. split; [|split].
  - intros H. unfold get_dataset_names. rewrite (names_unknown d ref n H). reflexivity.
  - intros H. unfold get_dataset_names, get_result_names. apply in_map_iff in H as ([r cols] & E & I). cbn [fst] in E. subst r.
    rewrite (proj2 (columns_of_in d ref cols (proj1 W)) I). reflexivity.
  - intros I L. apply names_too_many; assumption.
Qed.

(* For all datasets at once it gives the names of the columns of every combination, whatever the reference. *)
Theorem C116_names_of_columns : forall (d : ds_dict) (ref : string) out key,
  wf_dict d -> has_columns d -> In ref (map fst d) -> get_result_combinations d (List.length d) = Ok out -> In key out ->
  get_dataset_names ref d (List.length d) = Ok (map fst key) /\ StronglySorted str_lt (map fst key) /\ Permutation (map fst key) (map fst d).
Proof.
  intros d ref out key W HC I E K. assert (L1 : (1 <= List.length d)%nat) by (destruct d; [destruct I|cbn; lia]).
  destruct (combinations_spec d _ W L1) as (out' & E' & _ & _ & SP). assert (out' = out) by congruence. subst out'.
  destruct (proj1 (SP key) K) as (L & SS & SI). destruct (dataset_names_spec d ref (List.length d) W HC I L1 (le_n _)) as (l & EL & LL & SL & _ & IL & _).
  assert (IK : incl (map fst key) (map fst d)) by (intros x X; apply in_map_iff in X as ([ds col] & <- & X); destruct (SI ds col X) as (cols & Y & _); apply (in_map fst) in Y; exact Y).
  assert (LK : List.length (map fst key) = List.length (map fst d)) by (rewrite !map_length; exact L).
  assert (LD : List.length l = List.length (map fst d)) by (rewrite map_length; exact LL).
  split; [|split; [exact SS|apply NoDup_Permutation; [apply strict_nodup, SS|exact (proj1 W)|apply all_names; [apply strict_nodup, SS|exact IK|exact LK]]]].
  rewrite EL. f_equal. apply sorted_same; [exact SL|exact SS|]. intros x. rewrite (all_names l (map fst d) (strict_nodup _ SL) IL LD), (all_names (map fst key) (map fst d) (strict_nodup _ SS) IK LK). reflexivity.
Qed.
Example C116_names_ex : wf_dict example_dict /\ has_columns example_dict /\
  get_dataset_names "smos" example_dict 3 = Ok ["ascat"; "era"; "smos"] /\ get_dataset_names "smos" example_dict 2 = Ok ["ascat"; "smos"] /\
  get_result_combinations example_dict 3 = Ok [[("ascat", "sm"); ("era", "swvl1"); ("smos", "sm")]; [("ascat", "vod"); ("era", "swvl1"); ("smos", "sm")]].
Proof.
  split; [exact example_dict_wf|]. split; [|split; [|split]; vm_compute; reflexivity].
  intros ds cols [E|[E|[E|[]]]]; injection E as <- <-; discriminate.
Qed.

(* "ref" is documented as the reference.  Here "insitu" is the reference dataset, for matching in space and time
   and for scaling, but the calculator gets the values of "ascat" as "ref" and those of "insitu" as "k1". *)
Definition pair_ds (ref : string) : ds_dict := [(ref, ["y"]); ("ascat", ["x"])].
Definition pair_cfg {V : Type} (ref : string) : @config unit V :=
  mkCfg (pair_ds ref) ref ref ref (fun _ => Err EOther) (fun _ _ _ => Err EOther) None [] None.
Definition pair_matched (ref : string) : list (list string * frame) :=
  [([ref; "ascat"], mkFrame [tup ref "y"; tup "ascat" "x"] [(1, [Some 10%Q; Some 20%Q]); (2, [Some 11%Q; Some 22%Q])])].
Theorem C116_ref_refuted :
  get_result_combinations (pair_ds "insitu") 2 = Ok [[("ascat", "x"); ("insitu", "y")]] /\
  validate_key (fun _ => ([], [])) (pair_cfg "insitu") false true false tt show (pair_matched "insitu") [("ascat", "x"); ("insitu", "y")] =
    VOk (Some [(FName "data", Arr [(["ref"; "k1"], [(1, [Some 20%Q; Some 10%Q]); (2, [Some 22%Q; Some 11%Q])])])]).
Proof. split; vm_compute; reflexivity. Qed.
Example C116_calculator_columns_ex : wf_dict (pair_ds "insitu") /\ scaling_keeps_shape (@pair_cfg unit "insitu") tt /\ c_scale (@pair_cfg unit "insitu") = None.
Proof.
  split; [|split; [|reflexivity]].
  - split; [repeat constructor; cbn; intuition discriminate|]. intros ds cols [E|[E|[]]]; injection E as <- <-; repeat constructor; cbn; tauto.
  - intros scale E. discriminate.
Qed.

(* The sign of a difference between "ref" and "k1" therefore depends on the name of the reference. *)
Definition first_difference (d : frame) (_ : unit) : res (list (field * fval Q)) :=
  match col_pos "ref" (fcols d), col_pos "k1" (fcols d), frows d with
  | Some i, Some j, (_, r) :: _ => match nth i r None, nth j r None with Some x, Some y => Ok [(FName "BIAS", Arr [Qred (x - y)%Q])] | _, _ => Err EValue end
  | _, _, _ => Err EKey
  end.
Theorem C116_name_changes_sign_refuted :
  get_result_combinations (pair_ds "aaa") 2 = Ok [[("aaa", "y"); ("ascat", "x")]] /\
  validate_key (fun z => inject_Z z) (pair_cfg "aaa") false true false tt first_difference (pair_matched "aaa") [("aaa", "y"); ("ascat", "x")] =
    VOk (Some [(FName "BIAS", Arr [(-10 # 1)%Q])]) /\
  validate_key (fun z => inject_Z z) (pair_cfg "insitu") false true false tt first_difference (pair_matched "insitu") [("ascat", "x"); ("insitu", "y")] =
    VOk (Some [(FName "BIAS", Arr [(10 # 1)%Q])]).
Proof. split; [|split]; vm_compute; reflexivity. Qed.

(* IntercomparisonMetrics with the names that get_dataset_names returns for the reference "smos" compares the other
   datasets with "ascat"; there are no metrics between "era" and the reference. *)
From Verif Require CalcPairsModel.
Theorem C116_intercomparison_refuted :
  exists names lay, get_dataset_names "smos" example_dict 3 = Ok names /\
    CalcPairsModel.intercomparison_init "ref" ["k1"; "k2"] false (Some names) = Ok lay /\
    map snd (CalcPairsModel.l_pairs lay) = ["ascat_and_era"; "ascat_and_smos"].
Proof. eexists _, _. split; [|split]; vm_compute; reflexivity. Qed.
(* For fewer datasets than there are, the names describe some of the combinations only. *)
Theorem C116_fewer_datasets_refuted :
  get_dataset_names "smos" example_dict 2 = Ok ["ascat"; "smos"] /\
  exists out, get_result_names example_dict "smos" 2 = Ok out /\ In [("era", "swvl1"); ("smos", "sm")] out.
Proof. split; [vm_compute; reflexivity|]. eexists. split; [vm_compute; reflexivity|]. right. right. left. reflexivity. Qed.

Print Assumptions C116_calculator_columns.
Print Assumptions C116_reference_column.
Print Assumptions C116_dataset_names.
Print Assumptions C116_names_of_columns.
Print Assumptions C116_ref_refuted.
Print Assumptions C116_name_changes_sign_refuted.
Print Assumptions C116_intercomparison_refuted.
