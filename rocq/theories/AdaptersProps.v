(* Property theorems C41, C42, C70: reader adapters. *)
From Verif Require Import BaseProofs AdaptersProofs AdaptersProofs2.
Open Scope Z_scope.

(* ------------------------------------------------------------------ C41 *)
(* the comparisons behind the operator names *)
Theorem C41_operators :
  forall s f, op_lookup s = Some f ->
    (forall x y, f (Some x) (Some y) = true <->
       (s = "<" /\ x < y \/ s = "<=" /\ x <= y \/ s = "==" /\ x == y \/ s = "!=" /\ ~ x == y \/ s = ">=" /\ y <= x \/ s = ">" /\ y < x)%Q%string) /\
    (forall c, f None c = true <-> s = "!="%string) /\ (forall c, f c None = true <-> s = "!="%string).
Proof.
  intros s f H.
  assert (L : forall a b : Q, negb (Qle_bool a b) = true <-> (b < a)%Q).
  { intros a b. rewrite negb_true_iff. split; intros X.
    - destruct (Qlt_le_dec b a) as [Y|Y]; [exact Y|]. apply Qle_bool_iff in Y. congruence.
    - apply not_true_is_false. intros Y. apply Qle_bool_iff in Y. exact (Qlt_not_le _ _ X Y). }
  assert (E : forall a b : Q, negb (Qeq_bool a b) = true <-> ~ (a == b)%Q).
  { intros a b. rewrite negb_true_iff. split; intros X; [apply Qeq_bool_neq; exact X|]. apply not_true_is_false. intros Y. apply Qeq_bool_iff in Y. contradiction. }
  unfold op_lookup in H.
  repeat match type of H with context [match ?x with _ => _ end] => destruct x; try discriminate H end;
  injection H as <-; (split; [|split]);
    (intros x y; cbn [cmp]; rewrite ?L, ?E, ?Qle_bool_iff, ?Qeq_bool_iff; intuition discriminate) || (intros [c|]; cbn [cmp]; intuition discriminate).
Qed.
(* exactly the rows that satisfy the comparison, unchanged and in order *)
Theorem C41_self_masking :
  forall (I : Type) o f threshold n (t : tab I), resolve o = Ok f -> In n (tcols t) ->
    self_masking o threshold n (Some t) =
      Ok (mkTab (tcols t) (filter (fun r => f (value (tcols t) (snd r) n) threshold) (trows t))).
Proof. intros. apply self_masking_ok; assumption. Qed.
(* exactly the rows that pass all filters and hold a value *)
Theorem C41_advanced_masking :
  forall (I : Type) (filters : list (string * op * cell)) resolved_filters ignore_nans (t : tab I),
    filters <> [] -> Forall2 resolved filters resolved_filters ->
    (forall g, In g resolved_filters -> In (fst (fst g)) (tcols t)) ->
    advanced_masking filters ignore_nans (Some t) =
      Ok (mkTab (tcols t)
            (filter (fun r => forallb (passes ignore_nans (tcols t) (snd r)) resolved_filters && existsb notna (snd r)) (trows t))).
Proof. intros. apply advanced_ok; assumption. Qed.
(* the boolean dataset has the index of the data and the comparison of every value *)
Theorem C41_masking_dataset :
  forall (I : Type) o f threshold (t : tab I) n, resolve o = Ok f -> In n (tcols t) ->
    masking_adapter o threshold (Some n) (Some t) =
      Ok ([n], map (fun r => (fst r, [f (value (tcols t) (snd r) n) threshold])) (trows t)) /\
    masking_adapter o threshold None (Some t) =
      Ok (tcols t, map (fun r => (fst r, map (fun c => f c threshold) (snd r))) (trows t)).
Proof.
  intros I o f th t n R H. unfold masking_adapter. rewrite R. cbn [bindR basic]. rewrite column_ok by exact H. cbn [mapR]. split; [|reflexivity]. f_equal. f_equal.
  rewrite map_map. induction (trows t) as [|r rows IH]; cbn; [|rewrite IH]; reflexivity.
Qed.
(* wrong arguments are errors: an unknown operator, an unknown column, no filter, no data *)
Theorem C41_errors :
  forall (I : Type) o threshold n (t : tab I) filters ignore_nans,
    (resolve o = Err EValue -> self_masking o threshold n (Some t) = Err EValue) /\
    (~ In n (tcols t) -> exists e, self_masking o threshold n (Some t) = Err e) /\
    advanced_masking [] ignore_nans (Some t) = Err EKey /\
    (forall flt, In flt filters -> resolve (snd (fst flt)) = Err EValue \/ ~ In (fst (fst flt)) (tcols t) ->
       exists e, advanced_masking filters ignore_nans (Some t) = Err e) /\
    (exists e, self_masking o threshold n (@None (tab I)) = Err e) /\ (exists e, advanced_masking filters ignore_nans (@None (tab I)) = Err e).
Proof.
  intros I o th n t filters ign. split; [|split; [|split; [|split; [|split]]]].
  - intros R. unfold self_masking. rewrite R. reflexivity.
  - intros H. unfold self_masking. destruct (resolve o); cbn [bindR basic]; [rewrite column_missing by exact H|]; eexists; reflexivity.
  - reflexivity.
  - intros flt Hf C. assert (E : exists e, filter_mask ign t flt = Err e).
    { destruct flt as [[m o'] th']. cbn in C. unfold filter_mask. destruct C as [R|C]; [rewrite R; eexists; reflexivity|].
      destruct (resolve o'); cbn [bindR]; [rewrite column_missing by exact C|]; eexists; reflexivity. }
    destruct E as [e E]. destruct (fold_mask_err ign t filters flt e Hf E (Ok None)) as [e' X]. exists e'. unfold advanced_masking. cbn [basic]. rewrite X. reflexivity.
  - unfold self_masking. destruct (resolve o); cbn; eexists; reflexivity.
  - unfold advanced_masking. cbn [basic]. destruct filters as [|flt filters]; [exists EKey; reflexivity|].
    assert (E : exists e, filter_mask ign (mkTab [] [] : tab I) flt = Err e).
    { destruct flt as [[m o'] th']. unfold filter_mask. destruct (resolve o'); cbn; eexists; reflexivity. }
    destruct E as [e E]. destruct (fold_mask_err ign _ (flt :: filters) flt e (or_introl eq_refl) E (Ok None)) as [e' X]. exists e'. rewrite X. reflexivity.
Qed.
Section Ex41.
Open Scope string_scope.
Definition ex_t : tab Z := mkTab ["sm"; "flag"] [(1, [Some 5%Q; Some 0%Q]); (2, [Some 6%Q; None]); (3, [None; Some 0%Q]); (4, [None; None]); (5, [Some 7%Q; Some 3%Q])].
Example C41_ex_self : self_masking (OpName ">=") (Some 6%Q) "sm" (Some ex_t) = Ok (mkTab ["sm"; "flag"] [(2, [Some 6%Q; None]); (5, [Some 7%Q; Some 3%Q])]).
Proof. vm_compute. reflexivity. Qed.
Example C41_ex_advanced : advanced_masking [("flag", OpName "<", Some 2%Q); ("sm", OpName "!=", Some 9%Q)] true (Some ex_t) =
  Ok (mkTab ["sm"; "flag"] [(1, [Some 5%Q; Some 0%Q]); (2, [Some 6%Q; None]); (3, [None; Some 0%Q])]).
Proof. vm_compute. reflexivity. Qed.
End Ex41.
Print Assumptions C41_operators.
Print Assumptions C41_self_masking.
Print Assumptions C41_advanced_masking.
Print Assumptions C41_masking_dataset.
Print Assumptions C41_errors.

(* ------------------------------------------------------------------ C42 *)
(* Partial: offsets are whole seconds and the exact times are distinct. *)
Theorem C42_exact_times_partial :
  forall o (t : tab cell) offsets base_unit, wf t -> tcols t <> [] ->
    offsets_of o (tcols t) offsets -> base_unit_of o base_unit -> base_present o (tcols t) -> to_replace o = true ->
    let kept := filter (has_base o (tcols t)) (trows t) in
    kept <> [] ->
    (forall r fk, In r kept -> In fk offsets -> (1000000000 | offset_ns (tcols t) (snd r) fk)) ->
    NoDupA Qeq (map (exact_time o base_unit (tcols t) offsets) kept) ->
    exists rows, timestamp_adapter o (Some t) = Ok (mkTab (remaining o (tcols t)) rows) /\
      Forall2 (fun r d => (exists x, fst d = Some x /\ (x == exact_time o base_unit (tcols t) offsets r)%Q) /\
                          snd d = map (value (tcols t) (snd r)) (remaining o (tcols t))) kept rows.
Proof.
  intros o t offsets k W NC OF BU BP RP kept NE WS ND. rewrite (timestamp_general o t offsets k W NC OF BU BP RP NE). fold kept.
  assert (CT : forall r, In r kept -> (code_time o k (tcols t) offsets r == exact_time o k (tcols t) offsets r)%Q).
  { intros r Hr. apply code_time_exact; [|intros fk Hf; exact (WS r fk Hr Hf)]. intros E. unfold offsets_of in OF. rewrite E in OF. exact OF. }
  rewrite (loc_index_distinct _ _ (fun d => match fst d with Some x => x | None => 0%Q end)).
  - eexists. split; [reflexivity|]. clear NE WS ND. induction kept as [|r l IH]; cbn [map]; constructor.
    + split; [|reflexivity]. eexists. split; [reflexivity|]. apply CT. left. reflexivity.
    + apply IH. intros; apply CT; right; assumption.
  - intros r Hr. apply in_map_iff in Hr as (a & <- & _). reflexivity.
  - rewrite map_map. cbn [fst]. clear NE WS. revert ND CT. generalize kept as l. intros l. induction l as [|r l IH]; intros ND CT; cbn [map] in *; [constructor|].
    inversion ND as [|x y N1 N2]; subst. constructor; [|apply IH; [exact N2|intros; apply CT; right; assumption]]. intros X. apply N1.
    apply InA_alt in X as (y & Y1 & Y2). apply in_map_iff in Y2 as (a & <- & Ha). apply InA_alt. exists (exact_time o k (tcols t) offsets a).
    split; [|apply in_map; exact Ha]. rewrite <- (CT r) by (left; reflexivity). rewrite <- (CT a) by (right; exact Ha). exact Y1.
Qed.
(* rows with the same time: k rows become k * k rows, for every time *)
Theorem C42_repeated_times :
  forall o (t : tab cell) offsets base_unit, wf t -> tcols t <> [] ->
    offsets_of o (tcols t) offsets -> base_unit_of o base_unit -> base_present o (tcols t) -> to_replace o = true ->
    let kept := filter (has_base o (tcols t)) (trows t) in
    kept <> [] ->
    (forall r fk, In r kept -> In fk offsets -> (1000000000 | offset_ns (tcols t) (snd r) fk)) ->
    exists t', timestamp_adapter o (Some t) = Ok t' /\
      forall x, let k := countb (fun r => Qeq_bool (exact_time o base_unit (tcols t) offsets r) x) kept in
                label_count (Some x) t' = (k * k)%nat.
Proof.
  intros o t offsets k W NC OF BU BP RP kept NE WS. rewrite (timestamp_general o t offsets k W NC OF BU BP RP NE). fold kept.
  assert (CT : forall r, In r kept -> (code_time o k (tcols t) offsets r == exact_time o k (tcols t) offsets r)%Q).
  { intros r Hr. apply code_time_exact; [|intros fk Hf; exact (WS r fk Hr Hf)]. intros E. unfold offsets_of in OF. rewrite E in OF. exact OF. }
  eexists. split; [reflexivity|]. intros x. cbn zeta. rewrite loc_index_squares. unfold label_count. cbn [trows].
  assert (Q : forall l, (forall r, In r l -> (code_time o k (tcols t) offsets r == exact_time o k (tcols t) offsets r)%Q) ->
    countb (fun r => cell_eqb (fst r) (Some x)) (map (fun r => (Some (code_time o k (tcols t) offsets r), map (value (tcols t) (snd r)) (remaining o (tcols t)))) l)
    = countb (fun r => Qeq_bool (exact_time o k (tcols t) offsets r) x) l).
  { unfold countb. induction l as [|r l IH]; intros C; cbn [map filter]; [reflexivity|]. cbn [fst cell_eqb].
    assert (E : Qeq_bool (code_time o k (tcols t) offsets r) x = Qeq_bool (exact_time o k (tcols t) offsets r) x).
    { specialize (C r (or_introl eq_refl)). destruct (Qeq_bool (exact_time o k (tcols t) offsets r) x) eqn:E1.
      - apply Qeq_bool_iff in E1. apply Qeq_bool_iff. rewrite C. exact E1.
      - apply Qeq_bool_neq in E1. apply not_true_is_false. intros E2. apply Qeq_bool_iff in E2. apply E1. rewrite <- C. exact E2. }
    specialize (IH (fun r H => C r (or_intror H))). rewrite E. destruct (Qeq_bool (exact_time o k (tcols t) offsets r) x); cbn [List.length]; [f_equal|]; exact IH. }
  match goal with |- (?a * _)%nat = _ => assert (X : a = countb (fun r => Qeq_bool (exact_time o k (tcols t) offsets r) x) kept) by (exact (Q kept CT)) end.
  rewrite X. reflexivity.
Qed.
(* in general every offset field loses less than a second, and no row gets a later time *)
Theorem C42_error_bound :
  forall o base_unit cols offsets r, to_fields o <> None ->
    (exact_time o base_unit cols offsets r - inject_Z (Z.of_nat (List.length offsets) * 1000000000) <= code_time o base_unit cols offsets r /\
     code_time o base_unit cols offsets r <= exact_time o base_unit cols offsets r)%Q.
Proof.
  intros o k cols offsets r NF. unfold exact_time, code_time. destruct (to_fields o); [|contradiction].
  pose proof (zsum_floor (map (offset_ns cols (snd r)) offsets)) as Z. rewrite map_length, map_map in Z.
  change (map (fun x => offset_ns cols (snd r) x / second_ns) offsets) with (map (offset_s cols (snd r)) offsets) in Z. change second_ns with 1000000000 in *.
  set (b := base_ns o k _). destruct Z as [Z1 Z2]. rewrite Zle_Qle in Z1, Z2. unfold Z.sub in Z1. rewrite inject_Z_plus, inject_Z_opp in Z1.
  split; [|apply Qplus_le_compat; [apply Qle_refl|exact Z2]].
  setoid_replace (b + inject_Z (zsum (map (offset_ns cols (snd r)) offsets)) - inject_Z (Z.of_nat (List.length offsets) * 1000000000))%Q
    with (b + (inject_Z (zsum (map (offset_ns cols (snd r)) offsets)) + - inject_Z (Z.of_nat (List.length offsets) * 1000000000)))%Q by ring.
  apply Qplus_le_compat; [apply Qle_refl|exact Z1].
Qed.
Section Ex42.
Open Scope string_scope.
Definition ts_o := mkTs (Some ["min"; "sec"]) ["m"; "s"] (Some "base") (Some 1107216000000000000) "D" true "" true.
Definition day : Z := 86400000000000.
(* the example of the documentation *)
Definition ex_ts : tab cell := mkTab ["v"; "base"; "min"; "sec"]
  [(Some 0%Q, [Some 8%Q; Some 100%Q; Some 38%Q; Some 999%Q]); (Some 1%Q, [Some 1%Q; None; Some 40%Q; Some 1000%Q]); (Some 2%Q, [Some 2%Q; Some 102%Q; None; Some 999%Q])].
Example C42_ex : match timestamp_adapter ts_o (Some ex_ts) with
  | Ok t => tcols t = ["v"] /\ map snd (trows t) = [[Some 8%Q]; [Some 2%Q]] /\
            map (fun r => option_map Qred (fst r)) (trows t) =
              [Some (inject_Z (1107216000000000000 + 100 * day + (38 * 60 + 999) * 1000000000)); Some (inject_Z (1107216000000000000 + 102 * day + 999 * 1000000000))]
  | Err _ => False end.
Proof. vm_compute. auto. Qed.
Example C42_ex_hyps : wf ex_ts /\ offsets_of ts_o (tcols ex_ts) [("min", 60000000000); ("sec", 1000000000)] /\ base_unit_of ts_o day /\ base_present ts_o (tcols ex_ts) /\
  filter (has_base ts_o (tcols ex_ts)) (trows ex_ts) <> [] /\
  (forall r fk, In r (filter (has_base ts_o (tcols ex_ts)) (trows ex_ts)) -> In fk [("min", 60000000000); ("sec", 1000000000)] -> (1000000000 | offset_ns (tcols ex_ts) (snd r) fk)).
Proof.
  split; [|split; [|split; [|split; [|split]]]].
  - split; [repeat constructor; cbn; intuition discriminate|]. intros r H. repeat destruct H as [<-|H]; try reflexivity. destruct H.
  - exists [60000000000; 1000000000]. split; [repeat constructor|]. split; [reflexivity|]. split; [reflexivity|]. cbn. intuition.
  - right. reflexivity.
  - cbn. auto.
  - vm_compute. discriminate.
  - intros r fk Hr Hf. cbn in Hr. destruct Hr as [<-|[<-|[]]]; destruct Hf as [<-|[<-|[]]]; apply Z.mod_divide; try lia; vm_compute; reflexivity.
Qed.
(* sub-second offsets are lost *)
Theorem C42_subsecond_refuted :
  exists o (t : tab cell), wf t /\ offsets_of o (tcols t) [("ms", 1000000); ("ms2", 1000000)] /\ to_replace o = true /\
    timestamp_adapter o (Some t) = Ok (mkTab ["v"] [(Some (inject_Z 0 + inject_Z 0)%Q, [Some 1%Q])]) /\
    (exact_time o 1 (tcols t) [("ms", 1000000%Z); ("ms2", 1000000%Z)] (Some 0%Q, [Some 1%Q; Some 700%Q; Some 600%Q]) == inject_Z 1300000000)%Q.
Proof.
  exists (mkTs (Some ["ms"; "ms2"]) ["ms"; "ms"] None None "D" true "" true), (mkTab ["v"; "ms"; "ms2"] [(Some 0%Q, [Some 1%Q; Some 700%Q; Some 600%Q])]).
  split; [|split; [|split; [|split]]].
  - split; [repeat constructor; cbn; intuition discriminate|]. intros r [<-|[]]. reflexivity.
  - exists [1000000; 1000000]. split; [repeat constructor|]. split; [reflexivity|]. split; [reflexivity|]. cbn. intuition.
  - reflexivity.
  - vm_compute. reflexivity.
  - vm_compute. reflexivity.
Qed.
(* two observations at one exact time become four rows *)
Theorem C42_repeated_rows_refuted :
  exists o (t : tab cell), List.length (trows t) = 2%nat /\ (forall r, In r (trows t) -> has_base o (tcols t) r = true) /\
    exists t', timestamp_adapter o (Some t) = Ok t' /\ List.length (trows t') = 4%nat.
Proof.
  exists (mkTs (Some ["off"]) ["s"] None None "D" true "" true), (mkTab ["v"; "off"] [(Some 0%Q, [Some 1%Q; Some 5%Q]); (Some 5000000000%Q, [Some 2%Q; Some 0%Q])]).
  split; [reflexivity|]. split; [intros r [<-|[<-|[]]]; reflexivity|]. eexists. split; vm_compute; reflexivity.
Qed.
(* with fewer units than fields (e.g. the default unit) the remaining offset fields are ignored *)
Theorem C42_missing_unit_refuted :
  exists o (t : tab cell) t', to_fields o = Some ["a"; "b"] /\ to_units o = ["s"] /\ timestamp_adapter o (Some t) = Ok t' /\
    trows t = [(Some 0%Q, [Some 1%Q; Some 5%Q; Some 7%Q])] /\ tcols t = ["v"; "a"; "b"] /\ map (fun r => option_map Qred (fst r)) (trows t') = [Some (inject_Z 5000000000)].
Proof.
  exists (mkTs (Some ["a"; "b"]) ["s"] None None "D" true "" true), (mkTab ["v"; "a"; "b"] [(Some 0%Q, [Some 1%Q; Some 5%Q; Some 7%Q])]). eexists.
  split; [reflexivity|]. split; [reflexivity|]. split; [vm_compute; reflexivity|]. split; [reflexivity|]. split; reflexivity.
Qed.
End Ex42.
Print Assumptions C42_exact_times_partial.
Print Assumptions C42_repeated_times.
Print Assumptions C42_error_bound.
Print Assumptions C42_subsecond_refuted.
Print Assumptions C42_repeated_rows_refuted.
Print Assumptions C42_missing_unit_refuted.

(* ------------------------------------------------------------------ C70 *)
(* the adapter changes the selected columns only, each to the anomaly of its own series *)
Theorem C70_anomaly_columns :
  forall (I : Type) (anomaly : list (I * cell) -> list cell), (forall s, List.length (anomaly s) = List.length s) ->
  forall columns (t : tab I), wf t ->
    let selected := match columns with None => tcols t | Some l => l end in
    NoDup selected -> (forall n, In n selected -> In n (tcols t)) ->
    exists t', anomaly_adapter anomaly columns (Some t) = Ok t' /\ tcols t' = tcols t /\ map fst (trows t') = map fst (trows t) /\
      forall n v, column t n = Ok v ->
        (In n selected -> column t' n = Ok (anomaly (combine (map fst (trows t)) v))) /\ (~ In n selected -> column t' n = Ok v).
Proof.
  intros I anomaly AL columns t W selected N S1. destruct (anomaly_fold anomaly AL selected t W N S1) as (t' & E & _ & C & X & M).
  exists t'. split; [exact E|]. split; [exact C|]. split; [exact X|]. intros n v V. split; intros H; rewrite M, V.
  - assert (B : existsb (String.eqb n) selected = true) by (apply existsb_exists; exists n; split; [exact H|apply String.eqb_refl]). rewrite B. reflexivity.
  - assert (B : existsb (String.eqb n) selected = false); [|rewrite B; reflexivity].
    apply not_true_is_false. intros B. apply existsb_exists in B as (y & Y1 & Y2). apply String.eqb_eq in Y2. subst. contradiction.
Qed.
Section Ex70.
Open Scope string_scope.
Definition demean {I} (s : list (I * cell)) : list cell :=
  map (fun p => match snd p, nanmean (map snd s) with Some x, Some m => Some (Qred (x - m)) | _, _ => None end) s.
Definition means {I} (s : list (I * cell)) : list cell * list cell := (demean s, map (fun _ => option_map Qred (nanmean (map snd s))) s).
Example C70_ex : anomaly_adapter demean (Some ["a"]) (Some (mkTab ["a"; "b"] [(1, [Some 1%Q; Some 5%Q]); (2, [Some 3%Q; None])])) =
  Ok (mkTab ["a"; "b"] [(1, [Some (-1)%Q; Some 5%Q]); (2, [Some 1%Q; None])]).
Proof. vm_compute. reflexivity. Qed.
Example C70_ex_clim : anomaly_clim_adapter means None true (Some (mkTab ["a"; "b"] [(1, [Some 1%Q; Some 5%Q]); (2, [Some 3%Q; None])])) =
  Ok (mkTab ["a"; "b"; "a_climatology"; "b_climatology"] [(1, [Some (-1)%Q; Some 0%Q; Some 2%Q; Some 5%Q]); (2, [Some 1%Q; None; Some 2%Q; Some 5%Q])]).
Proof. vm_compute. reflexivity. Qed.
(* with return_clim a column that happens to be called x_climatology is overwritten before its
   own anomaly is computed *)
Theorem C70_climatology_name_refuted :
  exists t t' : tab Z, anomaly_clim_adapter means None true (Some t) = Ok t' /\
    column t "a_climatology" = Ok [Some 10%Q; Some 20%Q] /\ column t' "a_climatology" = Ok [Some 0%Q; Some 0%Q] /\
    demean [(1, Some 10%Q); (2, Some 20%Q)] = [Some (-5)%Q; Some 5%Q].
Proof.
  exists (mkTab ["a"; "a_climatology"] [(1, [Some 1%Q; Some 10%Q]); (2, [Some 3%Q; Some 20%Q])]). eexists. split; [vm_compute; reflexivity|]. split; [vm_compute; reflexivity|]. split; vm_compute; reflexivity.
Qed.
End Ex70.
Print Assumptions C70_anomaly_columns.
Print Assumptions C70_climatology_name_refuted.
(* ColumnCombineAdapter adds the function of each row and leaves the other columns alone *)
Theorem C70_combined_column :
  forall (I : Type) (func : list cell -> cell) columns new_name (t : tab I), wf t -> tcols t <> [] -> trows t <> [] ->
    let selected := match columns with None => tcols t | Some l => l end in
    (forall n, In n selected -> In n (tcols t)) ->
    exists t', combine_adapter func columns new_name (Some t) = Ok t' /\ map fst (trows t') = map fst (trows t) /\
      column t' new_name = Ok (map (fun r => func (map (value (tcols t) (snd r)) selected)) (trows t)) /\
      forall n, n <> new_name -> column t' n = column t n.
Proof.
  intros I func columns new t W NC NR selected H. unfold combine_adapter. cbn [basic].
  assert (S1 : seqR (map (column t) selected) = Ok (map (fun n => map (fun r => value (tcols t) (snd r) n) (trows t)) selected)).
  { induction selected as [|n l IH]; cbn [map seqR]; [reflexivity|]. rewrite column_ok by (apply H; left; reflexivity). cbn [bindR]. rewrite IH by (intros; apply H; right; assumption). reflexivity. }
  assert (M : forall X Y : res (tab I), match tcols t, trows t with [], _ | _, [] => X | _, _ => Y end = Y).
  { intros. destruct (tcols t); [contradiction|]. destruct (trows t); [contradiction|reflexivity]. }
  rewrite M. fold selected. rewrite S1. cbn [bindR].
  assert (V : map (fun k => func (map (fun v => nth k v None) (map (fun n => map (fun r0 => value (tcols t) (snd r0) n) (trows t)) selected))) (seq 0 (List.length (trows t)))
            = map (fun r0 => func (map (value (tcols t) (snd r0)) selected)) (trows t)).
  { generalize (trows t) as rows. intros rows. apply (nth_error_ext' _ _ (List.length rows)).
    - rewrite map_length, seq_length. reflexivity.
    - apply map_length.
    - intros i L. rewrite !nth_error_map. rewrite (nth_error_nth' _ 0%nat) by (rewrite seq_length; exact L). rewrite seq_nth by exact L.
      destruct (nth_error rows i) as [x|] eqn:Ei; [|apply nth_error_None in Ei; lia]. cbn [option_map]. f_equal. f_equal. rewrite map_map. apply map_ext. intros n.
      cbn. apply nth_error_nth. rewrite nth_error_map, Ei. reflexivity. }
  rewrite V. eexists. split; [reflexivity|].
  assert (LV : List.length (map (fun r0 => func (map (value (tcols t) (snd r0)) selected)) (trows t)) = List.length (trows t)) by apply map_length.
  split; [apply assign_index; exact LV|]. split; [rewrite column_assign by assumption; rewrite String.eqb_refl; reflexivity|].
  intros n Hn. rewrite column_assign by assumption. destruct (String.eqb_spec n new); [contradiction|reflexivity].
Qed.
Print Assumptions C70_combined_column.
