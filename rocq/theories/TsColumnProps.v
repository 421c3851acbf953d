(* C42, replace_index=False: the exact time is added as a column. *)
From Verif Require Import BaseProofs AdaptersProofs AdaptersProofs2.
Open Scope Z_scope.

(* the columns of a frame after a column has been assigned *)
Definition with_column (n : string) (cols : list string) : list string :=
  if existsb (String.eqb n) cols then cols else cols ++ [n].

Lemma with_column_pos n cols : match position n cols with Some _ => cols | None => cols ++ [n] end = with_column n cols.
Proof.
  unfold with_column. destruct (position n cols) as [k|] eqn:E.
  - assert (H : In n cols) by (apply position_in; exists k; exact E).
    assert (X : existsb (String.eqb n) cols = true) by (apply existsb_exists; exists n; split; [exact H|apply String.eqb_refl]). rewrite X. reflexivity.
  - destruct (existsb (String.eqb n) cols) eqn:X; [|reflexivity]. apply existsb_exists in X as (m & Hm & Em). apply String.eqb_eq in Em. subst m.
    apply position_in in Hm as (k & Hk). congruence.
Qed.
Lemma in_with_column n cols m : In m (with_column n cols) <-> m = n \/ In m cols.
Proof.
  unfold with_column. destruct (existsb (String.eqb n) cols) eqn:X.
  - apply existsb_exists in X as (m' & Hm & Em). apply String.eqb_eq in Em. subst m'. split; [auto|]. intros [->|H]; auto.
  - rewrite in_app_iff. cbn. intuition.
Qed.

Lemma assign_rows (t : tab cell) n (g : cell * list cell -> cell) : wf t ->
  assign t n (map g (trows t)) = mkTab (with_column n (tcols t))
    (map (fun r => (fst r, map (fun m => if String.eqb m n then g r else value (tcols t) (snd r) m) (with_column n (tcols t)))) (trows t)).
Proof.
  intros [N L]. unfold assign. rewrite <- with_column_pos. destruct (position n (tcols t)) as [k|] eqn:E; f_equal; rewrite map2_map_r; apply map_ext_in; intros r Hr; f_equal.
  - apply set_cell_values; auto.
  - rewrite map_app. cbn [map]. rewrite String.eqb_refl. f_equal. rewrite <- (values_self (tcols t) (snd r) N (L r Hr)) at 1. apply map_ext_in. intros m Hm.
    destruct (String.eqb_spec m n) as [->|]; [|reflexivity]. apply position_in in Hm as (k & Hk). congruence.
Qed.

(* the row that the adapter produces *)
Definition out_row (o : ts_opts) (k : Z) (cols : list string) (offsets : list (string * Z)) (r : cell * list cell) : cell * list cell :=
  (fst r, map (fun m => if String.eqb m (to_output o) then Some (code_time o k cols offsets r) else value cols (snd r) m)
              (remaining o (with_column (to_output o) cols))).

Lemma value_mapped names (f : string -> cell) n : In n names -> value names (map f names) n = f n.
Proof.
  unfold value. induction names as [|x r IH]; intros H; [destruct H|]. cbn [position map]. destruct (String.eqb_spec x n) as [->|NE]; [reflexivity|].
  destruct H as [H|H]; [contradiction|]. specialize (IH H). destruct (position n r) as [j|] eqn:E; cbn; [exact IH|].
  apply position_in in H as (j & Hj). congruence.
Qed.
Lemma restrict_rows (cols : list string) (rows : list (cell * list cell)) (f : cell * list cell -> string -> cell) p :
  restrict (mkTab cols (map (fun r => (fst r, map (f r) cols)) rows)) p = mkTab (filter p cols) (map (fun r => (fst r, map (f r) (filter p cols))) rows).
Proof.
  unfold restrict. cbn [tcols trows]. f_equal. rewrite map_map. apply map_ext. intros r. cbn. f_equal. apply map_ext_in. intros n Hn.
  apply filter_In in Hn as [Hn _]. apply value_mapped. exact Hn.
Qed.

Lemma timestamp_column o (t : tab cell) offsets k : wf t -> tcols t <> [] -> offsets_of o (tcols t) offsets -> base_unit_of o k -> base_present o (tcols t) ->
  to_replace o = false -> filter (has_base o (tcols t)) (trows t) <> [] ->
  timestamp_adapter o (Some t) =
    Ok (loc_index (mkTab (remaining o (with_column (to_output o) (tcols t)))
       (map (out_row o k (tcols t) offsets) (filter (has_base o (tcols t)) (trows t))))).
Proof.
  intros W NC OF BU BP RP NE. unfold timestamp_adapter. cbn [basic].
  assert (B : match to_base o with Some f => column t f | None => Ok (map fst (trows t)) end = Ok (map (base_of o (tcols t)) (trows t))).
  { unfold base_of, base_present in *. destruct (to_base o) as [f|]; [apply column_ok; exact BP|reflexivity]. }
  rewrite B. cbn [bindR]. unfold keep_rows. rewrite map_map, mask_select_map_filter. cbn [tcols trows].
  change (filter (fun x => notna (base_of o (tcols t) x)) (trows t)) with (filter (has_base o (tcols t)) (trows t)).
  rewrite vals_map. change (filter (fun a => notna (base_of o (tcols t) a)) (trows t)) with (filter (has_base o (tcols t)) (trows t)).
  set (kept := filter (has_base o (tcols t)) (trows t)) in *.
  assert (X : match kept with [] => true | _ => false end || match tcols t with [] => true | _ => false end = false).
  { destruct kept; [contradiction|]. destruct (tcols t); [contradiction|reflexivity]. }
  rewrite X. clear X.
  set (bq := fun r => match base_of o (tcols t) r with Some x => x | None => 0%Q end).
  assert (B2 : match to_reference o with None => Ok (map bq kept) | Some r => mapR (fun k => convert_generic r k (map bq kept)) (unit_of (to_base_units o)) end
               = Ok (map (fun r => base_ns o k (bq r)) kept)).
  { unfold base_ns, base_unit_of in *. destruct (to_reference o) as [rf|]; [|reflexivity]. destruct BU as [BU|BU]; [discriminate|].
    unfold unit_of. rewrite BU. cbn [mapR]. unfold convert_generic. rewrite map_map. reflexivity. }
  rewrite B2. cbn [bindR].
  assert (WK : wf (mkTab (tcols t) kept)).
  { destruct W as [N L]. split; [exact N|]. cbn. intros r Hr. apply L. apply filter_In in Hr. tauto. }
  assert (B3 : match to_fields o with None => Ok (map (fun r => base_ns o k (bq r)) kept)
      | Some fields => mapR (fun off => map2 (fun b s => (b + inject_Z (s * second_ns))%Q) (map (fun r => base_ns o k (bq r)) kept) off) (add_offset fields (to_units o) (mkTab (tcols t) kept)) end
      = Ok (map (code_time o k (tcols t) offsets) kept)).
  { unfold code_time, offsets_of in *. destruct (to_fields o) as [fields|]; [|reflexivity]. destruct OF as (ks & U & L & -> & P).
    rewrite (add_offset_ok (mkTab (tcols t) kept) fields (to_units o) ks U P). cbn [mapR tcols trows]. rewrite map2_map. reflexivity. }
  rewrite B3. cbn [bindR]. rewrite RP.
  set (cols1 := with_column (to_output o) (tcols t)) in *.
  pose (g := fun r : cell * list cell => (Some (code_time o k (tcols t) offsets r) : cell)).
  pose (f := fun (r : cell * list cell) m => if String.eqb m (to_output o) then g r else value (tcols t) (snd r) m).
  pose (t1 := mkTab cols1 (map (fun r => (fst r, map (f r) cols1)) kept)).
  assert (AR : assign (mkTab (tcols t) kept) (to_output o) (map g kept) = t1) by exact (assign_rows (mkTab (tcols t) kept) (to_output o) g WK).
  assert (W1 : wf t1).
  { rewrite <- AR. apply assign_wf; [exact WK|]. cbn [trows]. rewrite map_length. reflexivity. }
  match goal with |- context [assign ?a ?b ?c] => replace (assign a b c) with t1 by (rewrite <- AR; f_equal; rewrite map_map; reflexivity) end.
  change (map (out_row o k (tcols t) offsets) kept) with (map (fun r => (fst r, map (f r) (remaining o cols1))) kept).
  unfold remaining. destruct (to_drop o).
  - assert (D : match to_fields o with None => Ok t1 | Some l => drop_columns t1 l end =
      Ok (restrict t1 (fun n => negb (existsb (String.eqb n) match to_fields o with Some l => l | None => [] end)))).
    { unfold offsets_of in OF. destruct (to_fields o) as [fields|].
      - destruct OF as (ks & _ & _ & _ & P). unfold drop_columns. rewrite drop_list_restrict by exact W1.
        assert (FB : forallb (fun n => existsb (String.eqb n) (tcols t1)) fields = true).
        { apply forallb_forall. intros n Hn. apply existsb_exists. exists n. split; [apply in_with_column; right; apply P; exact Hn|apply String.eqb_refl]. }
        rewrite FB. reflexivity.
      - f_equal. symmetry. cbn. apply restrict_all. exact W1. }
    match goal with |- bindR (bindR ?x _) _ = _ => change x with (match to_fields o with None => Ok t1 | Some l => drop_columns t1 l end) end. rewrite D. cbn [bindR]. f_equal. f_equal. rewrite <- (restrict_rows cols1 kept f). fold t1. destruct (to_base o) as [g0|].
    + rewrite drop_restrict by (apply restrict_wf; exact W1). rewrite restrict_restrict by exact W1. apply restrict_ext. intros n _. apply andb_comm.
    + apply restrict_ext. intros n _. rewrite andb_true_r. reflexivity.
  - cbn [bindR]. reflexivity.
Qed.

(* Partial: the offsets are whole seconds, the index of the kept rows has no gaps and no repetitions, and
   the output column is not one of the columns to be dropped.  The index stays, the output column holds the
   exact time, the other remaining columns are unchanged. *)
Theorem C42_output_column_partial :
  forall o (t : tab cell) offsets base_unit, wf t -> tcols t <> [] ->
    offsets_of o (tcols t) offsets -> base_unit_of o base_unit -> base_present o (tcols t) -> to_replace o = false ->
    let kept := filter (has_base o (tcols t)) (trows t) in
    kept <> [] ->
    (forall r fk, In r kept -> In fk offsets -> (1000000000 | offset_ns (tcols t) (snd r) fk)) ->
    forall label : cell * list cell -> Q, (forall r, In r kept -> fst r = Some (label r)) -> NoDupA Qeq (map label kept) ->
    (to_drop o = true -> (forall l, to_fields o = Some l -> ~ In (to_output o) l) /\ to_base o <> Some (to_output o)) ->
    let cols := remaining o (if existsb (String.eqb (to_output o)) (tcols t) then tcols t else tcols t ++ [to_output o]) in
    exists rows, timestamp_adapter o (Some t) = Ok (mkTab cols rows) /\ In (to_output o) cols /\
      Forall2 (fun r d => fst d = fst r /\
        (exists x, value cols (snd d) (to_output o) = Some x /\ (x == exact_time o base_unit (tcols t) offsets r)%Q) /\
        forall n, In n cols -> n <> to_output o -> value cols (snd d) n = value (tcols t) (snd r) n) kept rows.
Proof.
  intros o t offsets k W NC OF BU BP RP kept NE WS label LB ND OD cols. rewrite (timestamp_column o t offsets k W NC OF BU BP RP NE). fold kept.
  change (if existsb (String.eqb (to_output o)) (tcols t) then tcols t else tcols t ++ [to_output o]) with (with_column (to_output o) (tcols t)) in *. fold cols.
  assert (Io : In (to_output o) cols).
  { unfold cols, remaining. assert (Iw : In (to_output o) (with_column (to_output o) (tcols t))) by (apply in_with_column; auto).
    destruct (to_drop o); [|exact Iw]. destruct (OD eq_refl) as [O1 O2]. apply filter_In. split; [exact Iw|]. apply andb_true_intro. split.
    - apply negb_true_iff. destruct (existsb _ _) eqn:X; [|reflexivity]. apply existsb_exists in X as (m & Hm & Em). apply String.eqb_eq in Em. subst m.
      destruct (to_fields o) as [l|]; [destruct (O1 l eq_refl Hm)|destruct Hm].
    - destruct (to_base o) as [g|]; [|reflexivity]. apply negb_true_iff. apply String.eqb_neq. intros E. apply O2. rewrite E. reflexivity. }
  rewrite (loc_index_distinct _ _ (fun d => match fst d with Some x => x | None => 0%Q end)).
  - exists (map (out_row o k (tcols t) offsets) kept). split; [reflexivity|]. split; [exact Io|]. clear ND NE.
    assert (G : forall r, In r kept -> In r kept) by auto. revert G. generalize kept at 1 3 4. intros l. induction l as [|r l IH]; intros G; [constructor|].
    cbn [map]. constructor; [|apply IH; intros; apply G; right; assumption].
    assert (Hr : In r kept) by (apply G; left; reflexivity). unfold out_row. cbn [fst snd]. fold cols. split; [reflexivity|]. split.
    + eexists. split; [rewrite value_mapped by exact Io; rewrite String.eqb_refl; reflexivity|].
      apply code_time_exact; [|intros fk Hf; exact (WS r fk Hr Hf)]. intros E. unfold offsets_of in OF. rewrite E in OF. exact OF.
    + intros n Hn NE. rewrite value_mapped by exact Hn. destruct (String.eqb_spec n (to_output o)); [contradiction|reflexivity].
  - intros d Hd. apply in_map_iff in Hd as (r & <- & Hr). cbn. rewrite (LB r Hr). reflexivity.
  - rewrite map_map. rewrite (map_ext_in _ label); [exact ND|]. intros r Hr. cbn. rewrite (LB r Hr). reflexivity.
Qed.

(* with drop_original (the default), an output column named like the base time or an offset field is dropped
   again: the exact times are lost *)
Theorem C42_output_dropped_refuted :
  forall o (t : tab cell) offsets base_unit, wf t -> tcols t <> [] ->
    offsets_of o (tcols t) offsets -> base_unit_of o base_unit -> base_present o (tcols t) -> to_replace o = false ->
    filter (has_base o (tcols t)) (trows t) <> [] ->
    to_drop o = true -> (to_base o = Some (to_output o) \/ exists l, to_fields o = Some l /\ In (to_output o) l) ->
    exists t', timestamp_adapter o (Some t) = Ok t' /\ ~ In (to_output o) (tcols t') /\
      forall n, In n (tcols t') -> In n (tcols t).
Proof.
  intros o t offsets k W NC OF BU BP RP NE DR OD. rewrite (timestamp_column o t offsets k W NC OF BU BP RP NE). eexists. split; [reflexivity|].
  unfold loc_index. cbn [tcols]. unfold remaining. rewrite DR. split.
  - intros H. apply filter_In in H as [_ H]. apply andb_prop in H as [H1 H2]. destruct OD as [OD|(l & OD & Hl)]; rewrite OD in *.
    + rewrite String.eqb_refl in H2. discriminate.
    + apply negb_true_iff in H1. assert (X : existsb (String.eqb (to_output o)) l = true) by (apply existsb_exists; eexists; split; [exact Hl|apply String.eqb_refl]). congruence.
  - intros n H. pose proof H as H0. apply filter_In in H as [H _]. apply in_with_column in H as [->|H]; [|exact H].
    exfalso. apply filter_In in H0 as [_ H]. apply andb_prop in H as [H1 H2]. destruct OD as [OD|(l & OD & Hl)]; rewrite OD in *.
    + rewrite String.eqb_refl in H2. discriminate.
    + apply negb_true_iff in H1. assert (X : existsb (String.eqb (to_output o)) l = true) by (apply existsb_exists; eexists; split; [exact Hl|apply String.eqb_refl]). congruence.
Qed.

Section Ex.
Open Scope string_scope.
Definition tc_o (out : string) := mkTs (Some ["off"]) ["s"] (Some "day") (Some 0) "D" false out true.
Definition tc_t : tab cell := mkTab ["v"; "day"; "off"]
  [(Some 0%Q, [Some 8%Q; Some 1%Q; Some 30%Q]); (Some 1%Q, [Some 1%Q; None; Some 40%Q]); (Some 2%Q, [Some 2%Q; Some 1%Q; Some 50%Q])].
Example C42_output_ex : match timestamp_adapter (tc_o "exact") (Some tc_t) with
  | Ok t => tcols t = ["v"; "exact"] /\ map (fun r => (fst r, map (option_map Qred) (snd r))) (trows t) =
      [(Some 0%Q, [Some 8%Q; Some (inject_Z 86430000000000)]); (Some 2%Q, [Some 2%Q; Some (inject_Z 86450000000000)])]
  | Err _ => False end.
Proof. vm_compute. auto. Qed.
Example C42_output_hyps : wf tc_t /\ offsets_of (tc_o "exact") (tcols tc_t) [("off", 1000000000)] /\ base_unit_of (tc_o "exact") 86400000000000 /\
  base_present (tc_o "exact") (tcols tc_t) /\ List.length (filter (has_base (tc_o "exact") (tcols tc_t)) (trows tc_t)) = 2%nat.
Proof.
  split; [|split; [|split; [|split]]].
  - split; [repeat constructor; cbn; intuition discriminate|]. intros r H. repeat destruct H as [<-|H]; try reflexivity. destruct H.
  - exists [1000000000]. split; [repeat constructor|]. split; [reflexivity|]. split; [reflexivity|]. cbn. intuition.
  - right. reflexivity.
  - cbn. auto.
  - reflexivity.
Qed.
Example C42_dropped_ex : match timestamp_adapter (tc_o "day") (Some tc_t) with Ok t => tcols t = ["v"] | Err _ => False end.
Proof. vm_compute. reflexivity. Qed.
End Ex.
Print Assumptions C42_output_column_partial.
Print Assumptions C42_output_dropped_refuted.
