(* Property theorems C42 and C123: the timestamp adapter when nothing is left, and together with masks. *)
From Verif Require Import FiltersModel BaseProofs AdaptersProofs AdaptersProofs2 TsColumnProps StackProps.
Open Scope Z_scope.

(* distinct times survive loc, and remain distinct in a part of the rows *)
Lemma nodupA_filter {A} (e : A -> Q) p l : NoDupA Qeq (map e l) -> NoDupA Qeq (map e (filter p l)).
Proof.
  induction l as [|a l IH]; intros N; [constructor|]. cbn [map filter] in *. inversion N as [|x y N1 N2]; subst. destruct (p a); [|exact (IH N2)].
  cbn [map]. constructor; [|exact (IH N2)]. intros X. apply N1. apply InA_alt in X as (y & Y1 & Y2). apply in_map_iff in Y2 as (b & <- & Hb).
  apply filter_In in Hb as [Hb _]. apply InA_alt. exists (e b). split; [exact Y1|]. apply in_map_iff. exists b. auto.
Qed.
Lemma filter_filter_comm {A} (p q : A -> bool) l : filter p (filter q l) = filter q (filter p l).
Proof. induction l as [|a l IH]; [reflexivity|]. cbn. destruct (p a) eqn:P, (q a) eqn:Q; cbn; rewrite ?P, ?Q, IH; reflexivity. Qed.
Lemma remaining_in o cols n : In n (remaining o cols) -> In n cols.
Proof. unfold remaining. destruct (to_drop o); [|auto]. intros H. apply filter_In in H. tauto. Qed.
Lemma code_of_exact o k cols offsets rows : offsets_of o cols offsets ->
  (forall r fk, In r rows -> In fk offsets -> (1000000000 | offset_ns cols (snd r) fk)) ->
  NoDupA Qeq (map (exact_time o k cols offsets) rows) -> NoDupA Qeq (map (code_time o k cols offsets) rows).
Proof.
  intros OF WS ND. assert (CT : forall r, In r rows -> (code_time o k cols offsets r == exact_time o k cols offsets r)%Q).
  { intros r Hr. apply code_time_exact; [|intros fk Hf; exact (WS r fk Hr Hf)]. intros E. unfold offsets_of in OF. rewrite E in OF. exact OF. }
  clear WS. induction rows as [|r l IH]; [constructor|]. cbn [map] in *. inversion ND as [|x y N1 N2]; subst. constructor; [|apply IH; [exact N2|intros; apply CT; right; assumption]].
  intros X. apply N1. apply InA_alt in X as (y & Y1 & Y2). apply in_map_iff in Y2 as (a & <- & Ha). apply InA_alt. exists (exact_time o k cols offsets a).
  split; [|apply in_map; exact Ha]. rewrite <- (CT r) by (left; reflexivity). rewrite <- (CT a) by (right; exact Ha). exact Y1.
Qed.

(* A mask on a column that the timestamp adapter keeps may be wrapped around it or lie below it, as long as an
   observation with a base time passes the mask. *)
Theorem C123_timestamp :
  forall o (t : tab cell) offsets base_unit, wf t ->
    offsets_of o (tcols t) offsets -> base_unit_of o base_unit -> base_present o (tcols t) -> to_replace o = true ->
    let kept := filter (has_base o (tcols t)) (trows t) in
    (forall r fk, In r kept -> In fk offsets -> (1000000000 | offset_ns (tcols t) (snd r) fk)) ->
    NoDupA Qeq (map (exact_time o base_unit (tcols t) offsets) kept) ->
    forall oper f threshold n, resolve oper = Ok f -> In n (remaining o (tcols t)) ->
    (exists r, In r kept /\ f (value (tcols t) (snd r) n) threshold = true) ->
    exists out, bindR (timestamp_adapter o (Some t)) (fun t' => self_masking oper threshold n (Some t')) = Ok out /\
                bindR (self_masking oper threshold n (Some t)) (fun t' => timestamp_adapter o (Some t')) = Ok out.
Proof.
  intros o t offsets k W OF BU BP RP kept WS ND oper f th n R Hn (r0 & H0 & P0).
  assert (Hc : In n (tcols t)) by exact (remaining_in _ _ _ Hn). assert (NC : tcols t <> []) by (intros X; rewrite X in Hc; destruct Hc).
  pose proof (code_of_exact o k (tcols t) offsets kept OF WS ND) as CD.
  assert (NE : kept <> []) by (intros X; rewrite X in H0; destruct H0).
  pose (row := fun r : cell * list cell => (Some (code_time o k (tcols t) offsets r) : cell, map (value (tcols t) (snd r)) (remaining o (tcols t)))).
  assert (L : forall p, loc_index (mkTab (remaining o (tcols t)) (map row (filter p kept))) = mkTab (remaining o (tcols t)) (map row (filter p kept))).
  { intros p. apply (loc_index_distinct _ _ (fun d => match fst d with Some x => x | None => 0%Q end)).
    - intros d Hd. apply in_map_iff in Hd as (r & <- & _). reflexivity.
    - rewrite map_map. cbn [fst row]. exact (nodupA_filter (code_time o k (tcols t) offsets) p kept CD). }
  exists (mkTab (remaining o (tcols t)) (map row (filter (fun r => f (value (tcols t) (snd r) n) th) kept))). split.
  - rewrite (timestamp_general o t offsets k W NC OF BU BP RP NE). fold kept. cbn [bindR].
    pose proof (L (fun _ => true)) as L1. rewrite filter_true in L1. 
    match goal with |- self_masking _ _ _ (Some ?x) = _ => change x with (loc_index (mkTab (remaining o (tcols t)) (map row kept))) end. rewrite L1.
    rewrite (self_masking_ok oper f th n _ R) by exact Hn. cbn [tcols trows]. f_equal. f_equal. rewrite filter_map_comm. f_equal. apply filter_ext. intros r. unfold row. cbn [snd].
    f_equal. apply value_mapped. exact Hn.
  - rewrite (self_masking_ok oper f th n t R Hc). cbn [bindR]. set (t' := mkTab (tcols t) (filter (fun r => f (value (tcols t) (snd r) n) th) (trows t))).
    assert (W' : wf t') by (destruct W as [N LL]; split; [exact N|]; cbn; intros r Hr; apply LL; apply filter_In in Hr; tauto).
    assert (K : filter (has_base o (tcols t')) (trows t') = filter (fun r => f (value (tcols t) (snd r) n) th) kept) by (unfold t', kept; cbn [tcols trows]; apply filter_filter_comm).
    rewrite (timestamp_general o t' offsets k W' NC OF BU BP RP).
    + rewrite K. change (tcols t') with (tcols t). f_equal. exact (L _).
    + rewrite K. intros X. assert (Y : In r0 (filter (fun r => f (value (tcols t) (snd r) n) th) kept)) by (apply filter_In; auto). rewrite X in Y. destruct Y.
Qed.
(* Without a base time in any row the adapter does nothing: the frame keeps its index and the columns that
   should have been dropped, and its rows stay. *)
Theorem C42_nothing_left :
  forall o (t : tab cell), base_present o (tcols t) -> (forall r, In r (trows t) -> has_base o (tcols t) r = false) ->
    timestamp_adapter o (Some t) = Ok t.
Proof.
  intros o t BP NB. unfold timestamp_adapter. cbn [basic].
  assert (B : match to_base o with Some f => column t f | None => Ok (map fst (trows t)) end = Ok (map (base_of o (tcols t)) (trows t))).
  { unfold base_of, base_present in *. destruct (to_base o) as [f|]; [apply column_ok; exact BP|reflexivity]. }
  rewrite B. cbn [bindR]. unfold keep_rows. rewrite map_map, mask_select_map_filter. cbn [trows].
  assert (E : filter (fun x => notna (base_of o (tcols t) x)) (trows t) = []).
  { revert NB. unfold has_base. generalize (trows t) as l. intros l. induction l as [|r l IH]; intros H; [reflexivity|]. cbn [filter]. rewrite (H r (or_introl eq_refl)). apply IH. intros; apply H; right; assumption. }
  rewrite E. reflexivity.
Qed.
Section Ex.
Open Scope string_scope.
Definition m_o := mkTs (Some ["sec"]) ["s"] (Some "base") None "D" true "" true.
Definition m_t : tab cell := mkTab ["sm"; "base"; "sec"]
  [(Some 0%Q, [Some 3%Q; Some 0%Q; Some 30%Q]); (Some 1%Q, [Some 8%Q; Some 86400000000000%Q; None]); (Some 2%Q, [Some 9%Q; None; Some 10%Q])].
Example C123_timestamp_ex :
  bindR (self_masking (OpName ">") (Some 5%Q) "sm" (Some m_t)) (fun t' => mapR (fun t => (tcols t, map (fun r => (option_map Qred (fst r), snd r)) (trows t))) (timestamp_adapter m_o (Some t'))) =
    Ok (["sm"], [(Some 86400000000000%Q, [Some 8%Q])]) /\
  wf m_t /\ offsets_of m_o (tcols m_t) [("sec", 1000000000)] /\ base_unit_of m_o 1 /\ base_present m_o (tcols m_t) /\
  (forall r fk, In r (filter (has_base m_o (tcols m_t)) (trows m_t)) -> In fk [("sec", 1000000000)] -> (1000000000 | offset_ns (tcols m_t) (snd r) fk)) /\
  NoDupA Qeq (map (exact_time m_o 1 (tcols m_t) [("sec", 1000000000)]) (filter (has_base m_o (tcols m_t)) (trows m_t))) /\ In "sm" (remaining m_o (tcols m_t)).
Proof.
  split; [vm_compute; reflexivity|]. split; [|split; [|split; [|split; [|split; [|split]]]]].
  - split; [repeat constructor; cbn; intuition discriminate|]. intros r H. repeat destruct H as [<-|H]; try reflexivity. destruct H.
  - exists [1000000000]. split; [repeat constructor|]. split; [reflexivity|]. split; [reflexivity|]. cbn. intuition.
  - left. reflexivity.
  - cbn. auto.
  - intros r fk Hr [<-|[]]. cbn in Hr. destruct Hr as [<-|[<-|[]]]; apply Z.mod_divide; try lia; vm_compute; reflexivity.
  - constructor; [|constructor; [|constructor]]; [|intros X; inversion X]. intros X. inversion X as [? ? Y|? ? Y]; subst; [vm_compute in Y; discriminate|inversion Y].
  - left. reflexivity.
Qed.
(* If the mask below leaves nothing, the index and the columns differ from those with the mask outside; the
   rows that the adapter would have dropped for want of a base time are kept if they are all there is. *)
Theorem C123_timestamp_refuted :
  exists o (t : tab cell) oper th, (exists r, In r (trows t) /\ has_base o (tcols t) r = true) /\
    bindR (timestamp_adapter o (Some t)) (fun t' => self_masking oper th "sm" (Some t')) = Ok (mkTab ["sm"] []) /\
    bindR (self_masking oper th "sm" (Some t)) (fun t' => timestamp_adapter o (Some t')) =
      Ok (mkTab ["sm"; "base"; "sec"] [(Some 2%Q, [Some 9%Q; None; Some 10%Q])]).
Proof.
  exists m_o, m_t, (OpName ">"), (Some 8%Q). split; [eexists; split; [left; reflexivity|reflexivity]|]. split; vm_compute; reflexivity.
Qed.
Example C42_nothing_left_ex : base_present m_o ["sm"; "base"; "sec"] /\ (forall r, In r [(Some 2%Q, [Some 9%Q; None; Some 10%Q])] -> has_base m_o ["sm"; "base"; "sec"] r = false).
Proof. split; [cbn; auto|]. intros r [<-|[]]. reflexivity. Qed.
End Ex.
Print Assumptions C123_timestamp.
Print Assumptions C42_nothing_left.
Print Assumptions C123_timestamp_refuted.
