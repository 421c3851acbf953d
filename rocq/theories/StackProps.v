(* Property theorems C123: adapters wrapped around adapters. *)
From Coq Require Import Permutation.
From Verif Require Import FiltersModel BaseProofs AdaptersProofs AdaptersProofs2.
Open Scope Z_scope.

(* A reader wrapped into one SelfMaskingAdapter per filter, the first one innermost. *)
Definition stack_of_masks {I} (filters : list (string * op * cell)) (t : tab I) : res (tab I) :=
  fold_left (fun acc flt => bindR acc (fun t => self_masking (snd (fst flt)) (snd flt) (fst (fst flt)) (Some t))) filters (Ok t).
(* rows without any value are removed *)
Definition without_empty {I} (t : tab I) : tab I := mkTab (tcols t) (filter (fun r => existsb notna (snd r)) (trows t)).

Lemma filter_false_all {A} (p : A -> bool) l : (forall a, In a l -> p a = true) -> filter p l = l.
Proof. induction l as [|a l IH]; intros H; cbn; [reflexivity|]. rewrite (H a (or_introl eq_refl)), IH; [reflexivity|]. intros; apply H; right; assumption. Qed.
Lemma filter_true {A} (l : list A) : filter (fun _ => true) l = l.
Proof. apply filter_false_all. reflexivity. Qed.

Lemma stack_ok {I} flts gs : forall (t : tab I), Forall2 resolved flts gs -> (forall g, In g gs -> In (fst (fst g)) (tcols t)) ->
  stack_of_masks flts t = Ok (mkTab (tcols t) (filter (fun r => forallb (passes false (tcols t) (snd r)) gs) (trows t))).
Proof.
  unfold stack_of_masks. intros t F. revert t. induction F as [|[[n o] th] [[n' f] th'] flts gs E F IH]; intros t H.
  - cbn [fold_left forallb]. rewrite filter_true. destruct t. reflexivity.
  - unfold resolved in E. cbn [fst snd] in E. destruct E as (E1 & E2 & E3). subst n' th'. cbn [fold_left bindR fst snd].
    rewrite (self_masking_ok o f th n t E3 (H _ (or_introl eq_refl))).
    rewrite IH by (cbn [tcols]; intros; apply H; right; assumption). cbn [tcols trows]. rewrite filter_filter_and. f_equal. f_equal. apply filter_ext. intros r. cbn [forallb passes].
    rewrite andb_false_l, orb_false_r. reflexivity.
Qed.

(* A stack of masks is the same as one adapter with all filters, apart from rows without any value. *)
Theorem C123_stack :
  forall (I : Type) (filters : list (string * op * cell)) resolved_filters (t : tab I),
    filters <> [] -> Forall2 resolved filters resolved_filters -> (forall g, In g resolved_filters -> In (fst (fst g)) (tcols t)) ->
    exists t', stack_of_masks filters t = Ok t' /\ advanced_masking filters false (Some t) = Ok (without_empty t').
Proof.
  intros I flts gs t NE F H. exists (mkTab (tcols t) (filter (fun r => forallb (passes false (tcols t) (snd r)) gs) (trows t))). split; [apply stack_ok; assumption|].
  rewrite (advanced_ok false t flts gs NE F H). unfold without_empty. cbn [tcols trows]. rewrite filter_filter_and. reflexivity.
Qed.
(* the order of the adapters or of the filters, and repeated ones, do not matter *)
Lemma forallb_incl {A} (p : A -> bool) a b : (forall x, In x a <-> In x b) -> forallb p a = forallb p b.
Proof. intros H. apply Bool.eq_true_iff_eq. rewrite !forallb_forall. split; intros X x Hx; apply X, H, Hx. Qed.
Lemma forall2_in {A B} (P : A -> B -> Prop) l m : Forall2 P l m -> forall b, In b m -> exists a, In a l /\ P a b.
Proof. induction 1 as [|a b l m E F IH]; intros x Hx; [destruct Hx|]. destruct Hx as [<-|Hx]; [exists a; split; [left; reflexivity|exact E]|]. destruct (IH x Hx) as (y & Y1 & Y2). exists y. split; [right; exact Y1|exact Y2]. Qed.
Lemma forall2_in_l {A B} (P : A -> B -> Prop) l m : Forall2 P l m -> forall a, In a l -> exists b, In b m /\ P a b.
Proof. induction 1 as [|a b l m E F IH]; intros x Hx; [destruct Hx|]. destruct Hx as [<-|Hx]; [exists b; split; [left; reflexivity|exact E]|]. destruct (IH x Hx) as (y & Y1 & Y2). exists y. split; [right; exact Y1|exact Y2]. Qed.
Lemma resolved_same flt g h : resolved flt g -> resolved flt h -> g = h.
Proof. destruct flt as [[n o] th], g as [[n1 f1] t1], h as [[n2 f2] t2]. unfold resolved. cbn. intros (A1 & A2 & A3) (B1 & B2 & B3). assert (f1 = f2) by congruence. subst. reflexivity. Qed.
Lemma resolve_exists (flts : list (string * op * cell)) : (forall flt, In flt flts -> exists f, resolve (snd (fst flt)) = Ok f) -> exists gs, Forall2 resolved flts gs.
Proof.
  induction flts as [|[[n o] th] l IH]; intros H; [exists []; constructor|]. destruct (H _ (or_introl eq_refl)) as [f E]. cbn in E. destruct IH as [gs F]; [intros; apply H; right; assumption|].
  exists ((n, f, th) :: gs). constructor; [|exact F]. unfold resolved. cbn. auto.
Qed.
Theorem C123_order :
  forall (I : Type) (filters filters' : list (string * op * cell)) (t : tab I), filters <> [] -> (forall flt, In flt filters <-> In flt filters') ->
    (forall flt, In flt filters -> (exists f, resolve (snd (fst flt)) = Ok f) /\ In (fst (fst flt)) (tcols t)) ->
    stack_of_masks filters' t = stack_of_masks filters t /\ forall ignore_nans, advanced_masking filters' ignore_nans (Some t) = advanced_masking filters ignore_nans (Some t).
Proof.
  intros I fl fl' t NE S H.
  assert (NE' : fl' <> []). { intros E. destruct fl as [|x fl]; [contradiction|]. assert (Y := proj1 (S x) (or_introl eq_refl)). rewrite E in Y. destruct Y. }
  destruct (resolve_exists fl) as [gs F]; [intros; apply H; assumption|]. destruct (resolve_exists fl') as [gs' F']; [intros flt X; apply H, S, X|].
  assert (G : forall g, In g gs -> In (fst (fst g)) (tcols t)). { intros g Hg. destruct (forall2_in _ _ _ F g Hg) as (x & X1 & X2). destruct x as [[n o] th], g as [[n1 f1] t1]. unfold resolved in X2. cbn in X2. destruct X2 as (E & _ & _). cbn. rewrite E. apply (H _ X1). }
  assert (SS : forall g, In g gs' <-> In g gs).
  { intros g. split; intros Hg.
    - destruct (forall2_in _ _ _ F' g Hg) as (x & X1 & X2). apply S in X1. destruct (forall2_in_l _ _ _ F x X1) as (h & Y1 & Y2). rewrite (resolved_same x g h X2 Y2). exact Y1.
    - destruct (forall2_in _ _ _ F g Hg) as (x & X1 & X2). apply S in X1. destruct (forall2_in_l _ _ _ F' x X1) as (h & Y1 & Y2). rewrite (resolved_same x g h X2 Y2). exact Y1. }
  assert (G' : forall g, In g gs' -> In (fst (fst g)) (tcols t)) by (intros; apply G, SS; assumption).
  split.
  - rewrite (stack_ok _ _ _ F' G'), (stack_ok _ _ _ F G). f_equal. f_equal. apply filter_ext. intros r. apply forallb_incl, SS.
  - intros ign. rewrite (advanced_ok ign t _ _ NE' F' G'), (advanced_ok ign t _ _ NE F G). f_equal. f_equal. apply filter_ext. intros r. f_equal. apply forallb_incl, SS.
Qed.
(* masking again with the same filters changes nothing *)
Theorem C123_again :
  forall (I : Type) (t t' : tab I),
    (forall o threshold n, self_masking o threshold n (Some t) = Ok t' -> self_masking o threshold n (Some t') = Ok t') /\
    (forall filters ignore_nans, (forall flt, In flt filters -> (exists f, resolve (snd (fst flt)) = Ok f) /\ In (fst (fst flt)) (tcols t)) ->
       advanced_masking filters ignore_nans (Some t) = Ok t' -> advanced_masking filters ignore_nans (Some t') = Ok t').
Proof.
  intros I t t'. split.
  - intros o th n E. destruct (in_dec string_dec n (tcols t)) as [Hn|Hn].
    2:{ unfold self_masking in E. destruct (resolve o); cbn [bindR basic] in E; [rewrite column_missing in E by exact Hn|]; discriminate. }
    destruct (resolve o) as [f|e] eqn:R; [|unfold self_masking in E; rewrite R in E; discriminate].
    rewrite (self_masking_ok o f th n t R Hn) in E. assert (X : t' = mkTab (tcols t) (filter (fun r => f (value (tcols t) (snd r) n) th) (trows t))) by congruence. subst t'.
    rewrite (self_masking_ok o f th n _ R) by exact Hn. cbn [tcols trows]. f_equal. f_equal. apply filter_false_all. intros r Hr. apply filter_In in Hr. apply Hr.
  - intros fl ign H E. destruct fl as [|x fl0] eqn:EF; [discriminate E|]. assert (NE : fl <> []) by (rewrite EF; discriminate). rewrite <- EF in *. clear EF x fl0.
    destruct (resolve_exists fl) as [gs F]; [intros; apply H; assumption|].
    assert (G : forall g, In g gs -> In (fst (fst g)) (tcols t)). { intros g Hg. destruct (forall2_in _ _ _ F g Hg) as (y & X1 & X2). destruct y as [[n o] th], g as [[n1 f1] t1]. unfold resolved in X2. cbn in X2. destruct X2 as (E1 & _ & _). cbn. rewrite E1. apply (H _ X1). }
    rewrite (advanced_ok ign t _ _ NE F G) in E. match type of E with Ok ?a = _ => assert (X : t' = a) by congruence end. subst t'.
    rewrite (advanced_ok ign _ _ _ NE F) by exact G. cbn [tcols trows]. f_equal. f_equal. apply filter_false_all. intros r Hr. apply filter_In in Hr. apply Hr.
Qed.

(* ------------------------------------------- complementary comparisons *)
(* An operator and its opposite: every row with a value in the column is kept by exactly one of them,
   a row without by neither, except that "!=" keeps it. *)
Definition opposite (s : string) : option string :=
  match s with
  | "<"%string => Some ">="%string | ">="%string => Some "<"%string
  | "<="%string => Some ">"%string | ">"%string => Some "<="%string
  | "=="%string => Some "!="%string | "!="%string => Some "=="%string
  | _ => None
  end.
Theorem C123_opposite :
  forall (I : Type) s s' threshold n (t : tab I), opposite s = Some s' -> In n (tcols t) ->
    exists a b, self_masking (OpName s) (Some threshold) n (Some t) = Ok a /\ self_masking (OpName s') (Some threshold) n (Some t) = Ok b /\
      (forall r, In r (trows t) -> value (tcols t) (snd r) n <> None -> (In r (trows a) /\ ~ In r (trows b)) \/ (~ In r (trows a) /\ In r (trows b))) /\
      (forall r, In r (trows t) -> value (tcols t) (snd r) n = None -> (In r (trows a) <-> s = "!="%string) /\ (In r (trows b) <-> s' = "!="%string)).
Proof.
  intros I s s' th n t O H. unfold opposite in O.
  assert (K : forall f g, op_lookup s = Some f -> op_lookup s' = Some g -> (forall x, f (Some x) (Some th) = negb (g (Some x) (Some th))) ->
    (f None (Some th) = true <-> s = "!="%string) -> (g None (Some th) = true <-> s' = "!="%string) ->
    exists a b, self_masking (OpName s) (Some th) n (Some t) = Ok a /\ self_masking (OpName s') (Some th) n (Some t) = Ok b /\
      (forall r, In r (trows t) -> value (tcols t) (snd r) n <> None -> (In r (trows a) /\ ~ In r (trows b)) \/ (~ In r (trows a) /\ In r (trows b))) /\
      (forall r, In r (trows t) -> value (tcols t) (snd r) n = None -> (In r (trows a) <-> s = "!="%string) /\ (In r (trows b) <-> s' = "!="%string))).
  { intros f g Ef Eg N FN GN. eexists. eexists. split; [apply (self_masking_ok (OpName s) f); [cbn [resolve]; rewrite Ef; reflexivity|exact H]|]. split; [apply (self_masking_ok (OpName s') g); [cbn [resolve]; rewrite Eg; reflexivity|exact H]|].
    cbn [trows]. split.
    - intros r Hr V. rewrite !filter_In. destruct (value (tcols t) (snd r) n) as [x|]; [|congruence]. rewrite N. destruct (g (Some x) (Some th)); cbn [negb]; [right|left]; split; intuition discriminate.
    - intros r Hr V. rewrite !filter_In, V. rewrite <- FN, <- GN. tauto. }
  repeat match type of O with context [match ?x with _ => _ end] => destruct x; try discriminate O end; injection O as <-;
    (eapply K; [reflexivity|reflexivity|intros x; cbn [cmp]; rewrite ?negb_involutive; reflexivity|split; intros; (discriminate || reflexivity)|split; intros; (discriminate || reflexivity)]).
Qed.

(* --------------------------------------------- masks and combined columns *)
(* A column computed from each row can be added before or after the mask. *)
Definition with_cell (cols : list string) (new_name : string) (r : list cell) (v : cell) : list cell :=
  match position new_name cols with Some k => set_cell k v r | None => r ++ [v] end.
Definition with_name (cols : list string) (new_name : string) : list string := match position new_name cols with Some _ => cols | None => cols ++ [new_name] end.
Lemma assign_rows {I} (t : tab I) n (f : I * list cell -> cell) : assign t n (map f (trows t)) = mkTab (with_name (tcols t) n) (map (fun r => (fst r, with_cell (tcols t) n (snd r) (f r))) (trows t)).
Proof. unfold assign, with_name, with_cell. destruct (position n (tcols t)); rewrite map2_map_r; reflexivity. Qed.
Lemma seqR_columns {I} (t : tab I) cs : (forall c, In c cs -> In c (tcols t)) -> seqR (map (column t) cs) = Ok (map (fun c => map (fun r => value (tcols t) (snd r) c) (trows t)) cs).
Proof. induction cs as [|c cs IH]; intros H; [reflexivity|]. cbn [map seqR]. rewrite column_ok by (apply H; left; reflexivity). rewrite IH by (intros; apply H; right; assumption). reflexivity. Qed.
Lemma map_seq_nth {A B} (l : list A) (g : nat -> B) (h : A -> B) d : (forall k, (k < List.length l)%nat -> g k = h (nth k l d)) -> map g (seq 0 (List.length l)) = map h l.
Proof.
  intros H. apply nth_ext with (d := g O) (d' := h d); [rewrite !map_length, seq_length; reflexivity|]. intros k Hk. rewrite map_length, seq_length in Hk.
  rewrite (map_nth g), (map_nth h), seq_nth by exact Hk. apply H. exact Hk.
Qed.
Lemma combine_rows {I} func columns new_name (t : tab I) : tcols t <> [] -> (forall cs, columns = Some cs -> forall c, In c cs -> In c (tcols t)) ->
  combine_adapter func columns new_name (Some t) =
    Ok (mkTab (with_name (tcols t) new_name) (map (fun r => (fst r, with_cell (tcols t) new_name (snd r) (func (map (value (tcols t) (snd r)) (match columns with None => tcols t | Some l => l end))))) (trows t))).
Proof.
  intros NE H. unfold combine_adapter. cbn [basic]. destruct (tcols t) as [|c0 cs0] eqn:EC; [contradiction|]. destruct (trows t) as [|r0 rs0] eqn:ER.
  - cbn [map]. rewrite <- EC. unfold assign, with_name. rewrite ER. destruct (position new_name (tcols t)); reflexivity.
  - rewrite <- EC, <- ER in *. rewrite seqR_columns.
    2:{ destruct columns as [cs|]; [apply H; reflexivity|intros c X; exact X]. }
    cbn [bindR]. f_equal. rewrite <- assign_rows. f_equal. apply (map_seq_nth (trows t) _ _ r0). intros k Hk. f_equal. rewrite map_map. apply map_ext. intros c.
    rewrite (nth_indep _ None (value (tcols t) (snd r0) c)) by (rewrite map_length; exact Hk). apply (map_nth (fun r => value (tcols t) (snd r) c)).
Qed.
Lemma value_with_cell cols new_name r v m : List.length r = List.length cols -> In m cols -> m <> new_name -> value (with_name cols new_name) (with_cell cols new_name r v) m = value cols r m.
Proof.
  intros L Hm D. unfold value, with_name, with_cell. destruct (proj1 (position_in m cols) Hm) as [j Ej].
  destruct (position new_name cols) as [k|] eqn:Ek.
  - rewrite Ej. apply nth_set_cell_ne; [rewrite L; apply (position_lt _ _ _ Ek)|]. intros X. subst k. apply D. exact (position_inj _ _ _ _ Ej Ek).
  - assert (P : position m (cols ++ [new_name]) = Some j).
    { clear - Ej. revert j Ej. induction cols as [|c cols IH]; intros j E; cbn in *; [discriminate|]. destruct (String.eqb c m); [exact E|]. destruct (position m cols) as [i|]; [|discriminate]. rewrite (IH i eq_refl). exact E. }
    rewrite P, Ej. apply app_nth1. rewrite L. apply (position_lt _ _ _ Ej).
Qed.
Lemma filter_map_comm {A B} (p : B -> bool) (g : A -> B) l : filter p (map g l) = map g (filter (fun a => p (g a)) l).
Proof. induction l as [|a l IH]; cbn; [reflexivity|]. destruct (p (g a)); cbn; rewrite IH; reflexivity. Qed.
Theorem C123_combined_column :
  forall (I : Type) func columns new_name o f threshold n (t : tab I), wf t -> resolve o = Ok f -> In n (tcols t) -> n <> new_name ->
    (forall cs, columns = Some cs -> forall c, In c cs -> In c (tcols t)) ->
    exists t1 t2 t3, self_masking o threshold n (Some t) = Ok t1 /\ combine_adapter func columns new_name (Some t) = Ok t2 /\
      combine_adapter func columns new_name (Some t1) = Ok t3 /\ self_masking o threshold n (Some t2) = Ok t3.
Proof.
  intros I func columns new o f th n t W R Hn D HC. assert (NE : tcols t <> []) by (intros E; rewrite E in Hn; destruct Hn).
  do 3 eexists. split; [apply (self_masking_ok o f); assumption|]. split; [apply combine_rows; assumption|]. split; [apply combine_rows; assumption|]. cbn [tcols trows].
  rewrite (self_masking_ok o f _ _ _ R).
  2:{ cbn [tcols]. unfold with_name. destruct (position new (tcols t)); [exact Hn|apply in_or_app; left; exact Hn]. }
  cbn [tcols trows]. f_equal. f_equal. rewrite filter_map_comm. f_equal. apply filter_ext_in. intros r Hr. cbn [snd]. rewrite value_with_cell; [reflexivity| |exact Hn|exact D]. apply W, Hr.
Qed.

(* --------------------------------------------------------- not for anomalies *)
(* Anomalies before or after the mask are different data: the masked values take part in the reference. *)
Section Anom.
Open Scope string_scope.
Definition flagged : tab Q := mkTab ["sm"; "flag"] [(1%Q, [Some 2%Q; Some 0%Q]); (2%Q, [Some 4%Q; Some 0%Q]); (3%Q, [Some 9%Q; Some 1%Q])].
Theorem C123_anomaly_refuted :
  exists (t t1 t2 t3 t4 : tab Q), let anomaly l := map (option_map Qred) (map snd (calc_anomaly_ma l 35)) in
    self_masking (OpName "==") (Some 0%Q) "flag" (Some t) = Ok t1 /\ anomaly_adapter anomaly (Some ["sm"]) (Some t1) = Ok t2 /\ anomaly_adapter anomaly (Some ["sm"]) (Some t) = Ok t3 /\ self_masking (OpName "==") (Some 0%Q) "flag" (Some t3) = Ok t4 /\ column t2 "sm" = Ok [Some (-1)%Q; Some 1%Q] /\ column t4 "sm" = Ok [Some (-3)%Q; Some (-1)%Q].
Proof.
  exists flagged. do 4 eexists. split; [vm_compute; reflexivity|]. split; [vm_compute; reflexivity|]. split; [vm_compute; reflexivity|]. split; [vm_compute; reflexivity|]. split; vm_compute; reflexivity.
Qed.
Example C123_ex :
  stack_of_masks [("flag", OpName "==", Some 0%Q); ("sm", OpName ">", Some 2%Q)] flagged = Ok (mkTab ["sm"; "flag"] [(2%Q, [Some 4%Q; Some 0%Q])]) /\
  advanced_masking [("sm", OpName ">", Some 2%Q); ("flag", OpName "==", Some 0%Q); ("sm", OpName ">", Some 2%Q)] false (Some flagged) = Ok (mkTab ["sm"; "flag"] [(2%Q, [Some 4%Q; Some 0%Q])]).
Proof. split; vm_compute; reflexivity. Qed.
Example C123_ex_hyp : wf flagged /\ In "flag" (tcols flagged) /\ "flag" <> "merged" /\ opposite "<" = Some ">=" /\ (exists f, resolve (OpName "==") = Ok f).
Proof.
  split; [split|].
  - cbn. constructor; [intros [X|X]; [discriminate X|exact X]|]. constructor; [intros X; exact X|constructor].
  - intros r [<-|[<-|[<-|[]]]]; reflexivity.
  - split; [right; left; reflexivity|]. split; [discriminate|]. split; [reflexivity|]. eexists. reflexivity.
Qed.
End Anom.

Print Assumptions C123_stack.
Print Assumptions C123_order.
Print Assumptions C123_again.
Print Assumptions C123_opposite.
Print Assumptions C123_combined_column.
Print Assumptions C123_anomaly_refuted.
