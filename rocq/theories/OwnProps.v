(* Properties of repeated reads through adapters: the source data and frames returned earlier are
   not changed (C98). *)
From Verif Require Import AdaptersSpec AdaptersProofs AdaptersProofs2 FiltersModel OwnSpec OwnProofs.
From Coq Require Import Lia.
Open Scope Z_scope.

(* a single read returns what the adapters make of the source, whatever happened before *)
Theorem C98_one_read : forall rd l h d, offers rd h d ->
  let (h', x) := read rd l h in seen h' x = composed l d.
Proof. intros rd l h d O. pose proof (read_effect rd l h d O) as (A & _). destruct (read rd l h). exact A. Qed.

(* a reader that makes a new frame at each call: any reads through any adapters each return what
   the adapters make of the source, all frames returned keep their content, and so does everything
   that was in memory before *)
Theorem C98_new_frames : forall o ls h,
  let (h', xs) := reads (RFresh o) ls h in
  map (seen h') xs = map (fun l => composed l (Some (o_tab o))) ls /\ kept h h'.
Proof.
  intros o ls h. pose proof (reads_effect (RFresh o) (Some (o_tab o)) ls h eq_refl) as H. destruct (reads (RFresh o) ls h) as [h' xs]. apply H.
  apply forallb_forall. reflexivity.
Qed.

(* a reader that always hands out the same frame: the same holds as long as each stack has a
   masking or timestamp adapter below its first adapter that computes columns *)
Theorem C98_guarded_reads : forall r t ls h, content h r = Some t -> forallb guarded ls = true ->
  let (h', xs) := reads (RShared r) ls h in
  map (seen h') xs = map (fun l => composed l (Some t)) ls /\ kept h h'.
Proof.
  intros r t ls h C G. pose proof (reads_effect (RShared r) (Some t) ls h) as H. destruct (reads (RShared r) ls h) as [h' xs]. apply H; [|exact G].
  exists t. split; [exact C|reflexivity].
Qed.

(* ---- ColumnCombineAdapter changes the frame but may be used again *)
Lemma set_cell_twice v : forall r k, (k < List.length r)%nat -> set_cell k v (set_cell k v r) = set_cell k v r.
Proof. induction r as [|x r IH]; intros [|k] H; cbn in *; try lia; [reflexivity|]. rewrite IH by lia. reflexivity. Qed.
Lemma set_cell_end v : forall r, set_cell (List.length r) v (r ++ [v]) = r ++ [v].
Proof. induction r as [|x r IH]; cbn; [reflexivity|]. rewrite IH. reflexivity. Qed.
Lemma position_new n : forall l, position n l = None -> position n (l ++ [n]) = Some (List.length l).
Proof.
  induction l as [|x l IH]; cbn; intros H; [rewrite String.eqb_refl; reflexivity|]. destruct (String.eqb x n); [discriminate|].
  destruct (position n l); [discriminate|]. rewrite IH by reflexivity. reflexivity.
Qed.
Lemma position_lt n : forall l k, position n l = Some k -> (k < List.length l)%nat.
Proof.
  induction l as [|x l IH]; cbn; intros k H; [discriminate|]. destruct (String.eqb x n); [injection H as <-; lia|].
  destruct (position n l) as [j|]; [|discriminate]. injection H as <-. specialize (IH j eq_refl). lia.
Qed.
Lemma assign_twice {I} (t : tab I) n v : wf t -> assign (assign t n v) n v = assign t n v.
Proof.
  intros [_ L]. unfold assign. destruct (position n (tcols t)) as [k|] eqn:E; cbn [tcols trows].
  - rewrite E. f_equal. apply position_lt in E. assert (L' : forall r, In r (trows t) -> (k < List.length (snd r))%nat) by (intros r H; rewrite (L r H); exact E).
    clear L E. revert v. induction (trows t) as [|x rows IH]; intros [|c v]; cbn; try reflexivity. rewrite set_cell_twice by (apply L'; left; reflexivity).
    f_equal. apply IH. intros r H. apply L'. right. exact H.
  - rewrite (position_new _ _ E). cbn [tcols trows]. f_equal. clear E.
    revert v. induction (trows t) as [|x rows IH]; intros [|c v]; cbn; try reflexivity. rewrite <- (L x (or_introl eq_refl)) at 1. rewrite set_cell_end.
    f_equal. apply IH. intros r H. apply L. right. exact H.
Qed.
Lemma seqR_ext {A B} (f g : A -> res B) l : (forall x, In x l -> f x = g x) -> seqR (map f l) = seqR (map g l).
Proof. intros H. f_equal. apply map_ext_in. exact H. Qed.
Lemma combine_again {I} func l new (t t' : tab I) : wf t -> tcols t <> [] -> ~ In new l ->
  combine_adapter func (Some l) new (Some t) = Ok t' -> combine_adapter func (Some l) new (Some t') = Ok t' /\ wf t' /\ tcols t' <> [].
Proof.
  intros W NC NI H. unfold combine_adapter in H. cbn [basic] in H. destruct (tcols t) as [|c cs] eqn:TC; [contradiction|].
  destruct (trows t) as [|x rows] eqn:TR.
  - injection H as <-. assert (W' : wf (assign t new (map (fun _ : I * list cell => None) []))) by (apply assign_wf; [exact W|rewrite TR; reflexivity]).
    assert (R0 : forall v, trows (assign t new v) = []) by (intros v; unfold assign; destruct (position new (tcols t)); cbn; rewrite TR; reflexivity).
    assert (C0 : forall v, tcols (assign t new v) <> []) by (intros v; unfold assign; destruct (position new (tcols t)); cbn; rewrite TC; discriminate).
    split; [|split; [exact W'|apply C0]]. unfold combine_adapter. cbn [basic]. rewrite R0. destruct (tcols (assign t new _)) eqn:TC'; [apply C0 in TC'; contradiction|].
    f_equal. apply assign_twice. exact W.
  - destruct (seqR (map (column t) l)) as [vs|e] eqn:S1; [|discriminate]. cbn [bindR] in H. rewrite <- TR in H.
    set (v := map (fun k => func (map (fun v => nth k v None) vs)) (seq 0 (List.length (trows t)))) in *. injection H as <-.
    assert (LV : List.length v = List.length (trows t)) by (unfold v; rewrite map_length, seq_length; reflexivity).
    assert (XI : List.length (trows (assign t new v)) = List.length (trows t)).
    { rewrite <- (map_length fst (trows (assign t new v))), (assign_index t new v LV), map_length. reflexivity. }
    assert (C0 : tcols (assign t new v) <> []) by (unfold assign; destruct (position new (tcols t)); cbn; rewrite TC; discriminate).
    split; [|split; [apply assign_wf; assumption|exact C0]].
    unfold combine_adapter. cbn [basic]. destruct (tcols (assign t new v)) as [|c' cs'] eqn:TC'; [contradiction|]. destruct (trows (assign t new v)) as [|x' rows'] eqn:TR'; [rewrite TR in XI; discriminate|].
    rewrite (seqR_ext _ (column t)).
    + rewrite S1. cbn [bindR]. f_equal. rewrite XI. fold v. apply assign_twice. exact W.
    + intros y Hy. rewrite (column_assign t new v y W LV). destruct (String.eqb_spec y new); [subst; contradiction|reflexivity].
Qed.
Lemma combine_step func l new h r t t1 : content h r = Some t -> combine_adapter func l new (Some t) = Ok t1 ->
  exists h1, read (RShared r) [ACombine func l new] h = (h1, Ok (Some r)) /\ content h1 r = Some t1.
Proof.
  intros C E. pose proof (read_effect (RShared r) [ACombine func l new] h (Some t) (ex_intro _ t (conj C eq_refl))) as (A & _ & _).
  cbn [composed adapted] in A. rewrite E in A. cbn [bindR] in A.
  assert (R : forall y, snd (read (RShared r) [ACombine func l new] h) = Ok y -> y = Some r).
  { unfold read. cbn [call eff_stack]. intros y. destruct (eff_adapt (ACombine func l new) h (Some r)) as [h1 q] eqn:EA. destruct q as [q|e]; [|discriminate].
    cbn [snd]. intros [= <-]. f_equal. unfold eff_adapt, eff_basic in EA. destruct (get h r) as [o|] eqn:G; [|rewrite G in EA; discriminate].
    destruct (get (if o_zone o then put h r (mkObj (o_tab o) false) else h) r) as [o2|] eqn:G2; [|discriminate].
    unfold eff_combine in EA. rewrite G2 in EA. destruct (tcols (o_tab o2)); [congruence|]. destruct (trows (o_tab o2)); [congruence|].
    destruct (seqR _); congruence. }
  destruct (read (RShared r) [ACombine func l new] h) as [h1 y]. cbn [fst snd] in *. destruct y as [y|e]; [|discriminate].
  rewrite (R y eq_refl) in *. cbn [seen] in A. injection A as A. exists h1. split; [reflexivity|exact A].
Qed.
Lemma combine_loop func l new r t1 : combine_adapter func l new (Some t1) = Ok t1 -> forall k h, content h r = Some t1 ->
  exists h', reads (RShared r) (repeat [ACombine func l new] k) h = (h', repeat (Ok (Some r)) k) /\ content h' r = Some t1.
Proof.
  intros E. induction k as [|k IH]; intros h C; cbn [repeat reads].
  - exists h. split; [reflexivity|exact C].
  - destruct (combine_step func l new h r t1 t1 C E) as (h1 & -> & C1). destruct (IH h1 C1) as (h' & -> & C'). exists h'. split; [reflexivity|exact C'].
Qed.
(* with the columns to combine given and the new column not among them, reading again and again
   returns the same frame *)
Theorem C98_combine_again : forall func l new r t h k, content h r = Some t -> wf t -> tcols t <> [] -> ~ In new l -> (forall n, In n l -> In n (tcols t)) ->
  let (h', xs) := reads (RShared r) (repeat [ACombine func (Some l) new] k) h in
  map (seen h') xs = repeat (composed [ACombine func (Some l) new] (Some t)) k.
Proof.
  intros func l new r t h k C W NC NI SUB.
  assert (E : exists t1, combine_adapter func (Some l) new (Some t) = Ok t1).
  { unfold combine_adapter. cbn [basic]. destruct (tcols t) eqn:TC; [contradiction|]. destruct (trows t) eqn:TR; [eexists; reflexivity|].
    assert (S1 : exists vs, seqR (map (column t) l) = Ok vs).
    { clear NI. induction l as [|n l IH]; cbn [map seqR]; [eexists; reflexivity|]. rewrite column_ok by (rewrite TC; apply SUB; left; reflexivity). cbn [bindR].
      destruct IH as (vs & ->); [intros m Hm; apply SUB; right; exact Hm|]. eexists. reflexivity. }
    destruct S1 as (vs & ->). eexists. reflexivity. }
  destruct E as (t1 & E). destruct (combine_again func l new t t1 W NC NI E) as (E1 & _).
  destruct k as [|k]; cbn [repeat reads]; [reflexivity|]. destruct (combine_step func (Some l) new h r t t1 C E) as (h1 & -> & C1).
  destruct (combine_loop func (Some l) new r t1 E1 k h1 C1) as (h' & -> & C'). cbn [map].
  assert (X : composed [ACombine func (Some l) new] (Some t) = Ok (Some t1)) by (cbn [composed adapted]; rewrite E; reflexivity). rewrite X.
  cbn [seen]. rewrite C'. f_equal. clear E1. induction k as [|k IH]; cbn; [reflexivity|]. rewrite C', IH. reflexivity.
Qed.
Print Assumptions C98_one_read.
Print Assumptions C98_new_frames.
Print Assumptions C98_guarded_reads.
Print Assumptions C98_combine_again.

(* ---- concrete readers *)
Section Ex98.
Open Scope string_scope.
Open Scope Z_scope.
(* calc_anomaly with a moving average over three days *)
Definition anomaly3 (s : list (cell * cell)) : list cell :=
  map (fun p => option_map Qred (snd p)) (calc_anomaly_ma (map (fun p => (match fst p with Some q => q | None => 0%Q end, snd p)) s) 3%Q).
Definition sum_row (l : list cell) : cell := Some (Qred (fold_right (fun c acc => match c with Some x => (x + acc)%Q | None => acc end) 0%Q l)).
Definition tab98 : tab cell := mkTab ["sm"; "flag"] [(Some 1%Q, [Some 3%Q; Some 0%Q]); (Some 2%Q, [Some 6%Q; Some 0%Q]); (Some 3%Q, [Some 0%Q; Some 1%Q]); (Some 4%Q, [Some 9%Q; Some 0%Q])].
Definition valid98 : adapter := ASelf (OpName "==") (Some 0%Q) "flag".
Definition anom98 : adapter := AAnomaly anomaly3 (Some ["sm"]).
Example C98_ex_guarded :
  let ls := [[valid98; anom98]; [ABasic]; [valid98; anom98; ACombine sum_row None "sum"]; [valid98; anom98]] in
  forallb guarded ls = true /\
  (let (h', xs) := reads (RShared 0%nat) ls [mkObj tab98 true] in
   map (seen h') xs = map (fun l => composed l (Some tab98)) ls) /\
  composed [valid98; anom98] (Some tab98) =
    Ok (Some (mkTab ["sm"; "flag"] [(Some 1%Q, [Some (-3 # 2)%Q; Some 0%Q]); (Some 2%Q, [Some (3 # 2)%Q; Some 0%Q]); (Some 4%Q, [Some 0%Q; Some 0%Q])])).
Proof. split; [reflexivity|]. split; vm_compute; reflexivity. Qed.
Example C98_ex_new_frames :
  let ls := [[anom98]; [anom98]; []] in
  let (h', xs) := reads (RFresh (mkObj tab98 false)) ls [] in
  map (seen h') xs = map (fun l => composed l (Some tab98)) ls.
Proof. vm_compute. reflexivity. Qed.
Example C98_ex_combine :
  wf tab98 /\ (let (h', xs) := reads (RShared 0%nat) (repeat [ACombine sum_row (Some ["sm"; "flag"]) "sum"] 3) [mkObj tab98 false] in
  map (seen h') xs = repeat (composed [ACombine sum_row (Some ["sm"; "flag"]) "sum"] (Some tab98)) 3).
Proof.
  split; [|vm_compute; reflexivity]. split; [repeat constructor; cbn; intuition discriminate|]. cbn. intros r [<-|[<-|[<-|[<-|[]]]]]; reflexivity.
Qed.

(* a reader that keeps its frame: the second read through an AnomalyAdapter returns the anomaly of
   the anomaly, and the frame returned by the first read changes with it *)
Theorem C98_anomaly_again_refuted : exists h' xs,
  reads (RShared 0%nat) [[anom98]; [anom98]] [mkObj tab98 false] = (h', xs) /\
  map (seen h') xs = [composed [anom98; anom98] (Some tab98); composed [anom98; anom98] (Some tab98)] /\
  composed [anom98; anom98] (Some tab98) <> composed [anom98] (Some tab98).
Proof. eexists. eexists. split; [vm_compute; reflexivity|]. split; [vm_compute; reflexivity|]. vm_compute. discriminate. Qed.
(* two datasets on the same reader, one of them through an AnomalyAdapter: the other one gets the
   anomalies, too, even if it was read first *)
Theorem C98_other_dataset_refuted : exists h' xs,
  reads (RShared 0%nat) [[ABasic]; [anom98]] [mkObj tab98 false] = (h', xs) /\
  map (seen h') xs = [composed [anom98] (Some tab98); composed [anom98] (Some tab98)] /\
  composed [anom98] (Some tab98) <> composed [ABasic] (Some tab98).
Proof. eexists. eexists. split; [vm_compute; reflexivity|]. split; [vm_compute; reflexivity|]. vm_compute. discriminate. Qed.
(* ColumnCombineAdapter without columns combines its own column at the second read *)
Theorem C98_combine_all_again_refuted : exists h' xs,
  reads (RShared 0%nat) [[ACombine sum_row None "sum"]; [ACombine sum_row None "sum"]] [mkObj tab98 false] = (h', xs) /\
  map (seen h') xs = [composed [ACombine sum_row None "sum"; ACombine sum_row None "sum"] (Some tab98); composed [ACombine sum_row None "sum"; ACombine sum_row None "sum"] (Some tab98)] /\
  composed [ACombine sum_row None "sum"; ACombine sum_row None "sum"] (Some tab98) <> composed [ACombine sum_row None "sum"] (Some tab98).
Proof. eexists. eexists. split; [vm_compute; reflexivity|]. split; [vm_compute; reflexivity|]. vm_compute. discriminate. Qed.
(* a read that fails leaves the columns before the missing one changed *)
Theorem C98_half_changed_refuted : exists h', 
  read (RShared 0%nat) [AAnomaly anomaly3 (Some ["sm"; "missing"])] [mkObj tab98 false] = (h', Err EKey) /\
  content h' 0%nat <> Some tab98.
Proof. eexists. split; [vm_compute; reflexivity|]. vm_compute. discriminate. Qed.
(* and every read drops the time zone of the reader's own frame *)
Theorem C98_zone_dropped_refuted : exists h' x,
  read (RShared 0%nat) [ABasic] [mkObj tab98 true] = (h', x) /\ get h' 0%nat = Some (mkObj tab98 false).
Proof. eexists. eexists. split; vm_compute; reflexivity. Qed.
End Ex98.
Print Assumptions C98_anomaly_again_refuted.
Print Assumptions C98_other_dataset_refuted.
Print Assumptions C98_combine_all_again_refuted.
Print Assumptions C98_half_changed_refuted.
Print Assumptions C98_zone_dropped_refuted.
