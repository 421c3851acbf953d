(* FTMetrics, RollingMetrics and PairwiseIntercomparisonMetrics. *)
From Coq Require Import Reals Qreals List Lra Lia.
From Verif Require Import Base BaseProofs GroupingModel RStats RStatsProofs MetricsSpec MetricsModel MetricsProofs RollingModel TcolModel ConfintModel
  ConfintProofs DfMetricsProofs.
From Verif Require Import CalcModel CalcSpec CalcProofs.
Open Scope string_scope.
Open Scope list_scope.

(* ---- positions ---- *)
Lemma where_from_ext l : forall i j, List.length (where_from i l) = List.length (where_from j l).
Proof. induction l as [|b l IH]; intros i j; [reflexivity|]. cbn. rewrite !app_length. rewrite (IH (S i) (S j)). destruct b; reflexivity. Qed.
Lemma where_from_in l : forall i p, In p (where_from i l) <-> (i <= p)%nat /\ nth_error l (p - i) = Some true.
Proof.
  induction l as [|b l IH]; intros i p.
  - cbn. split; [intros []|]. intros [_ E]. destruct (p - i)%nat; discriminate.
  - cbn [where_from]. rewrite in_app_iff, IH. split.
    + intros [I|[L E]].
      * destruct b; [|destruct I]. destruct I as [<-|[]]. split; [lia|]. rewrite Nat.sub_diag. reflexivity.
      * split; [lia|]. replace (p - i)%nat with (S (p - S i)) by lia. exact E.
    + intros [L E]. destruct (Nat.eq_dec p i) as [->|N].
      * left. rewrite Nat.sub_diag in E. cbn in E. injection E as ->. left. reflexivity.
      * right. split; [lia|]. replace (p - i)%nat with (S (p - S i)) in E by lia. exact E.
Qed.
Lemma where_from_nodup l : forall i, NoDup (where_from i l).
Proof.
  induction l as [|b l IH]; intros i; [constructor|]. cbn. destruct b; [|apply IH]. cbn. constructor; [|apply IH].
  intros I. apply where_from_in in I as [L _]. lia.
Qed.
Lemma np_where_in l p : In p (np_where l) <-> nth_error l p = Some true.
Proof. unfold np_where. rewrite where_from_in, Nat.sub_0_r. split; [intros [_ E]; exact E|intros E; split; [lia|exact E]]. Qed.
Lemma where_map_length {A} (f : A -> bool) l : List.length (np_where (map f l)) = List.length (filter f l).
Proof.
  unfold np_where. induction l as [|x l IH]; [reflexivity|]. cbn. rewrite app_length, (where_from_ext _ 1 0), IH.
  destruct (f x); reflexivity.
Qed.
(* the positions found in a selected part *)
Lemma count_selected (h : cell -> bool) temp (ps : list nat) : (forall p, In p ps -> (p < List.length temp)%nat) -> NoDup ps ->
  counted (fun i => In i ps /\ exists t, nth_error temp i = Some t /\ h t = true)
    (List.length (np_where (map h (at_positions temp ps)))).
Proof.
  intros B N. rewrite where_map_length. exists (filter (fun i => h (nth i temp None)) ps).
  split; [apply NoDup_filter, N|]. split.
  - unfold at_positions. clear. induction ps as [|p ps IH]; [reflexivity|]. cbn. destruct (h (nth p temp None)); cbn; rewrite IH; reflexivity.
  - intros i. rewrite filter_In. split; intros [I H]; (split; [exact I|]).
    + exists (nth i temp None). split; [apply nth_error_nth', B, I|exact H].
    + destruct H as (t & E & H). apply nth_error_nth with (d := None) in E. rewrite E. exact H.
Qed.

Section Ft.
Variable min_obs : nat.
Variable meta : metadata.
Definition ft_names : list string := ["ssf_fr_temp_un"; "ssf_fr_temp_fr"; "ssf_un_temp_fr"; "ssf_un_temp_un"; "n_obs"].

Lemma ft_template_single k v : In (k, v) [(["ssf_fr_temp_un"], nan); (["ssf_fr_temp_fr"], nan); (["ssf_un_temp_fr"], nan); (["ssf_un_temp_un"], nan); (["n_obs"], int0)] ->
  exists c, v = Arr [c].
Proof. intros I. cbn in I. repeat (destruct I as [I|I]; [injection I as _ <-; eexists; reflexivity|]). destruct I. Qed.
Lemma ft_has_base : has_base (ft_template meta) meta.
Proof. apply has_base_update; [apply ft_template_single|apply base_has]. Qed.

Lemma ft_ok flag other f i :
  good_meta meta i ft_names -> In "ref" (f_cols f) -> In other (f_cols f) ->
  exists d, ft_calc min_obs meta flag other f i = Ok d /\ identified d i /\ meta_copied d meta i /\
    ((nrows f < min_obs)%nat -> insufficient d (ft_template meta) meta) /\
    ((min_obs <= nrows f)%nat -> exists ssf temp, column f "ref" = Ok ssf /\ column f other = Ok temp /\
       succeeded d (nrows f) /\ forall k v, In (k, v) (ft_values flag f ssf temp) -> holds d k v).
Proof.
  intros G CR CO. unfold ft_calc. destruct (meta_calc_ok (ft_template meta) meta i ft_names ft_has_base G) as (d & E & PREP).
  rewrite E. cbn [bindR]. apply prepared_weaken in PREP. destruct (Nat.ltb_spec (nrows f) min_obs) as [L|L].
  - destruct (finish_insufficient d _ meta i ft_names PREP ft_has_base G) as (d' & E' & ID & MC & INS & _).
    exists d'. split; [exact E'|]. split; [exact ID|]. split; [exact MC|]. split; [intros _; exact INS|lia].
  - destruct (column_ok f "ref" CR) as (x & EX & _). destruct (column_ok f other CO) as (y & EY & _).
    rewrite EX, EY. cbn [bindR].
    destruct (finish_ok d (ft_template meta) meta i ft_names (ft_values flag f x y) PREP ft_has_base G) as (d0 & d' & E0 & E1 & ID & MC & SS & VAL & _).
    + intros k v I. unfold ft_values in I. cbn in I.
      repeat (destruct I as [I|I]; [injection I as <- _; split;
        [apply single_update_in; [apply ft_template_single|cbn; auto 10]|intros s EQ; injection EQ as <-; cbn; auto 10]|]). destruct I.
    + cbn. intuition discriminate.
    + intros s I J. cbn in I, J. intuition (subst; discriminate).
    + cbn. nodup_strings.
    + exists d'. rewrite E0. cbn [bindR]. split; [exact E1|]. split; [exact ID|]. split; [exact MC|]. split; [lia|]. intros _.
      exists x, y. split; [reflexivity|]. split; [reflexivity|]. split; [|exact VAL]. split; [exact SS|]. apply VAL. unfold ft_values. cbn. auto 10.
Qed.
End Ft.

Lemma counted_ext P Q n : (forall i, P i <-> Q i) -> counted P n -> counted Q n.
Proof. intros H (l & N & L & I). exists l. split; [exact N|]. split; [exact L|]. intros i. rewrite I. apply H. Qed.

Lemma c_neg_spec c : c_neg c = true <-> below_zero c.
Proof.
  destruct c as [q|]; cbn; [|split; [discriminate|intros (x & E & _); discriminate]]. rewrite Bool.negb_true_iff.
  split.
  - intros E. exists q. split; [reflexivity|]. apply Qnot_le_lt. intros L. apply Qle_bool_iff in L. congruence.
  - intros (x & E & L). injection E as <-. apply Bool.not_true_is_false. intros B. apply Qle_bool_iff in B. exact (Qlt_not_le _ _ L B).
Qed.
Lemma c_nonneg_spec c : c_nonneg c = true <-> not_below_zero c.
Proof.
  destruct c as [q|]; cbn; [|split; [discriminate|intros (x & E & _); discriminate]]. rewrite Qle_bool_iff. split.
  - intros L. exists q. auto.
  - intros (x & E & L). injection E as <-. exact L.
Qed.
Lemma c_eqb_spec flag c : c_eqb flag c = true <-> frozen_flag flag c.
Proof.
  destruct c as [q|]; cbn; [|split; [discriminate|intros (x & E & _); discriminate]]. rewrite Qeq_bool_iff. split.
  - intros L. exists q. auto.
  - intros (x & E & L). injection E as <-. exact L.
Qed.

(* the number of a class in the model is the number of rows of the class *)
Lemma ft_class (g h : cell -> bool) ssf temp : List.length ssf = List.length temp ->
  counted (fun i => exists s t, nth_error ssf i = Some s /\ nth_error temp i = Some t /\ g s = true /\ h t = true)
    (List.length (np_where (map h (at_positions temp (np_where (map g ssf)))))).
Proof.
  intros L. refine (counted_ext _ _ _ _ (count_selected h temp (np_where (map g ssf)) _ _)).
  - intros i. rewrite np_where_in, nth_error_map. split.
    + intros (E & t & ET & H). destruct (nth_error ssf i) as [s|]; [|discriminate]. cbn in E. injection E as E. exists s, t. auto.
    + intros (s & t & ES & ET & GS & H). rewrite ES. cbn. rewrite GS. split; [reflexivity|]. exists t. auto.
  - intros p I. apply np_where_in in I. rewrite <- L. rewrite <- (map_length g ssf). apply nth_error_Some. congruence.
  - apply where_from_nodup.
Qed.

(* ---- the four classes add up ---- *)
Lemma ft_partition (g : cell -> bool) ssf : forall temp, List.length ssf = List.length temp ->
  (List.length (np_where (map c_nonneg (at_positions temp (np_where (map g ssf)))))
   + List.length (np_where (map c_neg (at_positions temp (np_where (map g ssf)))))
   + List.length (np_where (map c_neg (at_positions temp (np_where (map (fun c => negb (g c)) ssf)))))
   + List.length (np_where (map c_nonneg (at_positions temp (np_where (map (fun c => negb (g c)) ssf)))))
   + List.length (filter (fun t => negb (notna t)) temp) = List.length temp)%nat.
Proof.
  assert (SHIFT : forall (g : cell -> bool) s ssf (t : cell) temp, at_positions (t :: temp) (np_where (map g (s :: ssf))) =
    (if g s then [t] else []) ++ at_positions temp (np_where (map g ssf))).
  { intros g0 s ssf0 t temp0. unfold np_where, at_positions. cbn [map where_from]. rewrite map_app. f_equal; [destruct (g0 s); reflexivity|].
    generalize (map g0 ssf0). intros l. replace (where_from 1 l) with (map S (where_from 0 l)).
    - rewrite map_map. reflexivity.
    - clear. generalize 0%nat. induction l as [|b l IH]; intros j; [reflexivity|]. cbn. rewrite map_app, IH. destruct b; reflexivity. }
  induction ssf as [|s ssf IH]; intros [|t temp] L; try discriminate; [reflexivity|].
  rewrite !SHIFT, !where_map_length, !filter_app, !app_length. cbn in L. injection L as L. specialize (IH temp L).
  rewrite !where_map_length in IH. cbn [filter notna negb].
  assert (T : (c_nonneg t = true /\ c_neg t = false /\ notna t = true) \/ (c_nonneg t = false /\ c_neg t = true /\ notna t = true) \/
              (c_nonneg t = false /\ c_neg t = false /\ notna t = false)).
  { destruct t as [q|]; cbn; [|auto]. destruct (Qle_bool 0 q); cbn; auto. }
  destruct T as [(A & B & C)|[(A & B & C)|(A & B & C)]]; destruct (g s); cbn [filter negb List.length app]; rewrite A, B, C; cbn [filter negb List.length app]; lia.
Qed.

(* ---- RollingMetrics ---- *)
Section Roll.
Variable min_obs : nat.
Variable meta : metadata.
Variable rolling : list ts -> list cell -> list cell -> list rout.
Definition rolling_names : list string := ["R"; "p_R"; "RMSD"].
Lemma rolling_has_base : has_base (rolling_template meta) meta.
Proof. apply has_base_update; [apply metric_template_single|apply base_has]. Qed.

Lemma rolling_ok f i : good_meta meta i (rolling_names ++ ["time"]) -> (2 <= List.length (f_cols f))%nat ->
  exists d, rolling_calc min_obs meta rolling f i = Ok d /\ identified d i /\ meta_copied d meta i /\
    ((nrows f < min_obs)%nat -> insufficient d (rolling_template meta) meta) /\
    ((min_obs <= nrows f)%nat -> holds d ["status"] (RInt 0) /\
       (let out := rolling (map fst (f_rows f)) (col_at f 0) (col_at f 1) in
        ds_get d ["time"] = Some (Rows [map (fun r => RTime (fst r)) (f_rows f)]) /\
        ds_get d ["R"] = Some (Rows [map (fun o => RNum (omap fst (fst o))) out]) /\
        ds_get d ["p_R"] = Some (Rows [map (fun o => RNum (omap snd (fst o))) out]) /\
        ds_get d ["RMSD"] = Some (Rows [map (fun o => RNum (snd o)) out]))) /\
    (* a count is not reported *)
    ((forall m, meta = Some m -> ~ In "n_obs" (map fst m)) -> ds_get d ["n_obs"] = None).
Proof.
  intros G C2. unfold rolling_calc. destruct (meta_calc_ok (rolling_template meta) meta i _ rolling_has_base G) as (d & E & PREP).
  rewrite E. cbn [bindR].
  assert (NOBS : (forall m, meta = Some m -> ~ In "n_obs" (map fst m)) -> ds_get d ["n_obs"] = None).
  { intros H. destruct PREP as (_ & _ & _ & OUT). rewrite OUT.
    - unfold rolling_template. rewrite get_update_out; [|rewrite metric_template_keys; cbn; intuition discriminate].
      unfold base_template. destruct meta as [m|]; [|reflexivity]. rewrite get_update_out; [reflexivity|].
      rewrite map_map. cbn. intros I. apply in_map_iff in I as (e & EQ & I). apply (H m eq_refl). apply in_map_iff. exists e. split; [congruence|exact I].
    - intros s EQ. assert (s = "n_obs") by congruence. subst s. split; [cbn; intuition discriminate|exact H]. }
  destruct (Nat.ltb_spec (nrows f) min_obs) as [L|L].
  - destruct (finish_insufficient d _ meta i _ (prepared_weaken _ _ _ _ PREP) rolling_has_base G) as (d' & E' & ID & MC & INS & KEEP).
    exists d'. split; [exact E'|]. split; [exact ID|]. split; [exact MC|]. split; [intros _; exact INS|]. split; [lia|].
    intros H. rewrite KEEP by discriminate. apply NOBS, H.
  - unfold column_at. rewrite !(proj2 (Nat.ltb_lt _ _)) by lia. cbn [bindR].
    destruct PREP as (SG & ID & MC & OUT). set (d4 := ds_set (ds_set (ds_set (ds_set d _ _) _ _) _ _) _ _).
    assert (KEEP : forall k, k <> ["time"] -> k <> ["R"] -> k <> ["p_R"] -> k <> ["RMSD"] -> ds_get d4 k = ds_get d k).
    { intros k N1 N2 N3 N4. unfold d4. rewrite !get_set_other by congruence. reflexivity. }
    assert (S4 : single d4 ["status"]).
    { unfold single. rewrite KEEP by discriminate. apply SG. apply rolling_has_base. cbn. auto. }
    rewrite status_set by exact S4. eexists. split; [reflexivity|].
    assert (KEEP2 : forall k, k <> ["status"] -> k <> ["time"] -> k <> ["R"] -> k <> ["p_R"] -> k <> ["RMSD"] -> ds_get (ds_set d4 ["status"] (Arr [RInt OK])) k = ds_get d k).
    { intros k N0 N1 N2 N3 N4. rewrite get_set_other by congruence. apply KEEP; assumption. }
    split; [|split; [|split; [lia|split]]].
    + refine (keep_identified d _ i _ ID). intros s I. cbn in I. apply KEEP2; intros EQ; injection EQ as ->; intuition discriminate.
    + refine (keep_meta d _ meta i _ MC). intros m s EM I. destruct (G m EM) as (_ & DIS & _).
      apply KEEP2; intros EQ; injection EQ as ->; apply (DIS _ I); cbn; auto 12.
    + intros _. split; [apply get_set_same|]. cbn zeta. unfold d4.
      split; [|split; [|split]]; rewrite get_set_other by discriminate; rewrite ?get_set; cbn [k_eqb]; rewrite ?map_map; reflexivity.
    + intros H. rewrite KEEP2 by discriminate. apply NOBS, H.
Qed.
End Roll.

(* ---- PairwiseIntercomparisonMetrics ---- *)
Lemma all_some_map {A} (g : A -> R) l : all_some (map (fun x => Some (g x)) l) = Some (map g l).
Proof. induction l as [|x l IH]; [reflexivity|]. cbn. rewrite IH. reflexivity. Qed.

Lemma dropna_wf f : wf_frame f -> wf_frame (dropna f).
Proof. intros W r I. cbn in *. apply filter_In in I as [I _]. apply W, I. Qed.

Lemma nth_present (vs : list (option Q)) i : (i < List.length vs)%nat -> (forall x, In x vs -> notna x = true) ->
  nth_error vs i = Some (Some (match nth i vs None with Some q => q | None => 0%Q end)).
Proof.
  intros LT H. rewrite (nth_error_nth' _ None LT). specialize (H _ (nth_In vs None LT)). destruct (nth i vs None); [reflexivity|discriminate].
Qed.
Lemma row_pair_present i j (vs : list (option Q)) a b : forallb notna vs = true -> nth_error vs i = Some (Some a) ->
  nth_error vs j = Some (Some b) -> row_pair i j vs = [(Q2R a, Q2R b)].
Proof. intros E A B. unfold row_pair, cell. rewrite E, A, B. reflexivity. Qed.
Lemma row_pair_absent i j (vs : list (option Q)) : forallb notna vs = false -> row_pair i j vs = [].
Proof. intros E. unfold row_pair, cell. rewrite E. reflexivity. Qed.
(* the columns of complete rows *)
Lemma col_complete f i : wf_frame f -> (i < List.length (f_cols f))%nat ->
  exists g : frow -> Q, col_at (dropna f) i = map (fun r => Some (g r)) (f_rows (dropna f)) /\
    forall r, In r (f_rows (dropna f)) -> nth_error (snd r) i = Some (Some (g r)).
Proof.
  intros W L. exists (fun r => match nth i (snd r) None with Some q => q | None => 0%Q end).
  assert (P : forall r, In r (f_rows (dropna f)) -> nth_error (snd r) i = Some (Some (match nth i (snd r) None with Some q => q | None => 0%Q end))).
  { intros r I. cbn in I. apply filter_In in I as [I H]. rewrite forallb_forall in H.
    assert (LT : (i < List.length (snd r))%nat) by (rewrite (W r I); exact L).
    exact (nth_present _ _ LT H). }
  split; [|exact P]. unfold col_at. apply map_ext_in. intros r I. specialize (P r I). apply nth_error_nth with (d := None) in P. exact P.
Qed.

Lemma complete_map {A} (g h : A -> Q) l :
  complete (map (fun x => Some (g x)) l) (map (fun x => Some (h x)) l) = Some (map (fun x => (Q2R (g x), Q2R (h x))) l).
Proof.
  unfold complete, rcol. rewrite !map_map. cbn [omap]. rewrite !all_some_map. cbn [obind omap]. f_equal.
  induction l as [|x l IH]; [reflexivity|]. cbn. rewrite IH. reflexivity.
Qed.

Lemma obs_generic {A} (vs : A -> list (option Q)) i j (g h : A -> Q) rows :
  (forall r, In r (filter (fun r => forallb notna (vs r)) rows) -> nth_error (vs r) i = Some (Some (g r))) ->
  (forall r, In r (filter (fun r => forallb notna (vs r)) rows) -> nth_error (vs r) j = Some (Some (h r))) ->
  flat_map (fun r => row_pair i j (vs r)) rows = map (fun r => (Q2R (g r), Q2R (h r))) (filter (fun r => forallb notna (vs r)) rows).
Proof.
  induction rows as [|r rows IH]; intros Pg Ph; [reflexivity|]. cbn [flat_map filter] in *.
  destruct (forallb notna (vs r)) eqn:EB.
  - rewrite (row_pair_present i j (vs r) (g r) (h r) EB (Pg r (or_introl eq_refl)) (Ph r (or_introl eq_refl))).
    cbn [map app]. f_equal. apply IH; intros r' I; [apply Pg|apply Ph]; right; exact I.
  - rewrite row_pair_absent by exact EB. cbn [app]. apply IH; assumption.
Qed.

Lemma observations_complete f i j : wf_frame f -> (i < List.length (f_cols f))%nat -> (j < List.length (f_cols f))%nat ->
  complete (col_at (dropna f) i) (col_at (dropna f) j) = Some (observations f i j) /\
  List.length (observations f i j) = nrows (dropna f).
Proof.
  intros W Li Lj. destruct (col_complete f i W Li) as (g & Eg & Pg). destruct (col_complete f j W Lj) as (h & Eh & Ph).
  rewrite Eg, Eh, complete_map.
  assert (O : observations f i j = map (fun r => (Q2R (g r), Q2R (h r))) (f_rows (dropna f))).
  { exact (obs_generic snd i j g h (f_rows f) Pg Ph). }
  rewrite O. split; [reflexivity|]. unfold nrows. apply map_length.
Qed.
