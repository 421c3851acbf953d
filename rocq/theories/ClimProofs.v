(* Lemmas about time spans, ranges and means of climatologies. *)
From Verif Require Import BaseProofs Calendar FiltersModel FiltersSpec FiltersProofs AnomalySpec AnomalyProofs ClimModel.
From Coq Require Import Lqa Sorting.Sorted.
Open Scope Z_scope.

(* ---- time span ---- *)
Definition in_span (before after : option Q) (x : obs) : bool := qle_opt before (Some (o_jd x)) && qle_opt (Some (o_jd x)) after.
Lemma Qle_bool_trans x y z : Qle_bool x y = true -> Qle_bool y z = true -> Qle_bool x z = true.
Proof. rewrite !Qle_bool_iff. apply Qle_trans. Qed.
Lemma monotonic_sorted (le : Q -> Q -> bool) (T : forall x y z, le x y = true -> le y z = true -> le x z = true) l :
  monotonic le l = true <-> StronglySorted (fun x y => le x y = true) l.
Proof.
  induction l as [|x [|y r] IH].
  - split; [constructor|reflexivity].
  - split; [repeat constructor|reflexivity].
  - cbn [monotonic]. split.
    + intros H. apply andb_prop in H. destruct H as [H1 H2]. pose proof (proj1 IH H2) as S. constructor; [exact S|]. constructor; [exact H1|]. inversion S as [|? ? S2 F]; subst. rewrite Forall_forall in *. intros u U. exact (T _ _ _ H1 (F u U)).
    + intros S. inversion S as [|? ? S2 F]; subst. inversion F; subst. rewrite H1. apply (proj2 IH). exact S2.
Qed.
Lemma take_all {A} (p : A -> bool) l : Forall (fun x => p x = true) l -> take_while p l = l.
Proof. induction 1 as [|x l H F IH]; cbn; [reflexivity|]. rewrite H, IH. reflexivity. Qed.
Lemma take_filter {A} (R : A -> A -> Prop) (p : A -> bool) l : (forall x y, R x y -> p y = true -> p x = true) -> StronglySorted R l -> take_while p l = filter p l.
Proof.
  intros H. induction 1 as [|x l S IH F]; cbn; [reflexivity|]. destruct (p x) eqn:E; [rewrite IH; reflexivity|]. symmetry.
  assert (G : forall y, In y l -> p y = false). { intros y I. rewrite Forall_forall in F. destruct (p y) eqn:E2; [|reflexivity]. rewrite (H x y (F y I) E2) in E. discriminate. }
  clear - G. induction l as [|y l IH]; cbn; [reflexivity|]. rewrite (G y (or_introl eq_refl)). apply IH. intros z I. apply G. right. exact I.
Qed.
Lemma skip_filter {A} (R : A -> A -> Prop) (p : A -> bool) l : (forall x y, R x y -> p y = true -> p x = true) -> StronglySorted R l -> skip_while p l = filter (fun x => negb (p x)) l.
Proof.
  intros H. induction 1 as [|x l S IH F]; cbn; [reflexivity|]. destruct (p x) eqn:E; cbn; [exact IH|]. f_equal. symmetry.
  assert (G : forall y, In y l -> p y = false). { intros y I. rewrite Forall_forall in F. destruct (p y) eqn:E2; [|reflexivity]. rewrite (H x y (F y I) E2) in E. discriminate. }
  clear - G. induction l as [|y l IH]; cbn; [reflexivity|]. rewrite (G y (or_introl eq_refl)). cbn. f_equal. apply IH. intros z I. apply G. right. exact I.
Qed.
Lemma sorted_filter {A} (R : A -> A -> Prop) p (l : list A) : StronglySorted R l -> StronglySorted R (filter p l).
Proof.
  induction 1 as [|x l S IH F]; cbn; [constructor|]. destruct (p x); [|exact IH]. constructor; [exact IH|]. rewrite Forall_forall in *. intros y I. apply filter_In in I. apply F. tauto.
Qed.
Lemma filter_twice {A} (p q : A -> bool) l : filter p (filter q l) = filter (fun x => q x && p x) l.
Proof. induction l as [|x l IH]; cbn; [reflexivity|]. destruct (q x) eqn:E; cbn; [destruct (p x); rewrite IH; reflexivity|exact IH]. Qed.
Lemma sorted_map {A B} (R : B -> B -> Prop) (f : A -> B) l : StronglySorted R (map f l) <-> StronglySorted (fun x y => R (f x) (f y)) l.
Proof.
  induction l as [|x l IH]; cbn; [split; constructor|]. split; intros S; inversion S; subst; constructor; try (apply IH; assumption); rewrite Forall_forall in *; intros y I.
  - apply H2. apply in_map. exact I.
  - apply in_map_iff in I. destruct I as [z [<- Z]]. apply H2. exact Z.
Qed.
Lemma qle_mono_left b x y : Qle_bool x y = true -> qle_opt b (Some x) = true -> qle_opt b (Some y) = true.
Proof. destruct b as [b|]; cbn; [|reflexivity]. intros H1 H2. exact (Qle_bool_trans _ _ _ H2 H1). Qed.
Lemma qle_mono_right a x y : Qle_bool x y = true -> qle_opt (Some y) a = true -> qle_opt (Some x) a = true.
Proof. destruct a as [a|]; cbn; [|reflexivity]. intros H1 H2. exact (Qle_bool_trans _ _ _ H1 H2). Qed.
Lemma contra_b (a b : bool) : (a = true -> b = true) -> negb b = true -> negb a = true.
Proof. destruct a, b; cbn; intuition. Qed.
Lemma truncate_up before after ser : StronglySorted (fun x y => (o_jd x <= o_jd y)%Q) ser -> qle_opt before after = true ->
  truncate before after ser = Ok (filter (in_span before after) ser).
Proof.
  intros S B. unfold truncate. cbv zeta.
  assert (S2 : StronglySorted (fun x y => Qle_bool (o_jd x) (o_jd y) = true) ser). { clear B. induction S as [|x l S IH F]; constructor; [exact IH|]. rewrite Forall_forall in *. intros y I. apply Qle_bool_iff. exact (F y I). }
  assert (M : monotonic Qle_bool (map o_jd ser) = true). { apply monotonic_sorted; [exact Qle_bool_trans|]. apply sorted_map. exact S2. }
  rewrite M, B. cbn [orb negb]. f_equal.
  rewrite (skip_filter (fun x y => Qle_bool (o_jd x) (o_jd y) = true)); [|intros x y H; apply contra_b; apply qle_mono_left; exact H|exact S2].
  rewrite (take_filter (fun x y => Qle_bool (o_jd x) (o_jd y) = true)); [|intros x y H; rewrite !negb_involutive; apply qle_mono_right; exact H|apply sorted_filter; exact S2].
  rewrite filter_twice. apply filter_ext. intros x. rewrite !negb_involutive. reflexivity.
Qed.
Lemma truncate_down before after ser : StronglySorted (fun x y => (o_jd y <= o_jd x)%Q) ser -> qle_opt before after = true ->
  truncate before after ser = Ok (filter (in_span before after) ser).
Proof.
  intros S B. destruct (monotonic Qle_bool (map o_jd ser)) eqn:M.
  { apply truncate_up; [|exact B]. apply monotonic_sorted in M; [|exact Qle_bool_trans]. apply sorted_map in M. clear - M. induction M as [|x l S IH F]; constructor; [exact IH|]. rewrite Forall_forall in *. intros y I. apply Qle_bool_iff. exact (F y I). }
  unfold truncate. cbv zeta. rewrite M.
  assert (S2 : StronglySorted (fun x y => Qle_bool (o_jd y) (o_jd x) = true) ser). { clear B M. induction S as [|x l S IH F]; constructor; [exact IH|]. rewrite Forall_forall in *. intros y I. apply Qle_bool_iff. exact (F y I). }
  assert (M2 : monotonic (fun x y => Qle_bool y x) (map o_jd ser) = true). { apply monotonic_sorted; [intros x y z H1 H2; exact (Qle_bool_trans _ _ _ H2 H1)|]. apply sorted_map. exact S2. }
  rewrite M2, B. cbn [orb negb]. f_equal.
  rewrite (skip_filter (fun x y => Qle_bool (o_jd y) (o_jd x) = true)); [|intros x y H; apply contra_b; apply qle_mono_right; exact H|exact S2].
  rewrite (take_filter (fun x y => Qle_bool (o_jd y) (o_jd x) = true)); [|intros x y H; rewrite !negb_involutive; apply qle_mono_left; exact H|apply sorted_filter; exact S2].
  rewrite filter_twice. apply filter_ext. intros x. rewrite !negb_involutive. unfold in_span. apply andb_comm.
Qed.
Lemma truncate_unsorted before after ser : ~ StronglySorted (fun x y => (o_jd x <= o_jd y)%Q) ser -> ~ StronglySorted (fun x y => (o_jd y <= o_jd x)%Q) ser ->
  truncate before after ser = Err EValue.
Proof.
  intros U D. unfold truncate. cbv zeta. destruct (monotonic Qle_bool (map o_jd ser)) eqn:M.
  { exfalso. apply U. apply monotonic_sorted in M; [|exact Qle_bool_trans]. apply sorted_map in M. clear - M. induction M as [|x l S IH F]; constructor; [exact IH|]. rewrite Forall_forall in *. intros y I. apply Qle_bool_iff. exact (F y I). }
  destruct (monotonic (fun x y => Qle_bool y x) (map o_jd ser)) eqn:M2; [|reflexivity].
  exfalso. apply D. apply monotonic_sorted in M2; [|intros x y z H1 H2; exact (Qle_bool_trans _ _ _ H2 H1)]. apply sorted_map in M2. clear - M2. induction M2 as [|x l S IH F]; constructor; [exact IH|]. rewrite Forall_forall in *. intros y I. apply Qle_bool_iff. exact (F y I).
Qed.
Lemma truncate_reversed b a ser : (a < b)%Q -> truncate (Some b) (Some a) ser = Err EValue.
Proof.
  intros H. unfold truncate. cbv zeta. destruct (negb _); [reflexivity|]. cbn [qle_opt]. destruct (Qle_bool b a) eqn:E; [|reflexivity]. apply Qle_bool_iff in E. lra.
Qed.

(* ---- range ---- *)
Definition within (lo hi : Q) (c : cell) : Prop := match c with Some v => (lo <= v <= hi)%Q | None => True end.
Section Range.
Variables lo hi : Q.
Lemma box_scan_range nan limit ti pts : Forall (fun p => within lo hi (snd p)) pts -> forall acc, 0 <= snd acc -> (lo * inject_Z (snd acc) <= fst acc <= hi * inject_Z (snd acc))%Q ->
  let r := box_scan nan limit ti pts acc in 0 <= snd r /\ (lo * inject_Z (snd r) <= fst r <= hi * inject_Z (snd r))%Q.
Proof.
  induction 1 as [|[t c] l H F IH]; intros acc N B; cbn [box_scan]; [auto|]. destruct c as [v|]; cbn [valid_value]; [|apply IH; assumption]. destruct (Qeq_bool v nan); [apply IH; assumption|].
  destruct (Qle_bool _ _); [|auto]. apply IH; cbn [fst snd]; [lia|]. cbn in H. rewrite inject_Z_plus. change (inject_Z 1) with 1%Q. split; lra.
Qed.
Lemma box_point_range nan limit fillna mo before after ti c : Forall (fun p => within lo hi (snd p)) before -> Forall (fun p => within lo hi (snd p)) after ->
  within lo hi (box_point nan limit fillna mo before after ti c).
Proof.
  intros B A. unfold box_point. destruct (_ || _); [|exact Logic.I].
  pose proof (box_scan_range nan limit ti after A (0%Q, 0) ltac:(cbn; lia) ltac:(cbn; change (inject_Z 0) with 0%Q; split; lra)) as H1. cbv zeta in H1. set (a1 := box_scan nan limit ti after (0%Q, 0)) in *.
  pose proof (box_scan_range nan limit ti before B a1 (proj1 H1) (proj2 H1)) as H2. cbv zeta in H2. destruct (box_scan nan limit ti before a1) as [s n]. cbn [fst snd] in H2. destruct H2 as [N H2].
  destruct (mo <=? n); [|exact Logic.I]. destruct (Z.eqb_spec n 0) as [->|NZ]; [exact Logic.I|]. cbn [within].
  assert (P : (0 < inject_Z n)%Q) by (change 0%Q with (inject_Z 0); rewrite <- Zlt_Qlt; lia). split.
  - apply Qle_shift_div_l; [exact P|lra].
  - apply Qle_shift_div_r; [exact P|lra].
Qed.
Lemma box_loop_range nan limit fillna mo after : forall before, Forall (fun p => within lo hi (snd p)) before -> Forall (fun p => within lo hi (snd p)) after ->
  Forall (within lo hi) (box_loop nan limit fillna mo before after).
Proof.
  induction after as [|[t c] l IH]; intros before B A; cbn [box_loop]; constructor.
  - apply box_point_range; assumption.
  - inversion A; subst. apply IH; [constructor; assumption|assumption].
Qed.
Lemma boxcar_range nan w fillna mo pts : Forall (fun p => within lo hi (snd p)) pts -> Forall (within lo hi) (boxcar_filter nan w fillna mo pts).
Proof. intros H. apply box_loop_range; [constructor|exact H]. Qed.
Definition keeps_range (agg : list Q -> cell) : Prop := forall l, Forall (fun v => (lo <= v <= hi)%Q) l -> within lo hi (agg l).
Lemma vals_range l : Forall (within lo hi) l -> Forall (fun v => (lo <= v <= hi)%Q) (vals l).
Proof. induction 1 as [|c l H F IH]; [constructor|]. destruct c; cbn; [constructor; assumption|exact IH]. Qed.
Lemma unit_rows_range agg agg_std o ser : keeps_range agg -> Forall (fun x => within lo hi (o_val x)) ser -> Forall (fun r => within lo hi (c_clim r)) (unit_rows agg agg_std o ser).
Proof.
  intros K H. unfold unit_rows. apply Forall_forall. intros r I. apply in_map_iff in I. destruct I as [k [<- _]]. cbn [c_clim]. apply K. unfold unit_values. apply vals_range.
  set (sm := boxcar_filter _ _ _ _ _). assert (S : Forall (within lo hi) sm). { apply boxcar_range. clear - H. induction H; cbn; constructor; auto. }
  clearbody sm. apply Forall_forall. intros c I. apply in_map_iff in I. destruct I as [x [<- I]]. apply filter_In in I. destruct I as [I _].
  clear H K. revert sm S I. induction ser as [|y l IH]; intros [|c sm] S I; cbn in I; try contradiction. inversion S; subst. destruct I as [<-|I]; [assumption|]. exact (IH sm H2 I).
Qed.
Lemma map2_range rows sm : Forall (within lo hi) sm -> Forall (fun r => within lo hi (c_clim r)) (map2 set_clim rows sm).
Proof. intros S. revert rows. induction S as [|c sm H S IH]; intros [|r rows]; cbn; constructor; auto. Qed.
Lemma firstn_range {A} (P : A -> Prop) n l : Forall P l -> Forall P (firstn n l).
Proof. intros H. apply Forall_forall. intros x I. rewrite Forall_forall in H. apply H. exact (in_firstn n l x I). Qed.
Lemma skipn_range {A} (P : A -> Prop) n l : Forall P l -> Forall P (skipn n l).
Proof. intros H. apply Forall_forall. intros x I. rewrite Forall_forall in H. apply H. exact (in_skipn n l x I). Qed.
Lemma combine_range (ix : list Q) cs : Forall (within lo hi) cs -> Forall (fun p => within lo hi (snd p)) (combine ix cs).
Proof. intros H. revert ix. induction H as [|c cs H F IH]; intros [|i ix]; cbn; constructor; auto. Qed.
Lemma clims_range rows : Forall (fun r => within lo hi (c_clim r)) rows -> Forall (within lo hi) (map c_clim rows).
Proof. induction 1; cbn; constructor; auto. Qed.
Lemma smooth_range n mac wrap fillna mo rows out : Forall (fun r => within lo hi (c_clim r)) rows -> smooth_rows n mac wrap fillna mo rows = Ok out ->
  Forall (fun r => within lo hi (c_clim r)) out.
Proof.
  intros R H. unfold smooth_rows in H. destruct wrap.
  - destruct (Nat.eqb mac 0); [discriminate|]. cbv zeta in H. destruct (Nat.eqb _ _); [|discriminate]. injection H as <-. apply firstn_range, skipn_range, map2_range, boxcar_range, combine_range, clims_range.
    apply Forall_app. split; [apply skipn_range; exact R|]. apply Forall_app. split; [exact R|apply firstn_range; exact R].
  - cbv zeta in H. injection H as <-. apply map2_range, boxcar_range, combine_range, clims_range. exact R.
Qed.
Lemma set_nth_range {A} (P : A -> Prop) n x l : P x -> Forall P l -> Forall P (set_nth n x l).
Proof. intros X H. revert n. induction H; intros [|n]; cbn; constructor; auto. Qed.
Lemma strict2_range a b : within lo hi a -> within lo hi b -> within lo hi (strict_mean [a; b]).
Proof.
  intros A B. pose proof (strict_mean2 a b) as E. destruct (strict_mean [a; b]) as [v|]; [|exact Logic.I]. destruct a as [x|], b as [y|]; cbn in *; try contradiction. rewrite E. split.
  - apply Qle_shift_div_l; lra.
  - apply Qle_shift_div_r; lra.
Qed.
Lemma nth_range rows i : Forall (fun r => within lo hi (c_clim r)) rows -> within lo hi (c_clim (nth i rows (mkCrow None None))).
Proof. intros H. destruct (nth_in_or_default i rows (mkCrow None None)) as [I|E]; [rewrite Forall_forall in H; exact (H _ I)|rewrite E; exact Logic.I]. Qed.
Lemma nth_std rows i : (forall r, In r rows -> c_std r = None) -> c_std (nth i rows (mkCrow None None)) = None.
Proof. intros H. destruct (nth_in_or_default i rows (mkCrow None None)) as [I|E]; [exact (H _ I)|rewrite E; reflexivity]. Qed.
Lemma interp_range rows t a b : (forall r, In r rows -> c_std r = None) -> Forall (fun r => within lo hi (c_clim r)) rows -> Forall (fun r => within lo hi (c_clim r)) (interp_row rows t a b).
Proof.
  intros S H. unfold interp_row. apply set_nth_range; [|exact H]. unfold fill_row. cbn [c_clim]. unfold row_cells. rewrite !nth_std by exact S. cbn [app]. apply strict2_range; apply nth_range; exact H.
Qed.
Lemma unit_rows_std agg agg_std o ser : k_std o = false -> forall r, In r (unit_rows agg agg_std o ser) -> c_std r = None.
Proof. intros S r I. unfold unit_rows in I. apply in_map_iff in I. destruct I as [k [<- _]]. cbn. rewrite S. reflexivity. Qed.
Lemma smooth_std n mac wrap fillna mo rows out : (forall r, In r rows -> c_std r = None) -> smooth_rows n mac wrap fillna mo rows = Ok out -> forall r, In r out -> c_std r = None.
Proof.
  intros S H. unfold smooth_rows in H. destruct wrap.
  - destruct (Nat.eqb mac 0); [discriminate|]. cbv zeta in H. destruct (Nat.eqb _ _); [|discriminate]. injection H as <-. intros r I. apply in_firstn, in_skipn in I. revert r I. apply map2_std. intros r I. apply in_app_or in I. destruct I as [I|I]; [apply in_skipn in I; auto|]. apply in_app_or in I. destruct I as [I|I]; [auto|apply in_firstn in I; auto].
  - cbv zeta in H. injection H as <-. apply map2_std. exact S.
Qed.
Lemma climatology_range agg agg_std o ser out : keeps_range agg -> Forall (fun x => within lo hi (o_val x)) ser -> within lo hi (k_fill o) ->
  k_std o = false \/ k_interp o = false -> calc_climatology agg agg_std o ser = Ok out -> Forall (fun r => within lo hi (c_clim r)) out.
Proof.
  intros K H F SI C. destruct (k_freq o) eqn:Hf; [| |unfold calc_climatology in C; rewrite Hf in C; destruct (k_ma_clim o); discriminate];
  (rewrite calc_climatology_unfold in C by congruence; rewrite Hf in C; destruct (smooth_rows _ _ _ _ _ _) as [rows|] eqn:S; [|discriminate C]; cbn [mapR] in C; injection C as <-;
   pose proof (smooth_range _ _ _ _ _ _ _ (unit_rows_range agg agg_std o ser K H) S) as R).
  - assert (R2 : Forall (fun r => within lo hi (c_clim r)) (if k_interp o then if k_respect o then interp_row rows 366 365 1 else interp_row rows 60 59 61 else rows)).
    { destruct (k_interp o); [|exact R]. destruct SI as [SI|SI]; [|discriminate]. pose proof (smooth_std _ _ _ _ _ _ _ (unit_rows_std agg agg_std o ser SI) S) as N. destruct (k_respect o); apply interp_range; assumption. }
    revert R2. generalize (if k_interp o then if k_respect o then interp_row rows 366 365 1 else interp_row rows 60 59 61 else rows). intros l R2. induction R2 as [|r l X R2 IH]; cbn; constructor; [|exact IH]. cbn. destruct (c_clim r); cbn; assumption.
  - clear S. induction R as [|r l X R2 IH]; cbn; constructor; [|exact IH]. cbn. destruct (c_clim r); cbn; assumption.
Qed.
Lemma qsum_range l : Forall (fun v => (lo <= v <= hi)%Q) l -> (lo * qlen l <= qsum l <= hi * qlen l)%Q.
Proof.
  induction 1 as [|v l H F IH]; unfold qlen in *; cbn [qsum List.length].
  - change (inject_Z (Z.of_nat 0)) with 0%Q. split; lra.
  - rewrite Nat2Z.inj_succ. unfold Z.succ. rewrite inject_Z_plus. change (inject_Z 1) with 1%Q. split; lra.
Qed.
Lemma mean_keeps : keeps_range mean_agg.
Proof.
  intros l H. unfold mean_agg. destruct l as [|v l]; [exact Logic.I|]. cbn [within]. unfold qmean. pose proof (qsum_range (v :: l) H) as B.
  assert (P : (0 < qlen (v :: l))%Q). { unfold qlen. change 0%Q with (inject_Z 0). rewrite <- Zlt_Qlt. cbn [List.length]. lia. } split.
  - apply Qle_shift_div_l; [exact P|lra].
  - apply Qle_shift_div_r; [exact P|lra].
Qed.
Lemma q_insert_in x l y : In y (q_insert x l) <-> y = x \/ In y l.
Proof. induction l as [|z l IH]; cbn [q_insert]; [cbn; intuition|]. destruct (Qle_bool x z); cbn [In]; [intuition|]. rewrite IH. intuition. Qed.
Lemma q_sort_in l y : In y (q_sort l) <-> In y l.
Proof. induction l as [|x l IH]; cbn; [tauto|]. fold (q_sort l). rewrite q_insert_in, IH. intuition. Qed.
Lemma q_insert_length x l : List.length (q_insert x l) = S (List.length l).
Proof. induction l as [|z l IH]; cbn [q_insert]; [reflexivity|]. destruct (Qle_bool x z); cbn; [reflexivity|]. rewrite IH. reflexivity. Qed.
Lemma q_sort_length l : List.length (q_sort l) = List.length l.
Proof. induction l as [|x l IH]; cbn; [reflexivity|]. fold (q_sort l). rewrite q_insert_length, IH. reflexivity. Qed.
Lemma median_keeps : keeps_range median_agg.
Proof.
  intros l H. unfold median_agg. cbv zeta. destruct (Nat.eqb_spec (List.length (q_sort l)) 0) as [E|N]; [exact Logic.I|].
  assert (G : forall i, (i < List.length (q_sort l))%nat -> (lo <= nth i (q_sort l) 0%Q <= hi)%Q). { intros i L. rewrite Forall_forall in H. apply H, q_sort_in, nth_In. exact L. }
  pose proof (Nat.div_lt (List.length (q_sort l)) 2 ltac:(lia) ltac:(lia)) as L.
  destruct (Nat.even _); cbn [within]; [|exact (G _ L)]. pose proof (G _ L) as G1. pose proof (G (List.length (q_sort l) / 2 - 1)%nat ltac:(lia)) as G2. split.
  - apply Qle_shift_div_l; lra.
  - apply Qle_shift_div_r; lra.
Qed.
End Range.
