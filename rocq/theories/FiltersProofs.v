From Verif Require Import Base BaseProofs FiltersModel FiltersSpec.
From Coq Require Import ZifyBool ZifyNat Lqa.

Definition dist (ti : Q) (p : point) : Q := Qabs (fst p - ti).

Lemma valid_value_missing nan c : valid_value nan c = None <-> missing nan c.
Proof.
  destruct c as [v|]; cbn; [|tauto].
  destruct (Qeq_bool v nan) eqn:E; [apply Qeq_bool_eq in E; tauto|].
  split; [discriminate|]. intros H. apply Qeq_bool_neq in E. contradiction.
Qed.

Lemma near_values_cons nan limit t s c r :
  near_values nan limit t ((s, c) :: r) =
  match valid_value nan c with
  | Some v => if Qle_bool (Qabs (s - t)) limit then v :: near_values nan limit t r else near_values nan limit t r
  | None => near_values nan limit t r
  end.
Proof.
  destruct c as [v|]; cbn; [|reflexivity]. destruct (Qeq_bool v nan); reflexivity.
Qed.

Lemma near_values_app nan limit t a b :
  near_values nan limit t (a ++ b) = near_values nan limit t a ++ near_values nan limit t b.
Proof.
  induction a as [|[s c] a IH]; [reflexivity|]. cbn [app]. rewrite !near_values_cons, IH.
  destruct (valid_value nan c); [destruct (Qle_bool _ _)|]; reflexivity.
Qed.

Lemma near_values_rev nan limit t a :
  near_values nan limit t (rev a) = rev (near_values nan limit t a).
Proof.
  induction a as [|[s c] a IH]; [reflexivity|]. cbn [rev]. rewrite near_values_app, IH, !near_values_cons.
  cbn [near_values]. destruct (valid_value nan c); [destruct (Qle_bool _ _)|]; cbn [rev]; rewrite ?app_nil_r; reflexivity.
Qed.

Lemma near_values_far nan limit t pts :
  (forall p, In p pts -> (limit < dist t p)%Q) -> near_values nan limit t pts = [].
Proof.
  induction pts as [|[s c] r IH]; intros H; [reflexivity|]. rewrite near_values_cons.
  rewrite IH by (intros; apply H; right; assumption).
  destruct (valid_value nan c); [|reflexivity].
  destruct (Qle_bool (Qabs (s - t)) limit) eqn:E; [|reflexivity].
  apply Qle_bool_iff in E. specialize (H _ (or_introl eq_refl)). unfold dist in H; cbn [fst] in H. lra.
Qed.

Lemma box_scan_spec nan limit ti pts : forall acc,
  StronglySorted (fun p q => (dist ti p <= dist ti q)%Q) pts ->
  (fst (box_scan nan limit ti pts acc) == fst acc + qsum (near_values nan limit ti pts))%Q /\
  snd (box_scan nan limit ti pts acc) = snd acc + Z.of_nat (List.length (near_values nan limit ti pts)).
Proof.
  induction pts as [|[t c] r IH]; intros acc Hs.
  - cbn. split; [ring|lia].
  - inversion Hs as [|? ? Hs' Hf]; subst. rewrite near_values_cons. cbn [box_scan].
    destruct (valid_value nan c) as [v|]; [|apply IH; exact Hs'].
    destruct (Qle_bool (Qabs (t - ti)) limit) eqn:E.
    + destruct (IH ((fst acc + v)%Q, snd acc + 1) Hs') as [H1 H2]. rewrite H1, H2. cbn [fst snd qsum List.length].
      split; [ring|lia].
    + rewrite near_values_far.
      * cbn. split; [ring|lia].
      * intros p Hp. rewrite Forall_forall in Hf. specialize (Hf p Hp). unfold dist in *; cbn [fst] in Hf.
        assert (~ (Qabs (t - ti) <= limit)%Q) by (intros C; apply Qle_bool_iff in C; congruence). lra.
Qed.

Lemma dist_right ti after :
  StronglySorted (fun p q : point => (fst p <= fst q)%Q) after ->
  (forall p, In p after -> (ti <= fst p)%Q) ->
  StronglySorted (fun p q => (dist ti p <= dist ti q)%Q) after.
Proof.
  induction 1 as [|p l Hs IH Hf]; intros Hb; constructor.
  - apply IH. intros q Hq; apply Hb; right; exact Hq.
  - rewrite Forall_forall in *. intros q Hq. specialize (Hf q Hq). unfold dist.
    pose proof (Hb p (or_introl eq_refl)). rewrite !Qabs_pos by lra. lra.
Qed.

Lemma dist_left ti before :
  StronglySorted (fun p q : point => (fst q <= fst p)%Q) before ->
  (forall p, In p before -> (fst p <= ti)%Q) ->
  StronglySorted (fun p q => (dist ti p <= dist ti q)%Q) before.
Proof.
  induction 1 as [|p l Hs IH Hf]; intros Hb; constructor.
  - apply IH. intros q Hq; apply Hb; right; exact Hq.
  - rewrite Forall_forall in *. intros q Hq. specialize (Hf q Hq). unfold dist.
    pose proof (Hb p (or_introl eq_refl)). pose proof (Hb q (or_intror Hq)).
    rewrite !Qabs_neg by lra. lra.
Qed.

Lemma SSorted_app_inv' {A} (R : A -> A -> Prop) l m :
  StronglySorted R (l ++ m) ->
  StronglySorted R l /\ StronglySorted R m /\ forall x y, In x l -> In y m -> R x y.
Proof.
  induction l as [|a l IH]; cbn; intros H.
  - split; [constructor|]. split; [exact H|]. intros x y [].
  - inversion H as [|? ? H1 H2]; subst. destruct (IH H1) as (A1 & A2 & A3).
    rewrite Forall_app in H2. destruct H2 as [F1 F2]. split; [constructor; assumption|].
    split; [exact A2|]. intros x y [<-|Hx] Hy; [rewrite Forall_forall in F2; auto|auto].
Qed.

Lemma SSorted_rev {A} (R : A -> A -> Prop) l :
  StronglySorted R l -> StronglySorted (fun x y => R y x) (rev l).
Proof.
  induction 1 as [|a l Hs IH Hf]; cbn; [constructor|].
  assert (G : forall m, StronglySorted (fun x y => R y x) m -> (forall x, In x m -> R a x) ->
              StronglySorted (fun x y => R y x) (m ++ [a])).
  { induction m as [|b m IHm]; intros Hm Ha; cbn; [constructor; constructor|].
    inversion Hm as [|? ? H1 H2]; subst. constructor.
    - apply IHm; [exact H1|]. intros; apply Ha; right; assumption.
    - rewrite Forall_app. split; [exact H2|]. constructor; [apply Ha; left; reflexivity|constructor]. }
  apply G; [exact IH|]. intros x Hx. apply in_rev in Hx. rewrite Forall_forall in Hf. auto.
Qed.

Lemma box_point_correct nan limit fillna min_obs before ti c r :
  1 <= min_obs -> StronglySorted (fun p q : point => (fst p <= fst q)%Q) (rev before ++ (ti, c) :: r) ->
  let all := rev before ++ (ti, c) :: r in
  let out := box_point nan limit fillna min_obs before ((ti, c) :: r) ti c in
  (missing nan c /\ fillna = false -> out = None) /\
  (~ missing nan c \/ fillna = true ->
   ceq out (let v := near_values nan limit ti all in
            if min_obs <=? Z.of_nat (List.length v) then Some (qmean v) else None)).
Proof.
  intros Hm Hs all out. unfold out, box_point. clear out. split.
  - intros [Hc ->]. apply valid_value_missing in Hc. rewrite Hc. reflexivity.
  - intros Hc.
    replace (notna (valid_value nan c) || fillna) with true.
    2:{ destruct (valid_value nan c) eqn:E; [reflexivity|]. apply valid_value_missing in E.
        destruct Hc as [Hc|Hc]; [contradiction|rewrite Hc; reflexivity]. }
    apply SSorted_app_inv' in Hs as (Hb & Ha & Hab).
    assert (Ha' : StronglySorted (fun p q => (dist ti p <= dist ti q)%Q) ((ti, c) :: r)).
    { apply dist_right; [exact Ha|]. inversion Ha as [|? ? _ Hf]; subst. rewrite Forall_forall in Hf.
      intros p [<-|Hp]; [cbn; lra|exact (Hf p Hp)]. }
    assert (Hb' : StronglySorted (fun p q => (dist ti p <= dist ti q)%Q) before).
    { apply dist_left; [rewrite <- (rev_involutive before); apply SSorted_rev; exact Hb|].
      intros p Hp. apply (Hab p (ti, c)); [apply in_rev in Hp; exact Hp|left; reflexivity]. }
    destruct (box_scan_spec nan limit ti _ (0%Q, 0) Ha') as [A1 A2].
    set (acc := box_scan nan limit ti ((ti, c) :: r) (0%Q, 0)) in *.
    destruct (box_scan_spec nan limit ti _ acc Hb') as [B1 B2].
    destruct (box_scan nan limit ti before acc) as [s n]. cbn [fst snd] in *.
    unfold all. rewrite near_values_app, near_values_rev.
    set (vb := near_values nan limit ti before) in *. set (va := near_values nan limit ti ((ti, c) :: r)) in *.
    cbv zeta. rewrite app_length, rev_length.
    replace (min_obs <=? n) with (min_obs <=? Z.of_nat (List.length vb + List.length va)) by (rewrite B2, A2; lia).
    destruct (min_obs <=? Z.of_nat (List.length vb + List.length va)) eqn:E; [|exact I].
    destruct (n =? 0) eqn:E0; [lia|]. cbn [ceq].
    unfold qmean, qlen. rewrite app_length, rev_length.
    replace (Z.of_nat (List.length vb + List.length va)) with n by lia.
    rewrite qsum_app.
    assert (Hp : (qsum (rev vb) == qsum vb)%Q) by (apply qsum_perm; symmetry; apply Permutation_rev).
    rewrite Hp, B1, A1. setoid_replace (0 + qsum va + qsum vb)%Q with (qsum vb + qsum va)%Q by ring. reflexivity.
Qed.

Lemma box_loop_length nan limit fillna min_obs after : forall before,
  List.length (box_loop nan limit fillna min_obs before after) = List.length after.
Proof. induction after as [|[t c] r IH]; intros before; cbn; [reflexivity|]. rewrite IH; reflexivity. Qed.

Lemma box_loop_nth nan limit fillna min_obs after : forall before k t c,
  nth_error after k = Some (t, c) ->
  nth_error (box_loop nan limit fillna min_obs before after) k =
  Some (box_point nan limit fillna min_obs (rev (firstn k after) ++ before) (skipn k after) t c).
Proof.
  induction after as [|[t0 c0] r IH]; intros before [|k] t c H; cbn in H; try discriminate.
  - injection H as -> ->. reflexivity.
  - cbn [box_loop nth_error]. rewrite (IH _ _ _ _ H). cbn [firstn rev skipn]. rewrite <- app_assoc. reflexivity.
Qed.

Lemma skipn_nth {A} (l : list A) k x : nth_error l k = Some x -> skipn k l = x :: skipn (S k) l.
Proof.
  revert k; induction l as [|a l IH]; intros [|k] H; cbn in H; try discriminate.
  - injection H as ->. reflexivity.
  - cbn [skipn]. apply IH in H. exact H.
Qed.

Lemma skipn_nth_pt (l : list point) k t c :
  nth_error l k = Some (t, c) -> skipn k l = (t, c) :: skipn (S k) l.
Proof. apply skipn_nth. Qed.

Lemma boxcar_correct nan window fillna min_obs pts :
  1 <= min_obs -> time_sorted pts ->
  let out := boxcar_filter nan window fillna min_obs pts in
  List.length out = List.length pts /\
  forall k t c, nth_error pts k = Some (t, c) ->
    exists o, nth_error out k = Some o /\
      (missing nan c /\ fillna = false -> o = None) /\
      (~ missing nan c \/ fillna = true -> ceq o (average_at nan window min_obs pts t)).
Proof.
  intros Hm Hs out. split; [apply box_loop_length|].
  intros k t c Hk. unfold out, boxcar_filter.
  exists (box_point nan (window / 2)%Q fillna min_obs (rev (firstn k pts)) ((t, c) :: skipn (S k) pts) t c).
  split.
  { etransitivity; [apply box_loop_nth; exact Hk|]. f_equal. f_equal; [apply app_nil_r|apply skipn_nth; exact Hk]. }
  assert (Hall : rev (rev (firstn k pts)) ++ (t, c) :: skipn (S k) pts = pts).
  { rewrite rev_involutive, <- (skipn_nth_pt _ _ _ _ Hk). apply firstn_skipn. }
  pose proof (box_point_correct nan (window / 2)%Q fillna min_obs (rev (firstn k pts)) t c (skipn (S k) pts) Hm) as H.
  cbv zeta in H. rewrite Hall in H. specialize (H Hs). exact H.
Qed.

Lemma boxcar_length nan window fillna min_obs pts :
  List.length (boxcar_filter nan window fillna min_obs pts) = List.length pts.
Proof. apply box_loop_length. Qed.

(* ---- calc_anomaly ---- *)
Lemma map2_nth {A B C} (f : A -> B -> C) l m k a b :
  nth_error l k = Some a -> nth_error m k = Some b -> nth_error (map2 f l m) k = Some (f a b).
Proof.
  revert m k; induction l as [|x l IH]; intros [|y m] [|k] H1 H2; cbn in *; try discriminate.
  - congruence.
  - apply IH; assumption.
Qed.

Lemma nth_error_same_length {A B} (l : list A) (m : list B) k a :
  List.length m = List.length l -> nth_error l k = Some a -> exists b, nth_error m k = Some b.
Proof.
  intros Hl Hk. destruct (nth_error m k) eqn:E; [eauto|]. apply nth_error_None in E.
  assert (nth_error l k <> None) as Hn by congruence. apply nth_error_Some in Hn. lia.
Qed.

Lemma map2_length' {A B C} (f : A -> B -> C) l m : List.length l = List.length m -> List.length (map2 f l m) = List.length l.
Proof. revert m; induction l as [|x l IH]; intros [|y m] H; cbn in *; try discriminate; [reflexivity|]. rewrite IH; lia. Qed.

Lemma moving_average_nth ser w fillna mo k t c :
  nth_error ser k = Some (t, c) ->
  exists o, nth_error (boxcar_filter default_nan w fillna mo ser) k = Some o /\
            nth_error (moving_average ser w fillna mo) k = Some (t, o).
Proof.
  intros Hk. destruct (nth_error_same_length ser (boxcar_filter default_nan w fillna mo ser) k _ (boxcar_length _ _ _ _ _) Hk) as [o Ho].
  exists o. split; [exact Ho|]. unfold moving_average. erewrite map2_nth by eauto. reflexivity.
Qed.

Lemma near_values_in nan limit t k pts c v : nth_error pts k = Some (t, c) -> valid_value nan c = Some v ->
  (0 <= limit)%Q -> In v (near_values nan limit t pts).
Proof.
  intros Hk Hv Hl. apply nth_error_split in Hk as (a & b & -> & _).
  rewrite near_values_app, near_values_cons, Hv.
  replace (Qle_bool (Qabs (t - t)) limit) with true.
  - apply in_or_app; right; left; reflexivity.
  - symmetry. apply Qle_bool_iff. setoid_replace (t - t)%Q with 0%Q by ring. cbn. exact Hl.
Qed.

Lemma anomaly_correct ser w :
  time_sorted ser -> (0 <= w)%Q ->
  map fst (calc_anomaly_ma ser w) = map fst ser /\
  forall k t c, nth_error ser k = Some (t, c) ->
    exists a, nth_error (calc_anomaly_ma ser w) k = Some (t, a) /\
      (missing default_nan c -> a = None) /\
      (forall v, c = Some v -> ~ (v == default_nan)%Q ->
         exists m d, average_at default_nan w 1 ser t = Some m /\ a = Some d /\ (d + m == v)%Q).
Proof.
  intros Hs Hw. assert (Hlen : List.length (moving_average ser w false 1) = List.length ser).
  { unfold moving_average. apply map2_length'. symmetry. apply boxcar_length. }
  split.
  - unfold calc_anomaly_ma. revert Hlen. generalize (moving_average ser w false 1) as m.
    clear. induction ser as [|p l IH]; intros [|q m] H; cbn in *; try discriminate; [reflexivity|]. rewrite IH by lia. reflexivity.
  - intros k t c Hk. destruct (boxcar_correct default_nan w false 1 ser ltac:(lia) Hs) as [_ Hb].
    destruct (Hb _ _ _ Hk) as (o & Ho & Hmiss & Hval).
    destruct (moving_average_nth ser w false 1 k t c Hk) as (o' & Ho' & Hma).
    rewrite Ho in Ho'. injection Ho' as <-.
    exists (cell_sub c o). split; [|split].
    + unfold calc_anomaly_ma. erewrite map2_nth by eauto. reflexivity.
    + intros Hc. rewrite Hmiss by (split; [exact Hc|reflexivity]). destruct c; reflexivity.
    + intros v -> Hv.
      assert (Hnm : ~ missing default_nan (Some v)) by exact Hv.
      specialize (Hval (or_introl Hnm)).
      assert (Hvv : valid_value default_nan (Some v) = Some v).
      { destruct (valid_value default_nan (Some v)) eqn:E.
        - cbn in E. destruct (Qeq_bool v default_nan); congruence.
        - apply valid_value_missing in E. contradiction. }
      assert (Hl2 : (0 <= w / 2)%Q) by (unfold Qdiv; change (/ 2)%Q with (1 # 2)%Q; lra).
      pose proof (near_values_in _ _ _ _ _ _ _ Hk Hvv Hl2) as Hin.
      unfold average_at in *. cbv zeta in *.
      destruct (near_values default_nan (w / 2) t ser) as [|x l]; [destruct Hin|].
      cbn [List.length] in *. replace (1 <=? Z.of_nat (S (List.length l))) with true in * by lia.
      destruct o as [m|]; [|destruct Hval]. cbn in Hval.
      exists (qmean (x :: l)), (v - m)%Q. split; [reflexivity|]. split; [reflexivity|].
      rewrite Hval. ring.
Qed.
