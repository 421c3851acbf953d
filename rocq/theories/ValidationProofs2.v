(* Further proofs about the validation driver: no abort in "ignore" mode, data extraction,
   masking, processing jobs. *)
From Verif Require Import ValidationSpec BaseProofs SortProofs NamesProofs GroupingProofs MatchersProofs ValidationProofs.
From Verif Require Import TemporalModel TemporalSpec.

Lemma field_eqb_spec a b : field_eqb a b = true <-> a = b.
Proof.
  destruct a as [s|l], b as [t|m]; cbn; split; try discriminate.
  - intros H. apply String.eqb_eq in H. congruence.
  - intros [= ->]. apply String.eqb_refl.
  - intros H. apply key_eqb_spec in H. congruence.
  - intros [= ->]. apply key_eqb_spec. reflexivity.
Qed.
Lemma foldV_exists {A S} (P : S -> Prop) (f : S -> A -> vres S) l s : P s ->
  (forall a s, In a l -> P s -> exists s', f s a = VOk s' /\ P s') -> exists s', foldV f s l = VOk s' /\ P s'.
Proof.
  revert s. induction l as [|a l IH]; intros s H0 H; cbn; [eauto|].
  destruct (H a s (or_introl eq_refl) H0) as (s1 & -> & H1). cbn. apply IH; [exact H1|]. intros; apply H; [right|]; assumption.
Qed.
Lemma mapV_exists {A B} (P : B -> Prop) (f : A -> vres B) l : (forall a, In a l -> exists b, f a = VOk b /\ P b) ->
  exists bs, mapV f l = VOk bs /\ Forall P bs.
Proof.
  induction l as [|a l IH]; intros H; cbn; [exists []; split; [reflexivity|constructor]|].
  destruct (H a (or_introl eq_refl)) as (b & -> & Hb). destruct IH as (bs & E & F); [intros; apply H; right; assumption|].
  rewrite E. cbn. exists (b :: bs). split; [reflexivity|constructor; assumption].
Qed.
Lemma dict_append_in {K M} (keq : K -> K -> bool) (Hk : forall a b, keq a b = true <-> a = b)
  (d : list (K * list M)) k v k' l : In (k', l) (dict_append keq d k v) ->
  In (k', l) d \/ (k' = k /\ (l = v \/ exists l0, In (k, l0) d /\ l = l0 ++ v)).
Proof.
  induction d as [|[k0 l0] d IH]; cbn.
  - intros [[= <- <-]|[]]. right. auto.
  - destruct (keq k0 k) eqn:E.
    + apply Hk in E. subst k0. intros [[= <- <-]|H]; [right; split; [reflexivity|]; right; exists l0; auto|left; right; exact H].
    + intros [[= <- <-]|H]; [left; left; reflexivity|]. destruct (IH H) as [Hd|(-> & [->|(l1 & H1 & ->)])]; [left; right; exact Hd|right; auto|].
      right. split; [reflexivity|]. right. exists l1. auto.
Qed.

Section Driver.
Context {G V : Type}.
Variable code : Z -> V.
Notation metrics := (list (field * fval V)).
Notation config := (@config G V).

Lemma fills_set_name F v (m : metrics) : fills F m -> In (FName "status") F -> exists m', set_status_name v m = Ok m' /\ fills F m'.
Proof.
  revert F. induction m as [|[k x] m IH]; intros F [E A] Hs; cbn in E; subst F; [contradiction|].
  cbn [set_status_name]. destruct (field_eqb k (FName "status")) eqn:Ek.
  - destruct (A k x (or_introl eq_refl)) as (a & r & ->). cbn. eexists. split; [reflexivity|]. split; [reflexivity|].
    intros k' x' [[= <- <-]|H]; [eauto|]. apply (A k'). right. exact H.
  - destruct Hs as [Hs|Hs]; [rewrite Hs in Ek; discriminate Ek|].
    destruct (IH (map fst m)) as (m' & -> & E' & A'); [split; [reflexivity|intros; apply (A k0); right; assumption]|exact Hs|].
    cbn. eexists. split; [reflexivity|]. split; [cbn; rewrite E'; reflexivity|].
    intros k' x' [[= <- <-]|H]; [apply (A k x); left; reflexivity|]. apply (A' k' x' H).
Qed.
Lemma fills_set_all F v (m : metrics) : fills F m -> (forall l, In (FTuple l) F -> (2 <= List.length l)%nat) ->
  exists m', set_all_status v m = Ok m' /\ fills F m'.
Proof.
  revert F. induction m as [|[k x] m IH]; intros F [E A] HF; cbn in E; subst F; cbn [set_all_status].
  - eexists. split; [reflexivity|]. split; [reflexivity|]. intros ? ? [].
  - assert (exists b, is_status k = Ok b) as [b ->].
    { destruct k as [s|l]; cbn; [eauto|]. destruct l as [|a [|b r]]; [specialize (HF [] (or_introl eq_refl)); cbn in HF; lia|
        specialize (HF [a] (or_introl eq_refl)); cbn in HF; lia|cbn; eauto]. }
    cbn [bindR]. destruct (A k x (or_introl eq_refl)) as (a & r & ->).
    destruct (IH (map fst m)) as (m' & -> & E' & A'); [split; [reflexivity|intros; apply (A k0); right; assumption]|
      intros l Hl; apply HF; right; exact Hl|].
    destruct b; cbn; (eexists; split; [reflexivity|]; split; [cbn; rewrite E'; reflexivity|]);
      (intros k' x' [[= <- <-]|H]; [eauto|apply (A' k' x' H)]).
Qed.

Definition shaped (F : nat -> list field) (r : list (list dscol * list metrics)) : Prop :=
  forall key ms, In (key, ms) r -> ms <> [] /\ forall m, In m ms -> fills (F (List.length key)) m.
Lemma shaped_append F r key ms : shaped F r -> ms <> [] -> (forall m, In m ms -> fills (F (List.length key)) m) ->
  shaped F (dict_append combo_eqb r key ms).
Proof.
  intros S NE H k l Hin. apply (dict_append_in combo_eqb combo_eqb_spec) in Hin.
  destruct Hin as [Hin|(-> & [->|(l0 & Hin & ->)])]; [exact (S k l Hin)|auto|].
  destruct (S key l0 Hin) as [N0 F0]. split; [intros C; apply app_eq_nil in C; tauto|].
  intros m Hm. apply in_app_or in Hm as [Hm|Hm]; auto.
Qed.

Lemma validate_key_fills (c : config) F rn oref g n k f matched key m :
  In ((n, k), f) (c_calcs c) -> regular (F k) f -> validate_key code c true rn oref g f matched key = VOk (Some m) -> fills (F k) m.
Proof.
  intros Hin (_ & HS & _ & _ & HF) H. apply validate_key_cases in H. destruct H as (data & _ & [(_ & _ & t & Ht & Hm)|(d & s & _ & _ & _ & [H|(_ & _ & t & Ht & Hm)])]).
  - destruct (fills_set_name (F k) (code NO_TEMP_MATCHED_DATA) t (HF _ _ _ Ht) HS) as (m' & E & Fm). congruence.
  - exact (HF _ _ _ H).
  - destruct (fills_set_name (F k) (code METRICS_CALCULATION_FAILED) t (HF _ _ _ Ht) HS) as (m' & E & Fm). congruence.
Qed.

Lemma dummy_total (c : config) F oref g : wf_config c -> (forall n k f, In ((n, k), f) (c_calcs c) -> regular (F k) f) ->
  exists r, dummy_validation_result c oref g = VOk r /\ shaped F r.
Proof.
  intros (W & C1 & _) R. unfold dummy_validation_result. apply foldV_exists; [intros ? ? []|].
  intros [[n k] f] s Hin HS. destruct (names_of_spec c k W (C1 n k f Hin)) as (En & _ & I). rewrite En. cbn [liftR bindV].
  apply foldV_exists; [exact HS|]. intros key s' Hkey HS'. destruct (skip_key c oref key); [eauto|].
  destruct (R n k f Hin) as (_ & _ & _ & HE & HF). destruct (HE (empty_frame key) g eq_refl) as [m Em]. rewrite Em. cbn.
  eexists. split; [reflexivity|]. apply shaped_append; [exact HS'|discriminate|]. intros m' [<-|[]].
  apply I in Hkey. destruct Hkey as (-> & _). exact (HF _ _ _ Em).
Qed.

Lemma gpi_total (c : config) F rn oref g : wf_config c -> (forall n k f, In ((n, k), f) (c_calcs c) -> regular (F k) f) ->
  exists r, validate_gpi code c true rn oref g = VOk r /\ shaped F r.
Proof.
  intros W R. unfold validate_gpi. destruct (attempt code c true rn oref g) as [r|x] eqn:E.
  - exists r. split; [reflexivity|]. unfold attempt in E. rewrite bindV_ok in E. destruct E as (dfs & Hg & H).
    destruct (Nat.eqb (List.length dfs) 0); [discriminate|].
    destruct (perform_cases code c true rn oref g dfs r W H) as [[-> _]|(_ & dfs' & data & mn & _ & _ & _ & P)]; [intros ? ? []|].
    intros key ms Hin. destruct (P key ms Hin) as (n & k & f & ma & m & Hi & L & -> & Hv). split; [discriminate|].
    intros m' [<-|[]]. apply in_combine_l in Hi. rewrite L. eapply validate_key_fills; eauto.
  - destruct (dummy_total c F oref g W R) as (r & Hr & HS). rewrite Hr. cbn [bindV]. unfold set_codes.
    assert (K : forall e, In e r -> exists n k f, In ((n, k), f) (c_calcs c) /\ List.length (fst e) = k).
    { destruct (dummy_ok c oref g r W Hr) as [_ P]. intros [key ms] He. destruct (P key ms He) as (m & _ & n & k & f & Hi & L & _). exists n, k, f. auto. }
    destruct (mapV_exists (fun e : list dscol * list metrics => snd e <> [] /\ forall m, In m (snd e) -> fills (F (List.length (fst e))) m)
       (fun e => match snd e with
                 | [] => VErr (PError EIndex)
                 | m :: ms => bindV (liftR (set_all_status (code (return_code x)) m)) (fun m' => VOk (fst e, m' :: ms))
                 end) r) as (bs & Eb & Fb).
    + intros [key ms] He. destruct (HS key ms He) as [NE HF]. destruct ms as [|m ms]; [contradiction|]. cbn [snd fst].
      destruct (K _ He) as (n & k & f & Hi & L). cbn in L. destruct (R n k f Hi) as (_ & _ & HT & _).
      destruct (fills_set_all (F k) (code (return_code x)) m) as (m' & Em & Fm); [rewrite <- L; apply HF; left; reflexivity|exact HT|].
      rewrite Em. cbn. eexists. split; [reflexivity|]. cbn. split; [discriminate|]. intros m2 [<-|Hm2]; [rewrite L; exact Fm|].
      apply HF. right. exact Hm2.
    + exists bs. split; [exact Eb|]. rewrite Forall_forall in Fb. intros key ms Hin. exact (Fb (key, ms) Hin).
Qed.

Lemma fills_get F (m : metrics) k : fills F m -> In k F -> exists v, field_get m k = Ok v.
Proof.
  intros [E A] Hk. subst F. unfold field_get. apply in_map_iff in Hk as ([k' x] & Ek & Hx). cbn in Ek. subst k'.
  destruct (find (fun e => field_eqb (fst e) k) m) as [[k' x']|] eqn:Ef.
  - apply find_some in Ef as [Hi _]. destruct (A k' x' Hi) as (a & r & ->). eauto.
  - exfalso. assert (C := find_none _ _ Ef _ Hx). cbn in C. rewrite (proj2 (field_eqb_spec k k) eq_refl) in C. discriminate.
Qed.

Lemma calc_total (c : config) F rn oref gpis : wf_config c -> (forall n k f, In ((n, k), f) (c_calcs c) -> regular (F k) f) ->
  exists out, calc code c true rn oref gpis = VOk out /\
    forall key fields, In (key, fields) out -> map fst fields = F (List.length key).
Proof.
  intros W R. unfold calc.
  destruct (foldV_exists (shaped F) (fun res g =>
           bindV (validate_gpi code c true rn oref g) (fun r =>
           VOk (fold_left (fun res e => add_result res (fst e) (snd e)) r res))) gpis []) as (res & -> & HS).
  - intros ? ? [].
  - intros g s _ Hs. destruct (gpi_total c F rn oref g W R) as (r & -> & Hr). cbn [bindV]. eexists. split; [reflexivity|].
    revert s Hs Hr. induction r as [|[key ms] r IH]; intros s Hs Hr; cbn; [exact Hs|].
    destruct (Hr key ms (or_introl eq_refl)) as [N1 F1].
    apply IH; [apply shaped_append; assumption|]. intros k l Hin. apply (Hr k l). right. exact Hin.
  - cbn [bindV].
    destruct (mapV_exists (fun e : list dscol * list (field * list V) => map fst (snd e) = F (List.length (fst e)))
      (fun e : list dscol * list metrics => bindV (liftR (compact_key (snd e))) (fun d => VOk (fst e, d))) res) as (out & -> & Fo).
    + intros [key ms] Hin. cbn [fst snd]. destruct (HS key ms Hin) as [NE HF]. destruct ms as [|m ms]; [contradiction|].
      destruct (HF m (or_introl eq_refl)) as [Em _]. cbn [compact_key].
      destruct (seqR_map_ok (fun k => mapR (fun vs => (k, vs)) (seqR (map (fun r => field_get r k) (m :: ms)))) (map fst m)) as (d & Ed & Fd).
      * intros k Hk. rewrite Em in Hk.
        destruct (seqR_map_ok (fun r => field_get r k) (m :: ms)) as (vs & Ev & _).
        { intros r Hr. eapply fills_get; [apply HF, Hr|exact Hk]. }
        rewrite Ev. cbn. eauto.
      * rewrite Ed. cbn. eexists. split; [reflexivity|]. cbn. rewrite <- Em. clear -Fd.
        induction Fd as [|k e l ls He Fd IH]; [reflexivity|]. cbn. rewrite IH.
        destruct (seqR (map (fun r => field_get r k) (m :: ms))); [|discriminate]. injection He as <-. reflexivity.
    + exists out. split; [reflexivity|]. rewrite Forall_forall in Fo. intros key fields Hin. exact (Fo (key, fields) Hin).
Qed.
End Driver.

(* ------------------------------------------------------- data extraction *)

Lemma positions_spec cols have ps : positions cols have = Ok ps <-> Forall2 (fun c i => col_pos c have = Some i) cols ps.
Proof.
  revert ps. induction cols as [|c cols IH]; intros ps; cbn.
  - split; [intros [= <-]; constructor|intros H; inversion H; reflexivity].
  - destruct (col_pos c have) as [i|] eqn:E.
    + destruct (positions cols have) as [l|] eqn:E2; cbn.
      * split; [intros [= <-]; constructor; [exact E|apply IH; reflexivity]|]. intros H. inversion H as [|? j ? l' H1 H2]; subst.
        apply IH in H2. congruence.
      * split; [discriminate|]. intros H. inversion H as [|? j ? l' H1 H2]; subst. apply IH in H2. discriminate.
    + split; [discriminate|]. intros H. inversion H; congruence.
Qed.
Lemma select_columns_spec cols f d : select_columns cols f = Ok d <->
  exists ps, Forall2 (fun c i => col_pos c (fcols f) = Some i) cols ps /\
    d = mkFrame cols (map (fun tr => (fst tr, map (fun i => nth i (snd tr) None) ps)) (frows f)).
Proof.
  unfold select_columns. destruct (positions cols (fcols f)) as [ps|] eqn:E; cbn.
  - apply positions_spec in E as E'. split; [intros [= <-]; eauto|]. intros (ps' & F & ->). apply positions_spec in F. assert (ps' = ps) by congruence. subst. reflexivity.
  - split; [discriminate|]. intros (ps' & F & _). apply positions_spec in F. congruence.
Qed.
Lemma col_pos_in c l : In c l <-> exists i, col_pos c l = Some i.
Proof.
  induction l as [|x l IH]; cbn; [split; [contradiction|intros [? [=]]]|].
  destruct (String.eqb_spec c x) as [->|N].
  - split; [eauto|auto].
  - split.
    + intros [E|H]; [congruence|]. apply IH in H. destruct H as [i ->]. eauto.
    + intros [i H]. right. apply IH. destruct (col_pos c l); [eauto|discriminate].
Qed.
Lemma col_pos_nth c l i : col_pos c l = Some i -> nth_error l i = Some c.
Proof.
  revert i. induction l as [|x l IH]; intros i; cbn; [discriminate|].
  destruct (String.eqb_spec c x) as [->|N]; [intros [= <-]; reflexivity|].
  destruct (col_pos c l); [|discriminate]. intros [= <-]. cbn. apply IH. reflexivity.
Qed.
Lemma Forall2_map_l {A B C} (R : B -> C -> Prop) (f : A -> B) l m : Forall2 R (map f l) m <-> Forall2 (fun a c => R (f a) c) l m.
Proof.
  revert m. induction l as [|a l IH]; intros m; cbn; split; intros H; inversion H; subst; constructor; auto; apply IH; auto.
Qed.

Lemma extraction (f : frame) rt d :
  mapR (fun d => Some (dropna_any d)) (select_columns (map enc rt) f) = Ok (Some d) <-> complete_rows f rt d.
Proof.
  unfold complete_rows. split.
  - destruct (select_columns (map enc rt) f) as [d0|] eqn:E; cbn; [|discriminate]. intros [= <-].
    apply select_columns_spec in E. destruct E as (ps & F & ->). apply Forall2_map_l in F. cbn. split; [reflexivity|]. exists ps. auto.
  - intros (Ec & ps & F & Er).
    rewrite (proj2 (select_columns_spec (map enc rt) f (mkFrame (map enc rt) (map (fun tr => (fst tr, map (fun i => nth i (snd tr) None) ps)) (frows f))))); [|exists ps; split; [apply Forall2_map_l, F|reflexivity]].
    cbn. unfold dropna_any. cbn. rewrite <- Er, <- Ec. destruct d; reflexivity.
Qed.

Lemma get_data_ok tref matched rt d : get_data_for_result_tuple tref matched rt = Ok (Some d) ->
  exists key f, In (key, f) matched /\ complete_rows f rt d /\
    ((exists x, In (x, f) matched /\ Permutation x (map fst rt)) \/
     (hd_error key = Some tref /\ exists k0 f0 rest, matched = (k0, f0) :: rest /\ List.length k0 <> List.length rt)).
Proof.
  unfold get_data_for_result_tuple. destruct matched as [|[k0 f0] matched0] eqn:EM; [discriminate|].
  rewrite <- EM. destruct (Nat.eqb (List.length k0) (List.length (map fst rt))) eqn:EL.
  - clear EM. cbn [bindR].
    destruct (find (fun e => key_eqb (s_sort str_leb (map fst rt)) (s_sort str_leb (fst e))) matched) as [[key f1]|] eqn:F1.
    + destruct (find (fun e => key_eqb (fst e) key) matched) as [[key2 f2]|] eqn:F2; cbn [option_map snd]; [|discriminate].
      intros H. apply extraction in H. apply find_some in F2 as [I2 E2]. cbn in E2. apply key_eqb_spec in E2. subst key2.
      exists key, f2. split; [exact I2|]. split; [exact H|]. left. exists key. split; [exact I2|].
      apply find_some in F1 as [_ E1]. cbn [fst] in E1. apply key_eqb_spec in E1.
      etransitivity; [symmetry; apply (s_sort_perm str_leb)|]. rewrite <- E1. apply s_sort_perm.
    + destruct (find (fun e => key_eqb (fst e) (map fst rt)) matched) as [[key2 f2]|] eqn:F2; cbn [option_map snd]; [|discriminate].
      intros H. exfalso. apply find_some in F2 as [I2 E2]. cbn in E2. apply key_eqb_spec in E2. subst key2.
      assert (C := find_none _ _ F1 _ I2). cbn [fst] in C. rewrite (proj2 (key_eqb_spec _ _) eq_refl) in C. discriminate.
  - destruct (rev _) as [|[key f] rest] eqn:ER; [discriminate|]. cbn [bindR]. intros H. apply extraction in H.
    assert (Hi : In (key, f) (filter (fun e : list string * frame => match fst e with x :: _ => String.eqb tref x | [] => false end) matched)).
    { apply in_rev. rewrite ER. left. reflexivity. }
    apply filter_In in Hi as [Hi Hp]. exists key, f. split; [exact Hi|]. split; [exact H|]. right. cbn in Hp.
    destruct key as [|x key]; [discriminate|]. apply String.eqb_eq in Hp. subst x. split; [reflexivity|].
    exists k0, f0, matched0. split; [exact EM|]. apply Nat.eqb_neq in EL. rewrite map_length in EL. exact EL.
Qed.

(* the matched sets have as many datasets as requested and none of them has exactly these *)
Lemma get_data_none tref matched rt : get_data_for_result_tuple tref matched rt = Ok None ->
  forall key f, In (key, f) matched -> ~ Permutation key (map fst rt).
Proof.
  unfold get_data_for_result_tuple. destruct matched as [|[k0 f0] matched0] eqn:EM; [discriminate|].
  rewrite <- EM. clear EM. destruct (Nat.eqb (List.length k0) (List.length (map fst rt))).
  - cbn [bindR]. intros H key f Hin P.
    destruct (find (fun e => key_eqb (s_sort str_leb (map fst rt)) (s_sort str_leb (fst e))) matched) as [[key1 f1]|] eqn:F1.
    + destruct (find (fun e => key_eqb (fst e) key1) matched) as [[key2 f2]|] eqn:F2; cbn [option_map snd] in H.
      * destruct (select_columns _ f2); discriminate.
      * apply find_some in F1 as [I1 _]. assert (C := find_none _ _ F2 _ I1). cbn in C.
        rewrite (proj2 (key_eqb_spec _ _) eq_refl) in C. discriminate.
    + assert (C := find_none _ _ F1 _ Hin). cbn [fst] in C.
      assert (E : s_sort str_leb (map fst rt) = s_sort str_leb key).
      { apply s_sort_perm_eq; [exact str_leb_total|exact str_leb_trans|exact str_leb_antisym|]. symmetry. exact P. }
      rewrite E, (proj2 (key_eqb_spec _ _) eq_refl) in C. discriminate.
  - destruct (rev _) as [|[key1 f1] rest]; [discriminate|]. cbn [bindR]. destruct (select_columns _ f1); discriminate.
Qed.

(* one matched set that has all requested columns *)
Lemma get_data_single tref key f rt : hd_error key = Some tref ->
  (List.length key = List.length rt -> Permutation key (map fst rt)) ->
  (forall x, In x rt -> In (enc x) (fcols f)) ->
  exists d, get_data_for_result_tuple tref [(key, f)] rt = Ok (Some d) /\ complete_rows f rt d.
Proof.
  intros H0 HP HC.
  assert (exists ps, Forall2 (fun x i => col_pos (enc x) (fcols f) = Some i) rt ps) as [ps F].
  { clear -HC. induction rt as [|x rt IH]; [exists []; constructor|].
    destruct (IH (fun y Hy => HC y (or_intror Hy))) as [ps F]. destruct (proj1 (col_pos_in (enc x) (fcols f)) (HC x (or_introl eq_refl))) as [i Hi].
    exists (i :: ps). constructor; assumption. }
  set (d := mkFrame (map enc rt) (filter (fun tr => forallb notna (snd tr))
                (map (fun tr => (fst tr, map (fun i => nth i (snd tr) None) ps)) (frows f)))).
  assert (C : complete_rows f rt d) by (split; [reflexivity|exists ps; split; [exact F|reflexivity]]).
  exists d. split; [|exact C]. apply extraction in C. unfold get_data_for_result_tuple.
  destruct (Nat.eqb_spec (List.length key) (List.length (map fst rt))) as [E|E].
  - rewrite map_length in E. cbn [find fst].
    assert (ES : s_sort str_leb (map fst rt) = s_sort str_leb key).
    { apply s_sort_perm_eq; [exact str_leb_total|exact str_leb_trans|exact str_leb_antisym|]. symmetry. apply HP, E. }
    rewrite ES, (proj2 (key_eqb_spec _ _) eq_refl). rewrite (proj2 (key_eqb_spec key key) eq_refl). exact C.
  - cbn [filter fst]. destruct key as [|x key]; [discriminate|]. cbn in H0. injection H0 as ->. rewrite String.eqb_refl. exact C.
Qed.

(* ------------------------------------------------------- processing jobs *)

Lemma z_insert_in x l y : In y (z_insert x l) <-> y = x \/ In y l.
Proof.
  induction l as [|a l IH]; cbn; [intuition congruence|]. destruct (Z.ltb_spec x a); cbn; [intuition congruence|].
  destruct (Z.eqb_spec x a); cbn; [subst; intuition congruence|]. rewrite IH. intuition congruence.
Qed.
Lemma z_unique_in l y : In y (z_unique l) <-> In y l.
Proof. induction l as [|a l IH]; cbn; [reflexivity|]. rewrite z_insert_in, IH. intuition congruence. Qed.
Lemma z_insert_sorted x l : StronglySorted Z.lt l -> StronglySorted Z.lt (z_insert x l).
Proof.
  induction 1 as [|a l S IH F]; cbn; [repeat constructor|]. destruct (Z.ltb_spec x a).
  - constructor; [constructor; assumption|]. constructor; [assumption|]. eapply Forall_impl; [|exact F]. cbn. lia.
  - destruct (Z.eqb_spec x a); [constructor; assumption|]. constructor; [exact IH|]. rewrite Forall_forall in F |- *.
    intros y Hy. apply z_insert_in in Hy as [->|Hy]; [lia|auto].
Qed.
Lemma z_unique_sorted l : StronglySorted Z.lt (z_unique l).
Proof. induction l as [|a l IH]; cbn; [constructor|apply z_insert_sorted, IH]. Qed.

Lemma filter_split {A} (p : A -> bool) l : Permutation (filter p l ++ filter (fun x => negb (p x)) l) l.
Proof.
  induction l as [|x l IH]; cbn; [constructor|]. destruct (p x); cbn; [constructor; exact IH|].
  etransitivity; [symmetry; apply Permutation_middle|]. constructor. exact IH.
Qed.
Lemma partition_by {A} (key : A -> Z) (l : list A) (ks : list Z) : StronglySorted Z.lt ks -> (forall x, In x l -> In (key x) ks) ->
  Permutation (flat_map (fun k => filter (fun x => key x =? k) l) ks) l.
Proof.
  revert l. induction ks as [|k ks IH]; intros l S H; cbn.
  - destruct l as [|x l]; [constructor|]. destruct (H x (or_introl eq_refl)).
  - inversion S as [|? ? S' F]; subst. rewrite Forall_forall in F.
    assert (E : flat_map (fun k0 => filter (fun x => key x =? k0) l) ks =
                flat_map (fun k0 => filter (fun x => key x =? k0) (filter (fun x => negb (key x =? k)) l)) ks).
    { clear IH H S S'. induction ks as [|k0 ks IH]; [reflexivity|]. cbn. rewrite IH by (intros; apply F; right; assumption).
      f_equal. rewrite filter_filter'. apply filter_ext. intros x. specialize (F k0 (or_introl eq_refl)).
      destruct (Z.eqb_spec (key x) k0), (Z.eqb_spec (key x) k); try reflexivity; lia. }
    rewrite E. etransitivity; [|apply (filter_split (fun x => key x =? k) l)]. apply Permutation_app_head. apply IH; [exact S'|].
    intros x Hx. apply filter_In in Hx as [Hx N]. destruct (H x Hx) as [E'|Hin]; [|exact Hin].
    exfalso. rewrite E', Z.eqb_refl in N. discriminate.
Qed.

Definition job_points (t : list Z * list Q * list Q) : list (Z * Q * Q) :=
  let '(gpis, lons, lats) := t in combine (combine gpis lons) lats.
Lemma point_arrays_inv l : job_points (point_arrays l) = l.
Proof. unfold job_points, point_arrays. induction l as [|[[g x] y] l IH]; cbn; [reflexivity|]. f_equal. exact IH. Qed.

Lemma cell_jobs pts : exists js, get_processing_jobs (Some (CellGrid pts)) = map JobTriple js /\
  Permutation (flat_map job_points js) (map snd pts) /\
  forall j, In j js -> job_points j <> [] /\ exists cell, forall p, In p (job_points j) -> In (cell, p) pts.
Proof.
  exists (map (fun cell => point_arrays (map snd (filter (fun p => fst p =? cell) pts))) (z_unique (map fst pts))).
  split; [cbn; rewrite map_map; reflexivity|]. split.
  - rewrite flat_map_map.
    assert (E : forall ks, flat_map (fun x => job_points (point_arrays (map snd (filter (fun p => fst p =? x) pts)))) ks =
             map snd (flat_map (fun x => filter (fun p => fst p =? x) pts) ks)).
    { induction ks as [|k ks IH]; [reflexivity|]. cbn [flat_map]. rewrite IH, point_arrays_inv, map_app. reflexivity. }
    rewrite E. apply Permutation_map. apply (partition_by fst); [apply z_unique_sorted|].
    intros x Hx. apply z_unique_in, in_map, Hx.
  - intros j Hj. apply in_map_iff in Hj as (cell & <- & Hc). rewrite point_arrays_inv. apply (proj1 (z_unique_in _ _)) in Hc.
    apply in_map_iff in Hc as ([k p] & Ek & Hp). cbn in Ek. subst k. split.
    + intros C. apply map_eq_nil in C. assert (Hf : In (cell, p) (filter (fun p => fst p =? cell) pts)) by (apply filter_In; split; [exact Hp|cbn; apply Z.eqb_refl]).
      rewrite C in Hf. contradiction.
    + exists cell. intros q Hq. apply in_map_iff in Hq as ([k q'] & <- & Hq). apply filter_In in Hq as [Hq E]. cbn in E. apply Z.eqb_eq in E. subst k. exact Hq.
Qed.
