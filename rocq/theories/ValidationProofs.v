(* Proofs about the validation driver. *)
From Verif Require Import ValidationSpec BaseProofs SortProofs NamesProofs GroupingProofs MatchersProofs.
From Verif Require Import TemporalModel TemporalSpec.

Lemma bindV_ok {A B} (x : vres A) (f : A -> vres B) b : bindV x f = VOk b <-> exists a, x = VOk a /\ f a = VOk b.
Proof. destruct x; cbn; split; [eauto|intros (a' & [= <-] & H); exact H|discriminate|intros (a & [=] & _)]. Qed.
Lemma bindV_err {A B} (x : vres A) (f : A -> vres B) e : bindV x f = VErr e <-> x = VErr e \/ exists a, x = VOk a /\ f a = VErr e.
Proof.
  destruct x; cbn; split; [eauto|intros [[=]|(a' & [= <-] & H)]; exact H|left; congruence|].
  intros [[= ->]|(a & [=] & _)]; reflexivity.
Qed.
Lemma liftR_ok {A} (x : res A) a : liftR x = VOk a <-> x = Ok a.
Proof. destruct x; cbn; split; congruence. Qed.
Lemma liftR_err {A} (x : res A) e : liftR x = VErr e <-> exists e', x = Err e' /\ e = PError e'.
Proof. destruct x; cbn; split; [discriminate|intros (? & [=] & _)|intros [= <-]; eauto|intros (? & [= ->] & ->); reflexivity]. Qed.
Lemma raise_as_ok {A} s (x : res A) a : raise_as s x = VOk a <-> x = Ok a.
Proof. destruct x; cbn; split; congruence. Qed.
Lemma raise_as_err {A} s (x : res A) e : raise_as s x = VErr e <-> (exists e', x = Err e') /\ e = VError s.
Proof. destruct x; cbn; split; [discriminate|intros [[? [=]] _]|intros [= <-]; eauto|intros [_ ->]; reflexivity]. Qed.

Lemma mapV_ok {A B} (f : A -> vres B) l bs : mapV f l = VOk bs <-> Forall2 (fun a b => f a = VOk b) l bs.
Proof.
  revert bs. induction l as [|a l IH]; intros bs; cbn.
  - split; [intros [= <-]; constructor|intros H; inversion H; reflexivity].
  - rewrite bindV_ok. split.
    + intros (b & Hb & H). rewrite bindV_ok in H. destruct H as (bs' & H & [= <-]). constructor; [exact Hb|]. apply IH, H.
    + intros H. inversion H as [|? b ? bs' H1 H2]; subst. exists b. split; [exact H1|].
      rewrite (proj2 (IH bs') H2). reflexivity.
Qed.
Lemma mapV_err {A B} (f : A -> vres B) l e : mapV f l = VErr e -> exists a, In a l /\ f a = VErr e.
Proof.
  induction l as [|a l IH]; cbn; [discriminate|]. rewrite bindV_err. intros [H|(b & Hb & H)]; [eauto|].
  rewrite bindV_err in H. destruct H as [H|(bs & _ & [=])]. destruct (IH H) as (x & Hx & E). eauto.
Qed.

Lemma seqR_forall2 {A B} (f : A -> res B) l r : seqR (map f l) = Ok r <-> Forall2 (fun a b => f a = Ok b) l r.
Proof.
  revert r. induction l as [|a l IH]; intros r; cbn.
  - split; [intros [= <-]; constructor|intros H; inversion H; reflexivity].
  - destruct (f a) as [b|e] eqn:E; cbn.
    + destruct (seqR (map f l)) as [bs|e] eqn:E2; cbn.
      * split; [intros [= <-]; constructor; [exact E|apply IH; reflexivity]|].
        intros H. inversion H as [|? b' ? bs' H1 H2]; subst. rewrite E in H1. injection H1 as ->. apply IH in H2. congruence.
      * split; [discriminate|]. intros H. inversion H as [|? b' ? bs' H1 H2]; subst. apply IH in H2. discriminate.
    + split; [discriminate|]. intros H. inversion H as [|? b' ? bs' H1 H2]; subst. congruence.
Qed.
Lemma seqR_map_err {A B} (f : A -> res B) l e : seqR (map f l) = Err e -> exists a, In a l /\ f a = Err e.
Proof.
  induction l as [|a l IH]; cbn; [discriminate|]. destruct (f a) as [b|e'] eqn:E; cbn; [|intros [= <-]; eauto].
  destruct (seqR (map f l)); cbn; [discriminate|]. intros [= <-]. destruct (IH eq_refl) as (x & Hx & Ex). eauto.
Qed.

(* a loop that appends one entry to a dictionary under a new key *)
Section Append.
Context {X K M : Type} (keq : K -> K -> bool) (Hk : forall a b, keq a b = true <-> a = b).
Lemma dict_append_fresh (d : list (K * list M)) k v : ~ In k (map fst d) -> dict_append keq d k v = d ++ [(k, v)].
Proof.
  induction d as [|[k' l] d IH]; intros H; cbn; [reflexivity|]. destruct (keq k' k) eqn:E.
  - apply Hk in E. subst. exfalso. apply H. left. reflexivity.
  - rewrite IH; [reflexivity|]. intros C. apply H. right. exact C.
Qed.
Lemma dict_append_at (d : list (K * list M)) k l v d1 d2 : NoDup (map fst d) -> d = d1 ++ (k, l) :: d2 ->
  dict_append keq d k v = d1 ++ (k, l ++ v) :: d2.
Proof.
  revert d. induction d1 as [|[k' l'] d1 IH]; intros d N ->; cbn.
  - rewrite (proj2 (Hk k k) eq_refl). reflexivity.
  - cbn in N. inversion N as [|? ? N1 N2]; subst. destruct (keq k' k) eqn:E.
    + apply Hk in E. subst. exfalso. apply N1. rewrite map_app. apply in_or_app. right. left. reflexivity.
    + f_equal. apply IH; [exact N2|reflexivity].
Qed.
Lemma add_all_same (r res1 res2 : list (K * list M)) : NoDup (map fst (res1 ++ res2)) -> map fst res2 = map fst r ->
  fold_left (fun d e => dict_append keq d (fst e) (snd e)) r (res1 ++ res2) =
  res1 ++ map2 (fun a b => (fst a, snd a ++ snd b)) res2 r.
Proof.
  revert res1 res2. induction r as [|[k v] r IH]; intros res1 res2 N E.
  - destruct res2; [reflexivity|discriminate].
  - destruct res2 as [|[k' l] res2]; [discriminate|]. cbn in E. injection E as -> E. cbn [fold_left fst snd].
    rewrite (dict_append_at _ k l v res1 res2 N eq_refl).
    replace (res1 ++ (k, l ++ v) :: res2) with ((res1 ++ [(k, l ++ v)]) ++ res2) by (rewrite <- app_assoc; reflexivity).
    rewrite IH; [cbn; rewrite <- app_assoc; reflexivity| |exact E].
    rewrite map_app in N |- *. rewrite map_app. cbn [map fst] in N |- *. rewrite <- app_assoc. exact N.
Qed.
Lemma add_all_fresh (r res : list (K * list M)) : NoDup (map fst r) -> (forall k, In k (map fst r) -> ~ In k (map fst res)) ->
  fold_left (fun d e => dict_append keq d (fst e) (snd e)) r res = res ++ r.
Proof.
  revert res. induction r as [|[k v] r IH]; intros res N D; cbn; [rewrite app_nil_r; reflexivity|].
  cbn in N. inversion N as [|? ? N1 N2]; subst. rewrite dict_append_fresh by (apply D; left; reflexivity).
  rewrite IH; [rewrite <- app_assoc; reflexivity|exact N2|].
  intros k' H. rewrite map_app. intros C. apply in_app_or in C as [C|[C|[]]].
  - apply (D k'); [right; exact H|exact C].
  - cbn in C. subst. contradiction.
Qed.
Definition entries (kf : X -> K) (xo : X * option M) : list (K * list M) :=
  match snd xo with None => [] | Some m => [(kf (fst xo), [m])] end.
Lemma loop_ok (step : X -> vres (option M)) (kf : X -> K) l res r :
  NoDup (map kf l) -> (forall x, In x l -> ~ In (kf x) (map fst res)) ->
  foldV (fun res x => bindV (step x) (fun o => VOk (match o with None => res | Some m => dict_append keq res (kf x) [m] end))) res l = VOk r ->
  exists os, Forall2 (fun x o => step x = VOk o) l os /\ r = res ++ flat_map (entries kf) (combine l os).
Proof.
  revert res. induction l as [|x l IH]; intros res N D H; cbn in *.
  - injection H as <-. exists []. split; [constructor|]. rewrite app_nil_r. reflexivity.
  - inversion N as [|? ? N1 N2]; subst. rewrite bindV_ok in H. destruct H as (res' & Hs & H).
    rewrite bindV_ok in Hs. destruct Hs as (o & Ho & [= <-]).
    destruct o as [m|].
    + rewrite dict_append_fresh in H by (apply D; left; reflexivity).
      assert (D' : forall y, In y l -> ~ In (kf y) (map fst (res ++ [(kf x, [m])]))).
      { intros y Hy. rewrite map_app. intros C. apply in_app_or in C. destruct C as [C|C].
        - apply (D y); [right; exact Hy|exact C].
        - cbn in C. destruct C as [C|[]]. apply N1. rewrite C. apply in_map, Hy. }
      destruct (IH _ N2 D' H) as (os & F & ->).
      exists (Some m :: os). split; [constructor; assumption|]. cbn. rewrite <- app_assoc. reflexivity.
    + destruct (IH _ N2 (fun y Hy => D y (or_intror Hy)) H) as (os & F & ->).
      exists (None :: os). split; [constructor; assumption|]. reflexivity.
Qed.
Lemma loop_err (step : X -> vres (option M)) (kf : X -> K) l res e :
  foldV (fun res x => bindV (step x) (fun o => VOk (match o with None => res | Some m => dict_append keq res (kf x) [m] end))) res l = VErr e ->
  exists x, In x l /\ step x = VErr e.
Proof.
  revert res. induction l as [|x l IH]; intros res H; cbn in *; [discriminate|].
  rewrite bindV_err in H. destruct H as [H|(res' & _ & H)].
  - rewrite bindV_err in H. destruct H as [H|(o & _ & [=])]. eauto.
  - destruct (IH _ H) as (y & Hy & E). eauto.
Qed.
End Append.

Lemma foldV_err {A S} (f : S -> A -> vres S) l s e : foldV f s l = VErr e -> exists a s', In a l /\ f s' a = VErr e.
Proof.
  revert s. induction l as [|a l IH]; intros s; cbn; [discriminate|]. rewrite bindV_err. intros [H|(s' & _ & H)]; [eauto|].
  destruct (IH _ H) as (x & s'' & Hx & E). eauto.
Qed.

Section Driver.
Context {G V : Type}.
Variable code : Z -> V.
Notation metrics := (list (field * fval V)).
Notation config := (@config G V).

(* the combinations of one group size *)
Definition names_of (c : config) (k : nat) : list (list dscol) :=
  match get_result_combinations (c_ds c) k with Ok l => l | Err _ => [] end.
Lemma names_of_spec (c : config) k : wf_dict (c_ds c) -> (1 <= k)%nat ->
  get_result_combinations (c_ds c) k = Ok (names_of c k) /\ NoDup (names_of c k) /\
  (forall key, In key (names_of c k) <-> selection (c_ds c) k key).
Proof.
  intros W Hk. destruct (combinations_spec (c_ds c) k W Hk) as (out & E & _ & N & I).
  unfold names_of. rewrite E. auto.
Qed.

(* keys of different calculators differ *)
Definition key_list (c : config) (only_ref : bool) (calcs : list ((nat * nat) * (frame -> G -> res metrics))) : list (list dscol) :=
  flat_map (fun e => filter (fun key => negb (skip_key c only_ref key)) (names_of c (snd (fst e)))) calcs.
Definition calcs_ok (calcs : list ((nat * nat) * (frame -> G -> res metrics))) : Prop :=
  (forall n k f, In ((n, k), f) calcs -> (1 <= k)%nat) /\ NoDup (map (fun e => snd (fst e)) calcs).

Lemma key_list_in (c : config) only_ref calcs key : wf_dict (c_ds c) -> calcs_ok calcs ->
  (In key (key_list c only_ref calcs) <-> exists n k f, In ((n, k), f) calcs /\ selection (c_ds c) k key /\
     (only_ref = true -> In (c_ref c) (map fst key))).
Proof.
  intros W [C _]. unfold key_list. rewrite in_flat_map. split.
  - intros ([[n k] f] & He & H). apply filter_In in H as [H S]. cbn in H. exists n, k, f. split; [exact He|].
    split; [apply names_of_spec; eauto|]. intros ->. unfold skip_key in S. cbn in S. rewrite negb_involutive in S.
    apply mem_in, S.
  - intros (n & k & f & He & H & O). exists ((n, k), f). split; [exact He|]. apply filter_In.
    split; [apply names_of_spec; [exact W|eapply C; eauto|exact H]|]. unfold skip_key. destruct only_ref; [|reflexivity].
    cbn. rewrite negb_involutive. apply mem_in, O. reflexivity.
Qed.
Lemma calcs_ok_tail e calcs : calcs_ok (e :: calcs) -> calcs_ok calcs.
Proof. intros [A B]. split; [intros n k f H; apply (A n k f); right; exact H|]. cbn in B. inversion B. assumption. Qed.
Lemma names_disjoint (c : config) e calcs key e' : wf_dict (c_ds c) -> calcs_ok (e :: calcs) -> In e' calcs ->
  In key (names_of c (snd (fst e))) -> ~ In key (names_of c (snd (fst e'))).
Proof.
  intros W [C N] He H H'. destruct e as [[n k] f], e' as [[n' k'] f']. cbn [fst snd] in *.
  apply names_of_spec in H; [|exact W|apply (C n k f); left; reflexivity].
  apply names_of_spec in H'; [|exact W|apply (C n' k' f'); right; exact He].
  destruct H as (L & _), H' as (L' & _). assert (k = k') by congruence. clear L L'. subst k'.
  cbn in N. apply NoDup_cons_iff in N as [N1 _]. apply N1. apply in_map_iff. exists (n', k, f'). split; [reflexivity|exact He].
Qed.
Lemma key_list_nodup (c : config) only_ref calcs : wf_dict (c_ds c) -> calcs_ok calcs -> NoDup (key_list c only_ref calcs).
Proof.
  intros W. induction calcs as [|e calcs IH]; intros C; cbn; [constructor|].
  apply nodup_app.
  - apply NoDup_filter. destruct e as [[n k] f]. apply names_of_spec; [exact W|]. destruct C as [C _]. apply (C n k f). left. reflexivity.
  - apply IH. eapply calcs_ok_tail; eauto.
  - intros key H H'. apply filter_In in H as [H _]. apply in_flat_map in H' as (e' & He & H'). apply filter_In in H' as [H' _].
    exact (names_disjoint c e calcs key e' W C He H H').
Qed.

Lemma validate_key_none (c : config) ig rn oref g f matched key o :
  validate_key code c ig rn oref g f matched key = VOk o -> (o = None <-> skip_key c oref key = true).
Proof.
  unfold validate_key. rewrite bindV_ok. intros (data & _ & H). destruct (skip_key c oref key).
  - injection H as <-. tauto.
  - split; [|discriminate]. intros ->. exfalso.
    assert (D : forall s, bindV (liftR (f (empty_frame key) g)) (fun m => liftR (mapR Some (set_status_name (code s) m))) <> VOk None).
    { intros s. destruct (f (empty_frame key) g); cbn; [|discriminate]. destruct (set_status_name (code s) a); cbn; discriminate. }
    destruct data as [data|]; [|destruct ig; [eapply D; exact H|discriminate]].
    destruct (Nat.eqb (List.length (frows data)) 0); [destruct ig; [eapply D; exact H|discriminate]|].
    cbv zeta in H. rewrite bindV_ok in H. destruct H as (d2 & _ & H).
    destruct (f _ g) in H; [discriminate|]. destruct ig; [eapply D; exact H|discriminate].
Qed.

(* the double loop of perform_validation *)
Definition jobs_loop (c : config) ig rn oref g (cm : list (((nat * nat) * (frame -> G -> res metrics)) * list (list string * frame))) res0 :=
  foldV (fun res em =>
        let '(((n, k), calc), matched) := em in
        if Nat.eqb (List.length matched) 0 then VErr (VError NO_TEMP_MATCHED_DATA) else
        bindV (liftR (get_result_combinations (c_ds c) k)) (fun names =>
        foldV (fun res result =>
            bindV (validate_key code c ig rn oref g calc matched result) (fun o =>
            VOk (match o with None => res | Some m => add_result res result [m] end))) res names))
      res0 cm.

Lemma flat_entries_keys (c : config) ig rn oref g f matched (l : list (list dscol)) os :
  Forall2 (fun x o => validate_key code c ig rn oref g f matched x = VOk o) l os ->
  map fst (flat_map (entries (fun x : list dscol => x)) (combine l os)) = filter (fun key => negb (skip_key c oref key)) l.
Proof.
  induction 1 as [|x o l os H F IH]; [reflexivity|]. cbn. rewrite map_app, IH.
  apply validate_key_none in H. unfold entries. cbn [fst snd]. destruct o as [m|].
  - destruct (skip_key c oref x); [destruct H as [_ H]; discriminate (H eq_refl)|]. reflexivity.
  - rewrite (proj1 H eq_refl). reflexivity.
Qed.

Lemma jobs_loop_ok (c : config) ig rn oref g cm res0 r : wf_dict (c_ds c) -> calcs_ok (map fst cm) ->
  (forall key, In key (map fst res0) -> forall e, In e (map fst cm) -> ~ In key (names_of c (snd (fst e)))) ->
  jobs_loop c ig rn oref g cm res0 = VOk r ->
  exists r', r = res0 ++ r' /\ map fst r' = key_list c oref (map fst cm) /\
    (forall n k f matched, In (((n, k), f), matched) cm -> matched <> []) /\
    (forall key ms, In (key, ms) r' -> exists n k f matched m, In (((n, k), f), matched) cm /\ List.length key = k /\
       ms = [m] /\ validate_key code c ig rn oref g f matched key = VOk (Some m)).
Proof.
  intros W. revert res0. induction cm as [|[[[n k] f] matched] cm IH]; intros res0 C D H; cbn in H.
  - injection H as <-. exists []. rewrite app_nil_r. split; [reflexivity|]. split; [reflexivity|].
    split; [contradiction|]. intros key ms [].
  - rewrite bindV_ok in H. destruct H as (res1 & H1 & H).
    destruct (Nat.eqb (List.length matched) 0) eqn:E0; [discriminate|].
    assert (Hk : (1 <= k)%nat) by (destruct C as [C _]; apply (C n k f); left; reflexivity).
    destruct (names_of_spec c k W Hk) as (En & Nn & In_). rewrite En in H1. cbn [liftR bindV] in H1.
    apply (loop_ok combo_eqb combo_eqb_spec (validate_key code c ig rn oref g f matched) (fun x => x)) in H1; cycle 1.
    { rewrite map_id. exact Nn. }
    { intros x Hx Hc. apply (D x Hc ((n, k), f)); [left; reflexivity|exact Hx]. }
    destruct H1 as (os & F & ->).
    assert (KE := flat_entries_keys _ _ _ _ _ _ _ _ _ F).
    specialize (IH (res0 ++ flat_map (entries (fun x : list dscol => x)) (combine (names_of c k) os)) (calcs_ok_tail _ _ C)).
    destruct IH as (r' & -> & K & M & P).
    + intros key Hkey e He. rewrite map_app in Hkey. apply in_app_or in Hkey as [Hkey|Hkey].
      * apply (D key Hkey). right. exact He.
      * rewrite KE in Hkey. apply filter_In in Hkey as [Hkey _]. exact (names_disjoint c ((n, k), f) _ key e W C He Hkey).
    + exact H.
    + exists (flat_map (entries (fun x : list dscol => x)) (combine (names_of c k) os) ++ r').
      split; [rewrite app_assoc; reflexivity|]. split; [rewrite map_app, KE, K; reflexivity|]. split.
      { intros n' k' f' m' [E|Hi]; [injection E as <- <- <- <-; destruct matched; [discriminate|discriminate]|eapply M; exact Hi]. }
      intros key ms Hin. apply in_app_or in Hin as [Hin|Hin].
      * apply in_flat_map in Hin as ([x o] & Hxo & Hin). unfold entries in Hin. cbn [fst snd] in Hin.
        destruct o as [m|]; [|contradiction]. destruct Hin as [[= <- <-]|[]].
        exists n, k, f, matched, m. split; [left; reflexivity|].
        assert (Hx := in_combine_l _ _ _ _ Hxo). apply In_ in Hx. destruct Hx as (L & _). split; [exact L|]. split; [reflexivity|].
        clear -F Hxo. induction F as [|y o' l os Hy F IHF]; [contradiction|].
        destruct Hxo as [[= -> ->]|Hxo]; [exact Hy|apply IHF, Hxo].
      * destruct (P key ms Hin) as (n' & k' & f' & m' & m & Hi & Rest). exists n', k', f', m', m. split; [right; exact Hi|exact Rest].
Qed.

Lemma data_columns_mapV (c : config) (l ds : df_dict) :
  Forall2 (fun e d => bindV (liftR (columns c (fst e))) (fun cs =>
                      bindV (liftR (select_columns cs (snd e))) (fun f => VOk (fst e, f))) = VOk d) l ds -> data_columns c l ds.
Proof.
  unfold data_columns. intros H. induction H as [|e d l ds He F IH]; constructor; [|exact IH].
  rewrite bindV_ok in He. destruct He as (cs & Hc & He). rewrite bindV_ok in He. destruct He as (f & Hf & [= <-]).
  apply liftR_ok in Hc, Hf. cbn. split; [reflexivity|]. unfold columns in Hc. destruct (columns_of (c_ds c) (fst e)) as [cs'|]; [|discriminate].
  injection Hc as ->. exists cs. auto.
Qed.
Lemma data_columns_mapV' (c : config) (l ds : df_dict) : data_columns c l ds ->
  Forall2 (fun e d => bindV (liftR (columns c (fst e))) (fun cs =>
                      bindV (liftR (select_columns cs (snd e))) (fun f => VOk (fst e, f))) = VOk d) l ds.
Proof.
  unfold data_columns. intros H. induction H as [|e d l ds He F IH]; constructor; [|exact IH].
  destruct He as (E & cs & Hc & Hs). unfold columns. rewrite Hc. cbn. rewrite Hs. cbn. rewrite <- E. destruct d; reflexivity.
Qed.

Lemma perform_cases (c : config) ig rn oref g dfs r : wf_config c ->
  perform_validation code c ig rn oref g dfs = VOk r ->
  (r = [] /\ exists mds gm ref masked, c_mask c = Some (mds, gm) /\ dict_get dfs (c_tref c) = Some ref /\
     mask_dataset c mds gm ref g = Ok masked /\ frows masked = []) \/
  (map fst r = key_list c oref (c_calcs c) /\
   exists dfs' data matched_n, masked_data c g dfs dfs' /\ data_columns c dfs' data /\
    Forall2 (fun e m => c_match c data (c_tref c) (fst (fst e)) = Ok m /\ m <> []) (c_calcs c) matched_n /\
  (forall key ms, In (key, ms) r -> exists n k f matched m, In (((n, k), f), matched) (combine (c_calcs c) matched_n) /\
      List.length key = k /\ ms = [m] /\ validate_key code c ig rn oref g f matched key = VOk (Some m))).
Proof.
  intros (W & C1 & C2). unfold perform_validation. rewrite bindV_ok. intros (o & Hm & H).
  assert (Ho : (o = None /\ exists mds gm ref masked, c_mask c = Some (mds, gm) /\ dict_get dfs (c_tref c) = Some ref /\
     mask_dataset c mds gm ref g = Ok masked /\ frows masked = []) \/ exists dfs', o = Some dfs' /\ masked_data c g dfs dfs').
  { unfold masked_data. destruct (c_mask c) as [[mds gm]|].
    - destruct (dict_get dfs (c_tref c)) as [ref|] eqn:Eg; [|discriminate]. rewrite bindV_ok in Hm.
      destruct Hm as (masked & Hmk & Ho). apply liftR_ok in Hmk.
      destruct (frows masked) eqn:Er; cbn in Ho; injection Ho as <-.
      + left. split; [reflexivity|]. exists mds, gm, ref, masked. auto.
      + right. eexists. split; [reflexivity|]. exists ref, masked. rewrite Er. split; [reflexivity|].
        split; [exact Hmk|]. split; [discriminate|reflexivity].
    - injection Hm as <-. right. eauto. }
  destruct Ho as [[-> Ho]|(dfs' & -> & MD)]; [left; injection H as <-; auto|]. right.
  rewrite bindV_ok in H. destruct H as (data & Hd & H).
  rewrite bindV_ok in H. destruct H as (mn & Hmn & H). apply raise_as_ok in Hmn.
  apply mapV_ok in Hd. apply seqR_forall2 in Hmn.
  assert (EC : map fst (combine (c_calcs c) mn) = c_calcs c).
  { clear -Hmn. induction Hmn as [|e m l ms He F IH]; [reflexivity|]. cbn. rewrite IH. reflexivity. }
  change (jobs_loop c ig rn oref g (combine (c_calcs c) mn) [] = VOk r) in H.
  apply jobs_loop_ok in H; [|exact W|rewrite EC; split; assumption|intros key []].
  destruct H as (r' & -> & K & NE & P). rewrite EC in K. split; [exact K|].
  exists dfs', data, mn. split; [exact MD|]. split.
  { apply data_columns_mapV. exact Hd. }
  split; [|exact P].
  clear -Hmn NE. induction Hmn as [|e m l ms He F IH]; constructor.
  - split; [exact He|]. destruct e as [[n k] f]. apply (NE n k f m). left. reflexivity.
  - apply IH. intros n k f m' Hin. apply (NE n k f m'). right. exact Hin.
Qed.
Lemma perform_ok (c : config) ig rn oref g dfs r : wf_config c -> reference_left c g -> c_get c g = Ok dfs ->
  perform_validation code c ig rn oref g dfs = VOk r ->
  map fst r = key_list c oref (c_calcs c) /\
  exists dfs' data matched_n, masked_data c g dfs dfs' /\ data_columns c dfs' data /\
    Forall2 (fun e m => c_match c data (c_tref c) (fst (fst e)) = Ok m /\ m <> []) (c_calcs c) matched_n /\
  (forall key ms, In (key, ms) r -> exists n k f matched m, In (((n, k), f), matched) (combine (c_calcs c) matched_n) /\
      List.length key = k /\ ms = [m] /\ validate_key code c ig rn oref g f matched key = VOk (Some m)).
Proof.
  intros W RL Hget H. destruct (perform_cases c ig rn oref g dfs r W H) as [(_ & mds & gm & ref & masked & A & B & C & D)|R]; [|exact R].
  exfalso. exact (RL mds gm dfs ref masked A Hget B C D).
Qed.

(* the dummy results *)
Lemma dummy_ok (c : config) oref g r : wf_config c -> dummy_validation_result c oref g = VOk r ->
  map fst r = key_list c oref (c_calcs c) /\
  forall key ms, In (key, ms) r -> exists m, ms = [m] /\ template c g key m.
Proof.
  intros (W & C1 & C2). unfold dummy_validation_result.
  assert (GEN : forall calcs res0 r, calcs_ok calcs ->
    (forall key, In key (map fst res0) -> forall e, In e calcs -> ~ In key (names_of c (snd (fst e)))) ->
    foldV (fun res e => let '((n, k), calc) := e in
      bindV (liftR (get_result_combinations (c_ds c) k)) (fun names =>
      foldV (fun res result => if skip_key c oref result then VOk res else
          bindV (liftR (calc (empty_frame result) g)) (fun m => VOk (add_result res result [m]))) res names)) res0 calcs = VOk r ->
    exists r', r = res0 ++ r' /\ map fst r' = key_list c oref calcs /\
      forall key ms, In (key, ms) r' -> exists n k f m, In ((n, k), f) calcs /\ List.length key = k /\ ms = [m] /\ f (empty_frame key) g = Ok m).
  { clear r C1 C2. induction calcs as [|[[n k] f] calcs IH]; intros res0 r C D H; cbn in H.
    - injection H as <-. exists []. rewrite app_nil_r. split; [reflexivity|]. split; [reflexivity|]. intros key ms [].
    - rewrite bindV_ok in H. destruct H as (res1 & H1 & H).
      assert (Hk : (1 <= k)%nat) by (destruct C as [C _]; apply (C n k f); left; reflexivity).
      destruct (names_of_spec c k W Hk) as (En & Nn & In_). rewrite En in H1. cbn [liftR bindV] in H1.
      set (step := fun result => if skip_key c oref result then VOk (@None metrics)
                                 else bindV (liftR (f (empty_frame result) g)) (fun m => VOk (Some m))).
      assert (E1 : foldV (fun res x => bindV (step x) (fun o => VOk (match o with None => res | Some m => dict_append combo_eqb res x [m] end))) res0 (names_of c k) = VOk res1).
      { rewrite <- H1. generalize (names_of c k) as l. intros l. revert res0 D H1. clear. intros res0 _ _. revert res0.
        induction l as [|x l IHl]; intros res0; [reflexivity|]. cbn. unfold step at 1. destruct (skip_key c oref x); cbn; [apply IHl|].
        destruct (f (empty_frame x) g); cbn; [apply IHl|reflexivity]. }
      apply (loop_ok combo_eqb combo_eqb_spec step (fun x => x)) in E1; cycle 1.
      { rewrite map_id. exact Nn. }
      { intros x Hx Hc. apply (D x Hc ((n, k), f)); [left; reflexivity|exact Hx]. }
      destruct E1 as (os & F & ->).
      assert (KE : map fst (flat_map (entries (fun x : list dscol => x)) (combine (names_of c k) os)) = filter (fun key => negb (skip_key c oref key)) (names_of c k)).
      { clear -F. induction F as [|x o l os Hx F IHF]; [reflexivity|]. cbn. rewrite map_app, IHF. unfold step in Hx. unfold entries. cbn [fst snd].
        destruct (skip_key c oref x); cbn.
        - injection Hx as <-. reflexivity.
        - destruct (f (empty_frame x) g); cbn in Hx; [injection Hx as <-; reflexivity|discriminate]. }
      destruct (IH (res0 ++ flat_map (entries (fun x : list dscol => x)) (combine (names_of c k) os)) r (calcs_ok_tail _ _ C)) as (r' & -> & K & P).
      + intros key Hkey e He. rewrite map_app in Hkey. apply in_app_or in Hkey as [Hkey|Hkey].
        * apply (D key Hkey). right. exact He.
        * rewrite KE in Hkey. apply filter_In in Hkey as [Hkey _]. exact (names_disjoint c ((n, k), f) _ key e W C He Hkey).
      + exact H.
      + exists (flat_map (entries (fun x : list dscol => x)) (combine (names_of c k) os) ++ r').
        split; [rewrite app_assoc; reflexivity|]. split; [rewrite map_app, KE, K; reflexivity|].
        intros key ms Hin. apply in_app_or in Hin as [Hin|Hin].
        * apply in_flat_map in Hin as ([x o] & Hxo & Hin). unfold entries in Hin. cbn [fst snd] in Hin.
          destruct o as [m|]; [|contradiction]. destruct Hin as [[= <- <-]|[]].
          exists n, k, f, m. split; [left; reflexivity|].
          assert (Hx := in_combine_l _ _ _ _ Hxo). apply In_ in Hx. destruct Hx as (L & _). split; [exact L|]. split; [reflexivity|].
          assert (Hs : step x = VOk (Some m)).
          { clear -F Hxo. induction F as [|y o' l os Hy F IHF]; [contradiction|].
            destruct Hxo as [[= -> ->]|Hxo]; [exact Hy|apply IHF, Hxo]. }
          unfold step in Hs. destruct (skip_key c oref x); [discriminate|]. destruct (f (empty_frame x) g); cbn in Hs; congruence.
        * destruct (P key ms Hin) as (n' & k' & f' & m & Hi & Rest). exists n', k', f', m. split; [right; exact Hi|exact Rest]. }
  intros H. destruct (GEN _ _ _ (conj C1 C2) (fun key (Hk : In key (map fst [])) => False_ind _ Hk) H) as (r' & -> & K & P).
  split; [exact K|]. intros key ms Hin. destruct (P key ms Hin) as (n & k & f & m & Hi & L & -> & E).
  exists m. split; [reflexivity|]. exists n, k, f. auto.
Qed.

Lemma is_status_spec k b : is_status k = Ok b -> (b = true <-> status_field k).
Proof.
  unfold status_field. destruct k as [s|l]; cbn.
  - intros [= <-]. rewrite String.eqb_eq. split; [intros ->; left; reflexivity|intros [[= ->]|(? & ? & [=])]; reflexivity].
  - destruct l as [|a [|b' r]]; cbn; try discriminate. intros [= <-]. rewrite String.eqb_eq. split.
    + intros ->. right. eauto.
    + intros [[=]|(s & r' & [= -> -> ->])]. reflexivity.
Qed.
Lemma set_first_ok (v : V) x x' : set_first v x = Ok x' -> exists a r, x = Arr (a :: r) /\ x' = Arr (v :: r).
Proof. destruct x as [[|a r]|]; cbn; try discriminate. intros [= <-]. eauto. Qed.
Lemma set_all_status_spec (v : V) (m m' : metrics) : set_all_status v m = Ok m' -> with_status v m m'.
Proof.
  revert m'. induction m as [|[k x] m IH]; intros m' H; cbn in H; [injection H as <-; constructor|].
  destruct (is_status k) as [b|] eqn:Es; [|discriminate]. cbn in H. apply is_status_spec in Es.
  destruct (if b then set_first v x else Ok x) as [x'|] eqn:Ex; [|discriminate]. cbn in H.
  destruct (set_all_status v m) as [m2|]; [|discriminate]. injection H as <-. constructor; [|apply IH; reflexivity].
  cbn. split; [reflexivity|]. destruct b.
  - split; [intros _; exact (set_first_ok _ _ _ Ex)|]. intros Hn. exfalso. apply Hn, Es. reflexivity.
  - injection Ex as <-. split; [|reflexivity]. intros Hs. apply Es in Hs. discriminate.
Qed.

Lemma set_codes_ok (v : V) r r' : set_codes v r = VOk r' -> (forall key ms, In (key, ms) r -> exists m, ms = [m]) ->
  map fst r' = map fst r /\ forall key ms', In (key, ms') r' -> exists m m', ms' = [m'] /\ In (key, [m]) r /\ with_status v m m'.
Proof.
  unfold set_codes. intros H. apply mapV_ok in H. induction H as [|[key ms] e l l' He F IH]; intros S.
  - split; [reflexivity|]. intros key ms' [].
  - destruct IH as [K P]; [intros k m Hin; apply (S k m); right; exact Hin|].
    destruct (S key ms (or_introl eq_refl)) as [m ->]. cbn in He. rewrite bindV_ok in He. destruct He as (m' & Hm & [= <-]).
    apply liftR_ok in Hm. split; [cbn; rewrite K; reflexivity|]. intros k ms' [[= <- <-]|Hin].
    + exists m, m'. split; [reflexivity|]. split; [left; reflexivity|]. apply set_all_status_spec, Hm.
    + destruct (P k ms' Hin) as (a & b & -> & Ha & Hw). exists a, b. split; [reflexivity|]. split; [right; exact Ha|exact Hw].
Qed.

(* one grid point *)
Lemma gpi_ok (c : config) ig rn oref g r : wf_config c -> reference_left c g ->
  validate_gpi code c ig rn oref g = VOk r ->
  map fst r = key_list c oref (c_calcs c) /\ forall key ms, In (key, ms) r -> exists m, ms = [m].
Proof.
  intros W RL. unfold validate_gpi. destruct (attempt code c ig rn oref g) as [r0|x] eqn:E.
  - intros [= <-]. unfold attempt in E. rewrite bindV_ok in E. destruct E as (dfs & Hg & H). apply raise_as_ok in Hg.
    destruct (Nat.eqb (List.length dfs) 0); [discriminate|].
    apply perform_ok with (dfs := dfs) in H; [|exact W|exact RL|exact Hg]. destruct H as (K & dfs' & data & mn & _ & _ & _ & P).
    split; [exact K|]. intros key ms Hin. destruct (P key ms Hin) as (n & k & f & ma & m & _ & _ & -> & _). eauto.
  - destruct ig; [|discriminate]. rewrite bindV_ok. intros (r0 & Hd & Hs). apply dummy_ok in Hd; [|exact W].
    destruct Hd as [K P]. apply set_codes_ok in Hs.
    + destruct Hs as [K' P']. split; [congruence|]. intros key ms Hin. destruct (P' key ms Hin) as (m & m' & -> & _). eauto.
    + intros key ms Hin. destruct (P key ms Hin) as (m & -> & _). eauto.
Qed.

(* all grid points *)
Definition at_point (c : config) ig rn oref (key : list dscol) (g : G) (m : metrics) : Prop :=
  exists r, validate_gpi code c ig rn oref g = VOk r /\ In (key, [m]) r.
Lemma map2_keys {M} (res r : list (list dscol * list M)) key ms :
  map fst res = map fst r ->
  In (key, ms) (map2 (fun a b => (fst a, snd a ++ snd b)) res r) ->
  exists a b, In (key, a) res /\ In (key, b) r /\ ms = a ++ b.
Proof.
  revert r. induction res as [|[k a] res IH]; intros [|[k' b] r] E H; cbn in *; try contradiction; try discriminate.
  injection E as -> E. destruct H as [[= <- <-]|H].
  - exists a, b. auto.
  - destruct (IH r E H) as (x & y & Hx & Hy & ->). exists x, y. auto.
Qed.
Lemma map2_fst {M} (res r : list (list dscol * list M)) : map fst res = map fst r ->
  map fst (map2 (fun a b => (fst a, snd a ++ snd b)) res r) = map fst res.
Proof.
  revert r. induction res as [|[k a] res IH]; intros [|[k' b] r] E; cbn in *; try discriminate; [reflexivity|].
  injection E as -> E. rewrite (IH r E). reflexivity.
Qed.
Definition gpi_loop (c : config) ig rn oref res0 gpis :=
  foldV (fun res g =>
           bindV (validate_gpi code c ig rn oref g) (fun r =>
           VOk (fold_left (fun res e => add_result res (fst e) (snd e)) r res))) res0 gpis.
Lemma gpi_loop_ok (c : config) ig rn oref gpis pre res0 res : wf_config c -> (forall g, In g gpis -> reference_left c g) ->
  NoDup (key_list c oref (c_calcs c)) ->
  ((pre = [] /\ res0 = []) \/ (map fst res0 = key_list c oref (c_calcs c) /\
      forall key ms, In (key, ms) res0 -> Forall2 (at_point c ig rn oref key) pre ms)) ->
  gpi_loop c ig rn oref res0 gpis = VOk res ->
  (pre ++ gpis = [] /\ res = []) \/ (map fst res = key_list c oref (c_calcs c) /\
      forall key ms, In (key, ms) res -> Forall2 (at_point c ig rn oref key) (pre ++ gpis) ms).
Proof.
  intros W. revert pre res0. induction gpis as [|g gpis IH]; intros pre res0 RL N I H; cbn in H.
  - injection H as <-. rewrite app_nil_r. exact I.
  - rewrite bindV_ok in H. destruct H as (res1 & H1 & H). rewrite bindV_ok in H1. destruct H1 as (r & Hr & [= <-]).
    destruct (gpi_ok c ig rn oref g r W (RL g (or_introl eq_refl)) Hr) as [K S].
    replace (pre ++ g :: gpis) with ((pre ++ [g]) ++ gpis) by (rewrite <- app_assoc; reflexivity).
    apply (IH (pre ++ [g]) _ (fun g' Hg' => RL g' (or_intror Hg')) N) in H; [exact H|].
    right. destruct I as [[-> ->]|[K0 I]].
    + unfold add_result. rewrite (add_all_fresh combo_eqb combo_eqb_spec); [|rewrite K; exact N|intros k _ []]. cbn. split; [exact K|].
      intros key ms Hin. destruct (S key ms Hin) as [m ->]. constructor; [|constructor]. exists r. auto.
    + unfold add_result. assert (E := add_all_same combo_eqb combo_eqb_spec r [] res0). cbn [app] in E.
      rewrite E; [|rewrite K0; exact N|congruence]. split; [rewrite map2_fst; congruence|].
      intros key ms Hin. apply map2_keys in Hin; [|congruence]. destruct Hin as (a & b & Ha & Hb & ->).
      destruct (S key b Hb) as [m ->]. apply Forall2_app; [apply I, Ha|]. constructor; [|constructor]. exists r. auto.
Qed.

Lemma calc_ok (c : config) ig rn oref gpis out : wf_config c -> (forall g, In g gpis -> reference_left c g) ->
  gpis <> [] -> calc code c ig rn oref gpis = VOk out ->
  NoDup (map fst out) /\ (forall key, In key (map fst out) <-> exists n k f, reported c oref n k f key) /\
  forall key fields k arr, In (key, fields) out -> In (k, arr) fields ->
    Forall2 (fun g v => exists m, gpi_metrics code c ig rn oref g key m /\ field_get m k = Ok v) gpis arr.
Proof.
  intros W RL NE. unfold calc. rewrite bindV_ok. intros (res & H & Hc).
  change (gpi_loop c ig rn oref [] gpis = VOk res) in H. assert (W' := W). destruct W' as (W1 & C1 & C2).
  assert (N := key_list_nodup c oref (c_calcs c) W1 (conj C1 C2)).
  apply (gpi_loop_ok c ig rn oref gpis [] [] res W RL N) in H; [|left; auto].
  destruct H as [[E _]|[K P]]; [contradiction|]. cbn [app] in P. apply mapV_ok in Hc.
  assert (KO : map fst out = map fst res).
  { clear -Hc. induction Hc as [|e o l ls He F IH]; [reflexivity|]. rewrite bindV_ok in He. destruct He as (d & _ & [= <-]).
    cbn. rewrite IH. reflexivity. }
  split; [rewrite KO, K; exact N|]. split.
  { intros key. rewrite KO, K. unfold reported. rewrite key_list_in; [reflexivity|exact W1|split; assumption]. }
  intros key fields k arr Hin Hk.
  assert (exists ms, In (key, ms) res /\ compact_key ms = Ok fields) as (ms & Hms & Hf).
  { clear -Hc Hin. induction Hc as [|e o l ls He F IH]; [contradiction|]. rewrite bindV_ok in He. destruct He as (d & Hd & [= <-]).
    apply liftR_ok in Hd. destruct Hin as [[= <- <-]|Hin].
    - exists (snd e). split; [left; destruct e; reflexivity|exact Hd].
    - destruct (IH Hin) as (ms & Hm & E). exists ms. split; [right; exact Hm|exact E]. }
  specialize (P key ms Hms).
  assert (HA : Forall2 (fun m v => field_get m k = Ok v) ms arr).
  { destruct ms as [|m0 ms']; [discriminate|]. cbn [compact_key] in Hf. revert Hf. generalize (m0 :: ms') as l. intros l Hf.
    apply seqR_forall2 in Hf. clear -Hf Hk. induction Hf as [|k0 fa ks fs Hk0 F IH]; [contradiction|].
    destruct Hk as [Hk|Hk]; [|apply IH, Hk]. subst fa. destruct (seqR _) as [vs|] eqn:E; [|discriminate].
    cbn in Hk0. injection Hk0 as -> ->. apply seqR_forall2. exact E. }
  clear -P HA. revert arr HA. induction P as [|g m gs ms Hp P IH]; intros arr HA; inversion HA; subst; constructor; [|apply IH; assumption].
  exists m. split; [exact Hp|assumption].
Qed.

(* per-combination outcomes *)
Lemma validate_key_cases (c : config) ig rn oref g f matched key m :
  validate_key code c ig rn oref g f matched key = VOk (Some m) ->
  exists data, extract c true matched key = Ok data /\
  ((frame_len data = 0%nat /\ ig = true /\ exists t, f (empty_frame key) g = Ok t /\ set_status_name (code NO_TEMP_MATCHED_DATA) t = Ok m) \/
   (exists d s, data = Some d /\ frows d <> [] /\ scaled_data c g key d s /\
      (f (if rn then rename_columns key s else s) g = Ok m \/
       (ig = true /\ (exists e, f (if rn then rename_columns key s else s) g = Err e) /\
        exists t, f (empty_frame key) g = Ok t /\ set_status_name (code METRICS_CALCULATION_FAILED) t = Ok m)))).
Proof.
  unfold validate_key. rewrite bindV_ok. intros (data & He & H). apply liftR_ok in He. exists data. split; [exact He|].
  destruct (skip_key c oref key); [discriminate|].
  assert (D : forall s, bindV (liftR (f (empty_frame key) g)) (fun m => liftR (mapR Some (set_status_name (code s) m))) = VOk (Some m) ->
     exists t, f (empty_frame key) g = Ok t /\ set_status_name (code s) t = Ok m).
  { intros s Hs. rewrite bindV_ok in Hs. destruct Hs as (t & Ht & Hs). apply liftR_ok in Ht, Hs. exists t. split; [exact Ht|].
    destruct (set_status_name (code s) t); cbn in Hs; congruence. }
  destruct data as [data|]; [|left; split; [reflexivity|]; destruct ig; [split; [reflexivity|apply D, H]|discriminate]].
  destruct (Nat.eqb (List.length (frows data)) 0) eqn:E0.
  { left. apply Nat.eqb_eq in E0. split; [exact E0|]. destruct ig; [split; [reflexivity|apply D, H]|discriminate]. }
  right. cbv zeta in H. rewrite bindV_ok in H. destruct H as (s & Hs & H). exists data, s. split; [reflexivity|].
  split; [intros E; rewrite E in E0; discriminate|]. split.
  - unfold scaled_data. destruct (c_scale c) as [scale|]; [|injection Hs as <-; reflexivity].
    rewrite bindV_ok in Hs. destruct Hs as (i & Hi & Hs). rewrite bindV_ok in Hs. destruct Hs as (sc & Hsc & [= <-]).
    apply liftR_ok in Hi. apply raise_as_ok in Hsc. exists i, sc. split; [|split; [exact Hsc|reflexivity]].
    unfold index_of in Hi. destruct (col_pos (c_sref c) (fcols (drop_multiindex data))); congruence.
  - destruct (f (if rn then rename_columns key s else s) g) as [m'|e]; [left; congruence|].
    right. destruct ig; [|discriminate]. split; [reflexivity|]. split; [eauto|apply D, H].
Qed.
Lemma validate_key_err (c : config) rn oref g f matched key x :
  validate_key code c true rn oref g f matched key = VErr x ->
  (x = VError SCALING_FAILED /\ exists scale d i e, c_scale c = Some scale /\ scale d i g = Err e) \/ exists e, x = PError e.
Proof.
  unfold validate_key. rewrite bindV_err. intros [H|(data & _ & H)]; [right; apply liftR_err in H; destruct H as (e & _ & ->); eauto|].
  destruct (skip_key c oref key); [discriminate|].
  assert (D : forall s, bindV (liftR (f (empty_frame key) g)) (fun m => liftR (mapR Some (set_status_name (code s) m))) = VErr x ->
     exists e, x = PError e).
  { intros s Hs. rewrite bindV_err in Hs. destruct Hs as [Hs|(t & _ & Hs)]; apply liftR_err in Hs; destruct Hs as (e & _ & ->); eauto. }
  destruct data as [data|]; [|right; eapply D, H].
  destruct (Nat.eqb (List.length (frows data)) 0); [right; eapply D, H|].
  cbv zeta in H. rewrite bindV_err in H. destruct H as [H|(s & _ & H)].
  - destruct (c_scale c) as [scale|] eqn:Esc; [|discriminate]. rewrite bindV_err in H. destruct H as [H|(i & _ & H)].
    + right. apply liftR_err in H. destruct H as (e & _ & ->). eauto.
    + rewrite bindV_err in H. destruct H as [H|(sc & _ & [=])]. apply raise_as_err in H. destruct H as [[e He] ->].
      left. split; [reflexivity|]. exists scale, (drop_multiindex data), i, e. auto.
  - destruct (f (if rn then rename_columns key s else s) g); [discriminate|]. right. eapply D, H.
Qed.

Lemma jobs_loop_err (c : config) rn oref g cm res0 x : jobs_loop c true rn oref g cm res0 = VErr x ->
  (x = VError NO_TEMP_MATCHED_DATA /\ exists n k f, In (((n, k), f), []) cm) \/
  (x = VError SCALING_FAILED /\ exists scale d i e, c_scale c = Some scale /\ scale d i g = Err e) \/ exists e, x = PError e.
Proof.
  unfold jobs_loop. intros H. apply foldV_err in H. destruct H as ([[[n k] f] matched] & s' & Hin & H).
  destruct matched as [|m0 matched]; cbn [List.length Nat.eqb] in H.
  - left. injection H as <-. eauto.
  - right. rewrite bindV_err in H. destruct H as [H|(names & _ & H)].
    + right. apply liftR_err in H. destruct H as (e & _ & ->). eauto.
    + apply foldV_err in H. destruct H as (key & s2 & _ & H). rewrite bindV_err in H.
      destruct H as [H|(o & _ & [=])]. exact (validate_key_err _ _ _ _ _ _ _ _ H).
Qed.

Lemma attempt_err (c : config) rn oref g x : attempt code c true rn oref g = VErr x ->
  (exists s, x = VError s /\ stage_failed c g s) \/ exists e, x = PError e.
Proof.
  unfold attempt. rewrite bindV_err. intros [H|(dfs & Hg & H)].
  { apply raise_as_err in H. destruct H as [He ->]. left. eexists. split; [reflexivity|]. left. auto. }
  apply raise_as_ok in Hg. destruct (Nat.eqb (List.length dfs) 0) eqn:E0.
  { injection H as <-. left. eexists. split; [reflexivity|]. right. left. split; [reflexivity|]. destruct dfs; [exact Hg|discriminate]. }
  assert (NE : dfs <> []) by (intros ->; discriminate).
  unfold perform_validation in H. rewrite bindV_err in H. destruct H as [H|(o & Ho & H)].
  { right. destruct (c_mask c) as [[mds gm]|]; [|discriminate]. destruct (dict_get dfs (c_tref c)); [|injection H as <-; eauto].
    rewrite bindV_err in H. destruct H as [H|(m & _ & [=])]. apply liftR_err in H. destruct H as (e & _ & ->). eauto. }
  destruct o as [dfs'|]; [|discriminate].
  assert (MD : masked_data c g dfs dfs').
  { unfold masked_data. destruct (c_mask c) as [[mds gm]|]; [|congruence].
    destruct (dict_get dfs (c_tref c)) as [ref|] eqn:Eg; [|discriminate]. rewrite bindV_ok in Ho.
    destruct Ho as (masked & Hmk & Ho). apply liftR_ok in Hmk. exists ref, masked.
    destruct (frows masked) eqn:Er; cbn in Ho; [discriminate|]. split; [reflexivity|]. split; [exact Hmk|]. split; [discriminate|congruence]. }
  rewrite bindV_err in H. destruct H as [H|(data & Hd & H)].
  { right. apply mapV_err in H. destruct H as (e & _ & H). rewrite bindV_err in H. destruct H as [H|(cs & _ & H)].
    - apply liftR_err in H. destruct H as (e' & _ & ->). eauto.
    - rewrite bindV_err in H. destruct H as [H|(f & _ & [=])]. apply liftR_err in H. destruct H as (e' & _ & ->). eauto. }
  apply mapV_ok, data_columns_mapV in Hd.
  assert (MI : matching_input c g data) by (exists dfs, dfs'; auto).
  rewrite bindV_err in H. destruct H as [H|(mn & Hmn & H)].
  { apply raise_as_err in H. destruct H as [[e He] ->]. apply seqR_map_err in He. destruct He as ([[n k] f] & Hin & He).
    left. eexists. split; [reflexivity|]. right. right. left. split; [reflexivity|]. exists data, n, k, f, e. auto. }
  apply raise_as_ok in Hmn. apply seqR_forall2 in Hmn.
  change (jobs_loop c true rn oref g (combine (c_calcs c) mn) [] = VErr x) in H.
  apply jobs_loop_err in H. destruct H as [[-> (n & k & f & Hin)]|[[-> Hs]|H]]; [|left; eexists; split; [reflexivity|]; right; right; right; right; auto|right; exact H].
  left. eexists. split; [reflexivity|]. right. right. right. left. split; [reflexivity|]. exists data, n, k, f. split; [exact MI|].
  clear -Hmn Hin. induction Hmn as [|e m l ms He F IH]; [contradiction|]. destruct Hin as [Hin|Hin].
  - injection Hin as -> ->. split; [left; reflexivity|exact He].
  - destruct (IH Hin). split; [right; assumption|assumption].
Qed.

(* grid points that fail as a whole *)
Lemma gpi_failed (c : config) rn oref g x r : wf_config c -> attempt code c true rn oref g = VErr x ->
  validate_gpi code c true rn oref g = VOk r ->
  map fst r = key_list c oref (c_calcs c) /\
  forall key ms, In (key, ms) r -> exists m m', ms = [m'] /\ template c g key m /\ with_status (code (return_code x)) m m'.
Proof.
  intros W E H. unfold validate_gpi in H. rewrite E in H. rewrite bindV_ok in H. destruct H as (r0 & Hd & Hs).
  apply dummy_ok in Hd; [|exact W]. destruct Hd as [K P].
  assert (SH : forall key ms, In (key, ms) r0 -> exists m, ms = [m]) by (intros key ms Hin; destruct (P key ms Hin) as (m & -> & _); eauto).
  apply set_codes_ok in Hs; [|exact SH]. destruct Hs as [K' P']. split; [congruence|].
  intros key ms Hin. destruct (P' key ms Hin) as (m & m' & -> & Hi & Hw). exists m, m'. split; [reflexivity|]. split; [|exact Hw].
  destruct (P key [m] Hi) as (m2 & [= <-] & T). exact T.
Qed.

Lemma attempt_read_failed (c : config) ig rn oref g e : c_get c g = Err e -> attempt code c ig rn oref g = VErr (VError DATA_MANAGER_FAILED).
Proof. intros H. unfold attempt. rewrite H. reflexivity. Qed.
Lemma attempt_no_data (c : config) ig rn oref g : c_get c g = Ok [] -> attempt code c ig rn oref g = VErr (VError NO_GPI_DATA).
Proof. intros H. unfold attempt. rewrite H. reflexivity. Qed.
Lemma matching_reached (c : config) ig rn oref g data : matching_input c g data ->
  attempt code c ig rn oref g =
  bindV (raise_as TEMPORAL_MATCHING_FAILED (seqR (map (fun e => c_match c data (c_tref c) (fst (fst e))) (c_calcs c))))
    (fun mn => jobs_loop c ig rn oref g (combine (c_calcs c) mn) []).
Proof.
  intros (dfs & dfs' & Hg & NE & MD & DC). unfold attempt. rewrite Hg. cbn [raise_as bindV].
  destruct dfs as [|d0 dfs0]; [contradiction|]. cbn [List.length Nat.eqb]. revert MD. generalize (d0 :: dfs0) as dfs. intros dfs MD.
  unfold perform_validation.
  match goal with |- bindV ?x _ = _ => assert (E : x = VOk (Some dfs')) end.
  { unfold masked_data in MD. destruct (c_mask c) as [[mds gm]|]; [|subst; reflexivity].
    destruct MD as (ref & masked & -> & -> & Hn & ->). cbn. destruct (frows masked); [contradiction|reflexivity]. }
  rewrite E. cbn [bindV]. rewrite (proj2 (mapV_ok _ _ _) (data_columns_mapV' c dfs' data DC)). reflexivity.
Qed.
Lemma attempt_match_failed (c : config) ig rn oref g data n k f e : matching_input c g data ->
  In ((n, k), f) (c_calcs c) -> c_match c data (c_tref c) n = Err e ->
  attempt code c ig rn oref g = VErr (VError TEMPORAL_MATCHING_FAILED).
Proof.
  intros MI Hin He. rewrite (matching_reached c ig rn oref g data MI).
  destruct (seqR _) as [mn|e'] eqn:E; [|reflexivity]. exfalso. apply seqR_forall2 in E.
  clear -E Hin He. induction E as [|x m l ms Hx F IH]; [contradiction|]. destruct Hin as [->|Hin]; [cbn in Hx; congruence|auto].
Qed.
Lemma attempt_no_match (c : config) ig rn oref g data n k f rest : matching_input c g data ->
  c_calcs c = ((n, k), f) :: rest -> c_match c data (c_tref c) n = Ok [] ->
  (forall e, In e rest -> exists m, c_match c data (c_tref c) (fst (fst e)) = Ok m) ->
  attempt code c ig rn oref g = VErr (VError NO_TEMP_MATCHED_DATA).
Proof.
  intros MI EC He Hr. rewrite (matching_reached c ig rn oref g data MI), EC. cbn [map seqR fst].
  rewrite He. cbn [bindR].
  destruct (seqR_map_ok (fun e => c_match c data (c_tref c) (fst (fst e))) rest Hr) as (ms & -> & _). reflexivity.
Qed.

(* in "raise" mode the first failure ends the run *)
Lemma calc_raise (c : config) rn oref pre g post x :
  (forall g', In g' pre -> exists r, attempt code c false rn oref g' = VOk r) ->
  attempt code c false rn oref g = VErr x ->
  calc code c false rn oref (pre ++ g :: post) = VErr x.
Proof.
  intros Hpre Hg. unfold calc. apply bindV_err. left. generalize (@nil (list dscol * list metrics)) as res.
  induction pre as [|g' pre IH]; intros res; cbn.
  - unfold validate_gpi. rewrite Hg. reflexivity.
  - destruct (Hpre g' (or_introl eq_refl)) as [r Hr]. unfold validate_gpi at 1. rewrite Hr. cbn [bindV].
    apply IH. intros; apply Hpre; right; assumption.
Qed.
End Driver.
