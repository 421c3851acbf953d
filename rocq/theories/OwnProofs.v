(* Proofs about frames shared between reads. *)
From Verif Require Export OwnSpec.
From Coq Require Import Lia.
Open Scope nat_scope.

(* ---- the store *)
Lemma put_length h : forall r o, List.length (put h r o) = List.length h.
Proof. induction h as [|x h IH]; intros [|r] o; cbn; auto. Qed.
Lemma get_put h : forall r r' o, get (put h r o) r' = if Nat.eqb r r' then (if Nat.ltb r (List.length h) then Some o else None) else get h r'.
Proof.
  unfold get. induction h as [|x h IH]; intros [|r] [|r'] o; cbn; try reflexivity.
  - destruct (Nat.eqb r r'); reflexivity.
  - rewrite IH. destruct (Nat.eqb r r'); reflexivity.
Qed.
Lemma get_some h r o : get h r = Some o -> r < List.length h.
Proof. intros H. apply nth_error_Some. unfold get in H. congruence. Qed.
Lemma content_some h r t : content h r = Some t -> exists o, get h r = Some o /\ o_tab o = t.
Proof. unfold content. destruct (get h r) as [o|]; cbn; [intros [= <-]; eauto|discriminate]. Qed.
Lemma content_lt h r t : content h r = Some t -> r < List.length h.
Proof. intros H. apply content_some in H as (o & H & _). eapply get_some; eauto. Qed.
Lemma content_alloc h o r t : content h r = Some t -> content (h ++ [o]) r = Some t.
Proof. intros H. pose proof (content_lt _ _ _ H). unfold content, get in *. rewrite nth_error_app1 by assumption. exact H. Qed.
Lemma content_new h o : content (h ++ [o]) (List.length h) = Some (o_tab o).
Proof. unfold content, get. rewrite nth_error_app2 by lia. rewrite Nat.sub_diag. reflexivity. Qed.
Lemma content_put h r o r' : content (put h r o) r' = if Nat.eqb r r' then (if Nat.ltb r (List.length h) then Some (o_tab o) else None) else content h r'.
Proof. unfold content. rewrite get_put. destruct (Nat.eqb r r'); [destruct (Nat.ltb _ _)|]; reflexivity. Qed.
Lemma content_assign h r t n v r' : content h r = Some t ->
  content (eff_assign h r n v) r' = if Nat.eqb r r' then Some (assign t n v) else content h r'.
Proof.
  intros H. pose proof (content_lt _ _ _ H) as L. apply content_some in H as (o & G & <-). unfold eff_assign. rewrite G, content_put. cbn [o_tab].
  apply Nat.ltb_lt in L. rewrite L. reflexivity.
Qed.
Lemma assign_length h r n v : List.length (eff_assign h r n v) = List.length h.
Proof. unfold eff_assign. destruct (get h r); [apply put_length|reflexivity]. Qed.
Lemma kept_refl h : kept h h. Proof. intros r t H. exact H. Qed.
Lemma kept_trans a b c : kept a b -> kept b c -> kept a c. Proof. intros H K r t E. auto. Qed.
Lemma kept_alloc h o : kept h (h ++ [o]). Proof. intros r t. apply content_alloc. Qed.

(* the content of what a reader returned *)
Definition dcontent (h : store) (d : option ref) : option (tab cell) := match d with None => None | Some r => content h r end.
Definition valid (h : store) (d : option ref) : Prop := match d with None => True | Some r => exists t, content h r = Some t end.

(* what an application of an adapter does *)
Record effect (h : store) (d : option ref) (inplace : bool) (h' : store) (x : res ref) (want : res (tab cell)) : Prop := {
  ef_result : match want with Ok t => exists r, x = Ok r /\ content h' r = Some t | Err e => x = Err e end;
  ef_frame : forall r t, content h r = Some t -> (inplace = true -> d <> Some r) -> content h' r = Some t;
  ef_ref : forall r, x = Ok r -> (inplace = true /\ d = Some r) \/ List.length h <= r
}.

Lemma basic_effect h d : valid h d ->
  exists t, let (h', r) := eff_basic h d in content h' r = Some t /\ t = basic (dcontent h d) /\ kept h h' /\ (d = Some r /\ List.length h' = List.length h \/ d = None /\ r = List.length h /\ h' = h ++ [mkObj (mkTab [] []) false]).
Proof.
  intros V. destruct d as [r|]; cbn [eff_basic dcontent valid] in *.
  - destruct V as (t & C). exists t. pose proof (content_lt _ _ _ C) as L. pose proof C as C0. apply content_some in C as (o & G & <-). rewrite G.
    destruct (o_zone o).
    + rewrite content_put, Nat.eqb_refl. apply Nat.ltb_lt in L. rewrite L. cbn. rewrite C0. repeat split; [|left; split; [reflexivity|apply put_length]].
      intros r' t' H. rewrite content_put. destruct (Nat.eqb_spec r r'); [subst; rewrite L, <- H, C0; reflexivity|exact H].
    + rewrite C0. repeat split; [apply kept_refl|left; split; reflexivity].
  - exists (mkTab [] []). unfold alloc. repeat split; [apply content_new|apply kept_alloc|right; repeat split].
Qed.

Lemma new_effect h d b x : effect h d b (fst (eff_new h x)) (snd (eff_new h x)) x.
Proof.
  destruct x as [t|e]; cbn [eff_new alloc fst snd].
  - constructor.
    + exists (List.length h). split; [reflexivity|apply content_new].
    + intros r t' H _. apply content_alloc. exact H.
    + intros r [= <-]. right. lia.
  - constructor; [reflexivity|intros; assumption|discriminate].
Qed.

Lemma fold_err {A B} (g : A -> B -> res A) e l : fold_left (fun acc n => bindR acc (fun t => g t n)) l (Err e) = Err e.
Proof. induction l as [|n l IH]; [reflexivity|exact IH]. Qed.

Lemma anomaly_effect f cols : forall h r t, content h r = Some t ->
  effect h (Some r) true (fst (eff_anomaly f cols h r)) (snd (eff_anomaly f cols h r))
    (fold_left (fun acc n => bindR acc (fun t => bindR (column t n) (fun v => Ok (assign t n (f (series t v)))))) cols (Ok t)).
Proof.
  induction cols as [|n cols IH]; intros h r t C; cbn [eff_anomaly fold_left].
  - cbn [fst snd]. constructor; [exists r; split; [reflexivity|exact C]|intros; assumption|intros r' [= <-]; left; split; reflexivity].
  - pose proof C as C0. apply content_some in C0 as (o & G & E). rewrite G, E. cbn [bindR]. destruct (column t n) as [v|e].
    + cbn [bindR]. specialize (IH (eff_assign h r n (f (series t v))) r (assign t n (f (series t v)))).
      destruct IH as [R F X]; [rewrite (content_assign _ _ _ _ _ _ C), Nat.eqb_refl; reflexivity|]. constructor; [exact R| |].
      * intros r' t' H N. apply F; [|intros _; exact (N eq_refl)]. rewrite (content_assign _ _ _ _ _ _ C). destruct (Nat.eqb_spec r r'); [subst; exfalso; apply (N eq_refl); reflexivity|exact H].
      * intros r' H. rewrite <- (assign_length h r n (f (series t v))). exact (X r' H).
    + cbn [bindR fst snd]. rewrite fold_err. constructor; [reflexivity|intros; assumption|discriminate].
Qed.
Lemma clim_effect f rc cols : forall h r t, content h r = Some t ->
  effect h (Some r) true (fst (eff_clim f rc cols h r)) (snd (eff_clim f rc cols h r))
    (fold_left (fun acc n => bindR acc (fun t => bindR (column t n) (fun v => let '(a, c) := f (series t v) in
        Ok (if rc then assign (assign t n a) (n ++ "_climatology")%string c else assign t n a)))) cols (Ok t)).
Proof.
  induction cols as [|n cols IH]; intros h r t C; cbn [eff_clim fold_left].
  - cbn [fst snd]. constructor; [exists r; split; [reflexivity|exact C]|intros; assumption|intros r' [= <-]; left; split; reflexivity].
  - pose proof C as C0. apply content_some in C0 as (o & G & E). rewrite G, E. cbn [bindR]. destruct (column t n) as [v|e].
    + cbn [bindR]. destruct (f (series t v)) as [a c].
      set (h1 := eff_assign h r n a). assert (C1 : content h1 r = Some (assign t n a)) by (unfold h1; rewrite (content_assign _ _ _ _ _ _ C), Nat.eqb_refl; reflexivity).
      set (h2 := if rc then eff_assign h1 r (n ++ "_climatology")%string c else h1).
      set (t2 := if rc then assign (assign t n a) (n ++ "_climatology")%string c else assign t n a).
      assert (C2 : content h2 r = Some t2) by (unfold h2, t2; destruct rc; [rewrite (content_assign _ _ _ _ _ _ C1), Nat.eqb_refl; reflexivity|exact C1]).
      destruct (IH h2 r t2 C2) as [R F X]. constructor; [exact R| |].
      * intros r' t' H N. apply F; [|intros _; exact (N eq_refl)]. assert (D : Nat.eqb r r' = false) by (apply Nat.eqb_neq; intros ->; apply (N eq_refl); reflexivity).
        unfold h2. destruct rc; [rewrite (content_assign _ _ _ _ _ _ C1), D|]; unfold h1; rewrite (content_assign _ _ _ _ _ _ C), D; exact H.
      * intros r' H. replace (List.length h) with (List.length h2); [exact (X r' H)|]. unfold h2, h1. destruct rc; rewrite ?assign_length; reflexivity.
    + cbn [bindR fst snd]. rewrite fold_err. constructor; [reflexivity|intros; assumption|discriminate].
Qed.
Lemma assign_effect h r t n v : content h r = Some t -> effect h (Some r) true (eff_assign h r n v) (Ok r) (Ok (assign t n v)).
Proof.
  intros C. constructor.
  - exists r. split; [reflexivity|]. rewrite (content_assign _ _ _ _ _ _ C), Nat.eqb_refl. reflexivity.
  - intros r' t' H N. rewrite (content_assign _ _ _ _ _ _ C). destruct (Nat.eqb_spec r r'); [subst; exfalso; apply (N eq_refl); reflexivity|exact H].
  - intros r' [= <-]. left. split; reflexivity.
Qed.
Lemma combine_effect f cols n h r t : content h r = Some t ->
  effect h (Some r) true (fst (eff_combine f cols n h r)) (snd (eff_combine f cols n h r)) (combine_adapter f cols n (Some t)).
Proof.
  intros C. pose proof C as C0. apply content_some in C0 as (o & G & E). unfold eff_combine, combine_adapter. rewrite G, E. cbn [basic].
  destruct (tcols t) eqn:TC; [cbn [fst snd]; apply assign_effect; exact C|]. destruct (trows t) eqn:TR; [cbn [fst snd]; apply assign_effect; exact C|].
  destruct (seqR _) as [vs|e]; cbn [bindR fst snd]; [apply assign_effect; exact C|]. constructor; [reflexivity|intros; assumption|discriminate].
Qed.

Lemma effect_none h d : forall h' x want b, effect h None b h' x want -> d = None -> effect h d false h' x want.
Proof. intros h' x want b [R F X] ->. constructor; [exact R| |]; [intros r t H _; apply F; [exact H|discriminate]|]. intros r H. destruct (X r H) as [[_ ?]|?]; [discriminate|right; assumption]. Qed.

Definition inplace (a : adapter) : bool := match a with AAnomaly _ _ | AClim _ _ _ | ACombine _ _ _ => true | _ => false end.
Lemma adapt_effect a h d : valid h d ->
  let h' := fst (eff_adapt a h d) in let x := snd (eff_adapt a h d) in
  match adapted a (dcontent h d) with Ok t => exists r, x = Ok r /\ content h' r = Some t | Err e => x = Err e end /\
  (forall r t, content h r = Some t -> (inplace a = true -> d <> Some r) -> content h' r = Some t) /\
  (forall r, x = Ok r -> (copies a = false /\ d = Some r) \/ List.length h <= r) /\
  List.length h <= List.length h'.
Proof.
  intros V. destruct (basic_effect h d V) as (t & B). unfold eff_adapt. destruct (eff_basic h d) as [h1 r1]. destruct B as (C & E & K & D).
  pose proof (content_lt _ _ _ C) as L1.
  assert (LL : List.length h <= List.length h1) by (destruct D as [(_ & ->)|(_ & _ & ->)]; [lia|rewrite app_length; cbn; lia]).
  pose proof C as C0. apply content_some in C0 as (o & G & ET). rewrite G, ET. cbn zeta.
  assert (NewCase : forall x, copies a = true -> adapted a (dcontent h d) = x ->
    match adapted a (dcontent h d) with Ok t => exists r, snd (eff_new h1 x) = Ok r /\ content (fst (eff_new h1 x)) r = Some t | Err e => snd (eff_new h1 x) = Err e end /\
    (forall r t, content h r = Some t -> (inplace a = true -> d <> Some r) -> content (fst (eff_new h1 x)) r = Some t) /\
    (forall r, snd (eff_new h1 x) = Ok r -> (copies a = false /\ d = Some r) \/ List.length h <= r) /\ List.length h <= List.length (fst (eff_new h1 x))).
  { intros x CA <-. destruct (new_effect h1 (Some r1) false (adapted a (dcontent h d))) as [R F X]. split; [exact R|]. split; [|split].
    - intros r u H _. apply F; [apply K; exact H|discriminate].
    - intros r H. destruct (X r H) as [[? _]|?]; [discriminate|right; lia].
    - destruct (adapted a (dcontent h d)); cbn; [rewrite app_length; cbn; lia|exact LL]. }
  assert (InCase : forall h2 x want, inplace a = true -> adapted a (dcontent h d) = want -> effect h1 (Some r1) true h2 x want -> List.length h2 = List.length h1 ->
    match adapted a (dcontent h d) with Ok t => exists r, x = Ok r /\ content h2 r = Some t | Err e => x = Err e end /\
    (forall r t, content h r = Some t -> (inplace a = true -> d <> Some r) -> content h2 r = Some t) /\
    (forall r, x = Ok r -> (copies a = false /\ d = Some r) \/ List.length h <= r) /\ List.length h <= List.length h2).
  { intros h2 x want IA <- [R F X] LE. split; [exact R|]. split; [|split; [|lia]].
    - intros r u H N. apply F; [apply K; exact H|]. intros _ [= <-]. destruct D as [(-> & _)|(-> & -> & _)]; [apply (N IA); reflexivity|].
      pose proof (content_lt _ _ _ H). lia.
    - intros r H. destruct (X r H) as [(_ & [= <-])|?]; [|right; lia]. destruct D as [(-> & _)|(_ & -> & _)]; [left; split; [destruct a; try discriminate; reflexivity|reflexivity]|right; lia]. }
  assert (LA : forall f cols h r, List.length (fst (eff_anomaly f cols h r)) = List.length h).
  { clear. intros f cols. induction cols as [|n cols IH]; intros h r; cbn; [reflexivity|]. destruct (get h r) as [o|]; [|reflexivity]. destruct (column _ _); [|reflexivity]. rewrite IH, assign_length. reflexivity. }
  assert (LC : forall f rc cols h r, List.length (fst (eff_clim f rc cols h r)) = List.length h).
  { clear. intros f rc cols. induction cols as [|n cols IH]; intros h r; cbn; [reflexivity|]. destruct (get h r) as [o|]; [|reflexivity]. destruct (column _ _); [|reflexivity]. destruct (f _). rewrite IH. destruct rc; rewrite ?assign_length; reflexivity. }
  assert (LM : forall f cols n h r, List.length (fst (eff_combine f cols n h r)) = List.length h).
  { clear. intros. unfold eff_combine. destruct (get h r) as [o|]; [|reflexivity]. destruct (tcols _); [apply assign_length|]. destruct (trows _); [apply assign_length|]. destruct (seqR _); [apply assign_length|reflexivity]. }
  destruct a; cbn [adapted].
  - cbn [fst snd]. rewrite <- E. split; [exists r1; split; [reflexivity|exact C]|]. split; [intros r u H _; apply K; exact H|]. split; [|exact LL].
    intros r [= <-]. destruct D as [(-> & _)|(_ & -> & _)]; [left; split; reflexivity|right; lia].
  - apply NewCase; [reflexivity|]. cbn [adapted]. rewrite E. destruct (dcontent h d); reflexivity.
  - apply NewCase; [reflexivity|]. cbn [adapted]. rewrite E. destruct (dcontent h d); reflexivity.
  - apply NewCase; [reflexivity|]. cbn [adapted]. rewrite E. destruct (dcontent h d); reflexivity.
  - eapply InCase; [reflexivity| |apply anomaly_effect; exact C|apply LA]. cbn [adapted]. unfold anomaly_adapter. rewrite E. reflexivity.
  - eapply InCase; [reflexivity| |apply clim_effect; exact C|apply LC]. cbn [adapted]. unfold anomaly_clim_adapter. rewrite E. reflexivity.
  - eapply InCase; [reflexivity| |apply combine_effect; exact C|apply LM]. cbn [adapted]. rewrite E. destruct (dcontent h d); reflexivity.
  - apply NewCase; [reflexivity|]. cbn [adapted]. rewrite E. destruct (dcontent h d); reflexivity.
Qed.

(* ---- stacks *)
Definition seen_d (h : store) (x : res (option ref)) : res (option (tab cell)) := match x with Ok d => Ok (dcontent h d) | Err e => Err e end.
Lemma seen_eq h x : seen h x = seen_d h x. Proof. destruct x as [[r|]|]; reflexivity. Qed.

Lemma stack_effect l : forall h d, valid h d ->
  let h' := fst (eff_stack l h d) in let x := snd (eff_stack l h d) in
  seen h' x = composed l (dcontent h d) /\
  (forall r t, content h r = Some t -> d <> Some r -> content h' r = Some t) /\
  match x with Ok (Some r) => exists t, content h' r = Some t | _ => True end.
Proof.
  induction l as [|a l IH]; intros h d V; cbn [eff_stack composed].
  - cbn [fst snd]. split; [destruct d; reflexivity|]. split; [intros; assumption|]. destruct d; [exact V|exact Logic.I].
  - pose proof (adapt_effect a h d V) as H. destruct (eff_adapt a h d) as [h1 x]. cbn [fst snd] in H. destruct H as (R & F & X & L).
    destruct (adapted a (dcontent h d)) as [t|e].
    + destruct R as (r & -> & C). cbn [bindR]. destruct (IH h1 (Some r)) as (S1 & F1 & V1); [exists t; exact C|]. cbn [dcontent] in S1. rewrite C in S1.
      split; [exact S1|]. split; [|exact V1]. intros r' t' H N. apply F1.
      * apply F; [exact H|intros _; exact N].
      * intros [= ->]. destruct (X r' eq_refl) as [(_ & ->)|Hl]; [apply N; reflexivity|]. pose proof (content_lt _ _ _ H). lia.
    + subst x. cbn [bindR fst snd]. split; [reflexivity|]. split; [|exact Logic.I]. intros r' t' H N. apply F; [exact H|intros _; exact N].
Qed.
Lemma stack_guarded l : guarded l = true -> forall h d, valid h d -> kept h (fst (eff_stack l h d)).
Proof.
  induction l as [|a l IH]; intros GU h d V; cbn [eff_stack].
  - apply kept_refl.
  - pose proof (adapt_effect a h d V) as H. destruct (eff_adapt a h d) as [h1 x] eqn:EA. cbn [fst snd] in H. destruct H as (R & F & X & L).
    assert (NI : inplace a = false) by (destruct a; cbn in GU |- *; congruence).
    assert (K1 : kept h h1) by (intros r t H; apply F; [exact H|rewrite NI; discriminate]).
    destruct x as [r|e]; [|exact K1].
    assert (VR : valid h1 (Some r)).
    { destruct (adapted a (dcontent h d)) as [t|e]; [|discriminate]. destruct R as (r' & [= <-] & C). exists t. exact C. }
    assert (CB : a = ABasic \/ copies a = true) by (destruct a; cbn in GU |- *; auto; congruence).
    destruct CB as [->|CA].
    + apply (kept_trans _ h1); [exact K1|]. apply IH; [exact GU|exact VR].
    + intros r' t' H. destruct (stack_effect l h1 (Some r) VR) as (_ & F1 & _). apply F1; [apply K1; exact H|]. intros [= ->].
      destruct (X r' eq_refl) as [(Y & _)|Y]; [congruence|]. pose proof (content_lt _ _ _ H). lia.
Qed.

(* ---- reads *)
Definition safe (rd : reader) (l : list adapter) : bool := match rd with RShared _ => guarded l | _ => true end.
Lemma offers_kept rd h h' d : kept h h' -> offers rd h d -> offers rd h' d.
Proof. destruct rd; cbn; auto. intros K (t & C & ->). exists t. split; [apply K; exact C|reflexivity]. Qed.
Lemma read_effect rd l h d : offers rd h d ->
  seen (fst (read rd l h)) (snd (read rd l h)) = composed l d /\
  (safe rd l = true -> kept h (fst (read rd l h))) /\
  match snd (read rd l h) with Ok (Some r) => exists t, content (fst (read rd l h)) r = Some t | _ => True end.
Proof.
  intros O. unfold read. destruct rd as [|r|o]; cbn [call offers alloc] in *.
  - subst. destruct (stack_effect l h None Logic.I) as (A & F & V). split; [exact A|]. split; [|exact V]. intros _ r t H. apply F; [exact H|discriminate].
  - destruct O as (t & C & ->). destruct (stack_effect l h (Some r)) as (A & F & V); [exists t; exact C|]. cbn [dcontent] in A. rewrite C in A.
    split; [exact A|]. split; [|exact V]. intros G. apply stack_guarded; [exact G|exists t; exact C].
  - subst. destruct (stack_effect l (h ++ [o]) (Some (List.length h))) as (A & F & V); [exists (o_tab o); apply content_new|]. cbn [dcontent] in A. rewrite content_new in A.
    split; [exact A|]. split; [|exact V]. intros _ r t H. apply F; [apply content_alloc; exact H|]. intros [= <-]. pose proof (content_lt _ _ _ H). lia.
Qed.
Lemma reads_effect rd d ls : forall h, offers rd h d -> forallb (safe rd) ls = true ->
  map (seen (fst (reads rd ls h))) (snd (reads rd ls h)) = map (fun l => composed l d) ls /\ kept h (fst (reads rd ls h)).
Proof.
  induction ls as [|l ls IH]; intros h O S1; cbn [reads].
  - split; [reflexivity|apply kept_refl].
  - cbn [forallb] in S1. apply andb_prop in S1 as (Sl & Sr). destruct (read_effect rd l h d O) as (A & K & V). specialize (K Sl).
    destruct (read rd l h) as [h1 x]. cbn [fst snd] in *. specialize (IH h1 (offers_kept _ _ _ _ K O) Sr). destruct (reads rd ls h1) as [h2 xs]. cbn [fst snd map] in *.
    destruct IH as (IH1 & IH2). split; [|apply (kept_trans _ h1); assumption]. f_equal; [|exact IH1]. rewrite <- A.
    destruct x as [[r|]|e]; [|reflexivity|reflexivity]. cbn [seen]. destruct V as (t & C). rewrite C, (IH2 _ _ C). reflexivity.
Qed.
