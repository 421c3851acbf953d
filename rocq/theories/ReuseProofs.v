(* Lemmas for C103. *)
From Coq Require Import List String Bool Arith Lia.
From Verif Require Import Base MatchersModel GroupingModel MatchersProofs ResultsProofs StartProofs4 ReuseModel.
Import ListNotations.
Open Scope string_scope.
Open Scope list_scope.

Definition dget (h : heap) (l : nat) (n f : string) : option dval :=
  match dict_get (contents h l) n with Some s => dict_get s f | None => None end.
Definition names (h : heap) (l : nat) : list string := map fst (contents h l).

Lemma nth_set_at_same {A} (l : list A) i x v : (i < List.length l)%nat -> nth i (set_at l i x) v = x.
Proof. revert i. induction l as [|y l IH]; intros [|i] L; cbn in *; try lia; [reflexivity|]. apply IH. lia. Qed.
Lemma nth_set_at_other {A} (l : list A) i j x v : i <> j -> nth j (set_at l i x) v = nth j l v.
Proof. revert i j. induction l as [|y l IH]; intros [|i] [|j] N; cbn; try reflexivity; try congruence. apply IH. congruence. Qed.
Lemma set_at_length {A} (l : list A) i x : List.length (set_at l i x) = List.length l.
Proof. revert i. induction l as [|y l IH]; intros [|i]; cbn; try reflexivity. f_equal. apply IH. Qed.
Lemma nth_set_at_out {A} (l : list A) i x : (List.length l <= i)%nat -> set_at l i x = l.
Proof. revert i. induction l as [|y l IH]; intros [|i] L; cbn in *; try reflexivity; try lia. f_equal. apply IH. lia. Qed.

Lemma contents_same h i d : (i < List.length h)%nat -> contents (set_at h i d) i = d.
Proof. apply nth_set_at_same. Qed.
Lemma contents_other h i j d : i <> j -> contents (set_at h i d) j = contents h j.
Proof. apply nth_set_at_other. Qed.

Lemma dict_get_app {V} (a b : list (string * V)) k : dict_get (a ++ b) k = match dict_get a k with Some v => Some v | None => dict_get b k end.
Proof. induction a as [|[x v] a IH]; [reflexivity|]. rewrite <- app_comm_cons, !dict_get_cons. destruct (String.eqb x k); [reflexivity|exact IH]. Qed.
Lemma dict_get_map {V W} (g : string -> V -> W) (d : list (string * V)) k :
  dict_get (map (fun e => (fst e, g (fst e) (snd e))) d) k = option_map (g k) (dict_get d k).
Proof.
  induction d as [|[x v] d IH]; [reflexivity|]. cbn [map fst snd]. rewrite !dict_get_cons.
  destruct (String.eqb_spec x k) as [->|]; [reflexivity|exact IH].
Qed.
Lemma dict_get_filter {V} (p : string -> bool) (d : list (string * V)) k :
  dict_get (filter (fun e => p (fst e)) d) k = if p k then dict_get d k else None.
Proof.
  induction d as [|[x v] d IH]; [destruct (p k); reflexivity|]. cbn [filter fst]. destruct (p x) eqn:P.
  - rewrite !dict_get_cons. destruct (String.eqb_spec x k) as [->|]; [rewrite P; reflexivity|exact IH].
  - rewrite dict_get_cons. destruct (String.eqb_spec x k) as [->|]; [rewrite IH, P; reflexivity|exact IH].
Qed.

Lemma fill_get s f : dict_get (fill s) f = match dict_get s f with Some v => Some v | None => dict_get defaults f end.
Proof.
  unfold fill. rewrite dict_get_app.
  rewrite (dict_get_map (fun k v => match dict_get s k with Some w => w | None => v end)).
  rewrite (dict_get_filter (fun k => negb (has defaults k))). unfold has.
  destruct (dict_get defaults f); cbn; destruct (dict_get s f); reflexivity.
Qed.

Lemma add_use_lut_none ref d : add_use_lut ref (add_default_values d) = add_default_values d.
Proof.
  unfold add_use_lut, add_default_values. rewrite map_map. apply map_ext. intros [n s]. cbn [fst snd].
  assert (H : has (fill s) "use_lut" = true).
  { unfold has. rewrite fill_get. destruct (dict_get s "use_lut"); reflexivity. }
  rewrite H, Bool.andb_false_r. reflexivity.
Qed.

Lemma add_defaults_get d n : dict_get (add_default_values d) n = option_map fill (dict_get d n).
Proof. unfold add_default_values. apply (dict_get_map (fun _ => fill)). Qed.
Lemma add_defaults_names d : map fst (add_default_values d) = map fst d.
Proof. unfold add_default_values. rewrite map_map. reflexivity. Qed.

(* every dataset has all default fields *)
Definition filled (d : dct) : Prop := forall n s f, dict_get d n = Some s -> has defaults f = true -> has s f = true.

Lemma fill_filled d : filled (add_default_values d).
Proof.
  intros n s f E F. rewrite add_defaults_get in E. destruct (dict_get d n) as [t|]; [|discriminate]. injection E as <-.
  unfold has in *. rewrite fill_get. destruct (dict_get t f); [reflexivity|exact F].
Qed.
Lemma fill_same d n f : filled d ->
  match dict_get (add_default_values d) n with Some s => dict_get s f | None => None end = match dict_get d n with Some s => dict_get s f | None => None end.
Proof.
  intros F. rewrite add_defaults_get. destruct (dict_get d n) as [s|] eqn:E; [|reflexivity]. cbn [option_map]. rewrite fill_get.
  destruct (dict_get s f) eqn:G; [reflexivity|]. destruct (dict_get defaults f) eqn:D; [|reflexivity].
  pose proof (F n s f E) as X. unfold has in X. rewrite D, G in X. discriminate (X eq_refl).
Qed.

Definition same_view (h h' : heap) (l : nat) : Prop := names h' l = names h l /\ forall n f, dget h' l n f = dget h l n f.
Lemma same_view_refl h l : same_view h h l.
Proof. split; reflexivity. Qed.
Lemma same_view_trans h1 h2 h3 l : same_view h1 h2 l -> same_view h2 h3 l -> same_view h1 h3 l.
Proof. intros [A B] [C D]. split; [congruence|]. intros n f. rewrite D. apply B. Qed.
Lemma same_contents h h' l : contents h' l = contents h l -> same_view h h' l.
Proof. intros E. unfold same_view, names, dget. rewrite E. split; reflexivity. Qed.

Lemma dm_heap h loc ref rn : (loc < List.length h)%nat -> fst (dm_init h loc ref rn) = set_at h loc (add_default_values (contents h loc)).
Proof.
  intros L. unfold dm_init. unfold contents; rewrite (nth_error_nth' h [] L). cbn [fst]. rewrite add_use_lut_none. reflexivity.
Qed.
Lemma dm_length h loc ref rn : List.length (fst (dm_init h loc ref rn)) = List.length h.
Proof. unfold dm_init. destruct (nth_error h loc); [apply set_at_length|reflexivity]. Qed.
Lemma dm_ok h loc ref rn h' m : dm_init h loc ref rn = (h', Ok m) -> (loc < List.length h)%nat /\ m_loc m = loc /\ m_ref m = ref /\ In ref (names h loc).
Proof.
  unfold dm_init. destruct (nth_error h loc) as [d|] eqn:E; [|intros X; discriminate].
  rewrite add_use_lut_none. intros X. injection X as X1 X2. split; [apply nth_error_Some; congruence|].
  destruct (dict_get (add_default_values d) ref) as [s|] eqn:G; [|discriminate]. destruct (has s "class"); [|discriminate].
  injection X2 as <-. split; [reflexivity|]. split; [reflexivity|]. unfold names, contents. rewrite (nth_error_nth h loc [] E).
  rewrite <- add_defaults_names. destruct (in_dec string_dec ref (map fst (add_default_values d))) as [I|I]; [exact I|].
  apply dict_get_none in I. congruence.
Qed.

Lemma dm_view h loc ref rn l : filled (contents h l) ->
  same_view h (fst (dm_init h loc ref rn)) l /\ filled (contents (fst (dm_init h loc ref rn)) l).
Proof.
  intros F. destruct (Nat.lt_ge_cases loc (List.length h)) as [L|L].
  - rewrite dm_heap by exact L. destruct (Nat.eq_dec loc l) as [->|N].
    + unfold same_view, names, dget. rewrite contents_same by exact L. split; [|apply fill_filled]. split; [apply add_defaults_names|].
      intros n f. apply fill_same, F.
    + rewrite contents_other by exact N. split; [|exact F]. apply same_contents, contents_other, N.
  - unfold dm_init. destruct (nth_error h loc) eqn:E; [apply nth_error_None in L; congruence|]. split; [apply same_view_refl|exact F].
Qed.
Lemma dm_filled h loc ref rn : (loc < List.length h)%nat -> filled (contents (fst (dm_init h loc ref rn)) loc).
Proof. intros L. rewrite dm_heap by exact L. rewrite contents_same by exact L. apply fill_filled. Qed.

(* the temporal reference a request resolves to *)
Definition resolved (r : request) (m : manager) : string := match r_tref r with Some t => t | None => m_ref m end.

Lemma v_init_length h r : List.length (fst (v_init h r)) = List.length h.
Proof.
  unfold v_init. assert (E0 : List.length (fst (match r_data r with GManager m => (h, Ok m) | GDict loc => dm_init h loc (r_sref r) "read" end)) = List.length h).
  { destruct (r_data r); [apply dm_length|reflexivity]. }
  destruct (match r_data r with GManager m => (h, Ok m) | GDict loc => dm_init h loc (r_sref r) "read" end) as [h1 [m|e]]; cbn [fst] in E0; [|exact E0].
  cbn zeta. destruct (calcs_ok h1 m (r_calcs r)); cbn [negb]; [|exact E0]. destruct (r_mask r) as [ml|]; [|exact E0].
  destruct (r_data r) as [loc|]; [|exact E0]. destruct (dict_get (contents h1 loc) _) as [s|]; [|exact E0].
  pose proof (dm_length (set_at h1 ml (dict_set String.eqb (contents h1 ml) "_reference" s)) ml "_reference" "read") as D.
  destruct (dm_init _ ml "_reference" "read") as [h2 mm]. cbn [fst] in *. rewrite D, set_at_length. exact E0.
Qed.

(* a request that does not mask with dictionary l leaves its view *)
Lemma v_init_view h r l : filled (contents h l) -> r_mask r <> Some l ->
  same_view h (fst (v_init h r)) l /\ filled (contents (fst (v_init h r)) l).
Proof.
  intros F N. unfold v_init.
  assert (E0 : let h1 := fst (match r_data r with GManager m => (h, Ok m) | GDict loc => dm_init h loc (r_sref r) "read" end) in
               same_view h h1 l /\ filled (contents h1 l)).
  { destruct (r_data r); [apply dm_view, F|split; [apply same_view_refl|exact F]]. }
  destruct (match r_data r with GManager m => (h, Ok m) | GDict loc => dm_init h loc (r_sref r) "read" end) as [h1 [m|e]]; cbn [fst] in E0; cbn zeta in E0; [|exact E0].
  cbn zeta. destruct (calcs_ok h1 m (r_calcs r)); cbn [negb]; [|exact E0]. destruct (r_mask r) as [ml|]; [|exact E0].
  destruct (r_data r) as [loc|]; [|exact E0]. destruct (dict_get (contents h1 loc) _) as [s|]; [|exact E0].
  assert (NL : ml <> l) by congruence. destruct E0 as [V1 F1].
  set (h2 := set_at h1 ml (dict_set String.eqb (contents h1 ml) "_reference" s)).
  assert (E2 : contents h2 l = contents h1 l) by (unfold h2; apply contents_other, NL).
  assert (F2 : filled (contents h2 l)) by (rewrite E2; exact F1).
  destruct (dm_view h2 ml "_reference" "read" l F2) as [V3 F3].
  destruct (dm_init h2 ml "_reference" "read") as [h3 mm]. cbn [fst] in *.
  split; [|exact F3]. apply (same_view_trans h h1 h3 l V1). apply (same_view_trans h1 h2 h3 l (same_contents h1 h2 l E2) V3).
Qed.

(* dictionary l is masked with dataset t of dictionary loc *)
Record masked_by (h : heap) (loc l : nat) (t : string) : Prop := MaskedBy {
  mb_ne : loc <> l; mb_len : (l < List.length h)%nat; mb_loc : filled (contents h loc); mb_mask : filled (contents h l);
  mb_in : In "_reference" (names h l); mb_t : In t (names h loc); mb_fields : forall f, dget h l "_reference" f = dget h loc t f }.

Lemma in_names_get h l n : In n (names h l) -> exists s, dict_get (contents h l) n = Some s.
Proof.
  intros I. destruct (dict_get (contents h l) n) as [s|] eqn:E; [exists s; reflexivity|].
  apply dict_get_none in E. contradiction.
Qed.

(* the effect of a request with dictionaries loc and l and temporal reference t *)
Lemma v_init_mask h r loc l h1 m : r_data r = GDict loc -> r_mask r = Some l -> loc <> l -> (l < List.length h)%nat ->
  dm_init h loc (r_sref r) "read" = (h1, Ok m) -> calcs_ok h1 m (r_calcs r) = true ->
  forall s, dict_get (contents h1 loc) (resolved r m) = Some s ->
  let h2 := fst (v_init h r) in
  contents h2 loc = contents h1 loc /\ filled (contents h2 l) /\
  (forall f, dget h2 l "_reference" f = match dict_get s f with Some v => Some v | None => dict_get defaults f end) /\
  names h2 l = (if in_dec string_dec "_reference" (names h l) then names h l else names h l ++ ["_reference"]) /\
  (forall n f, n <> "_reference" -> dget h2 l n f = match dict_get (contents h l) n with Some s => match dict_get s f with Some v => Some v | None => dict_get defaults f end | None => None end).
Proof.
  intros ED EM NL LL E1 CO s ES. cbn zeta.
  assert (H1 : contents h1 l = contents h l /\ List.length h1 = List.length h).
  { assert (X : h1 = fst (dm_init h loc (r_sref r) "read")) by (rewrite E1; reflexivity). rewrite X. split; [|apply dm_length].
    destruct (dm_ok _ _ _ _ _ _ E1) as (LO & _). rewrite dm_heap by exact LO. apply contents_other, NL. }
  destruct H1 as [H1 L1].
  unfold v_init. rewrite ED, EM, E1. cbn zeta. fold (resolved r m). rewrite CO. cbn [negb]. rewrite ES.
  set (d2 := dict_set String.eqb (contents h1 l) "_reference" s). set (h2 := set_at h1 l d2).
  assert (L2 : (l < List.length h2)%nat) by (unfold h2; rewrite set_at_length, L1; exact LL).
  assert (E2 : contents h2 l = d2) by (unfold h2; apply contents_same; rewrite L1; exact LL).
  destruct (dm_init h2 l "_reference" "read") as [h3 mm] eqn:E3. cbn [fst].
  assert (X3 : h3 = set_at h2 l (add_default_values d2)).
  { rewrite <- E2. rewrite <- (dm_heap h2 l "_reference" "read" L2). rewrite E3. reflexivity. }
  subst h3. rewrite contents_other by congruence. split; [unfold h2; apply contents_other; congruence|].
  rewrite contents_same by exact L2. split; [apply fill_filled|].
  unfold dget, names. rewrite contents_same by exact L2. split; [|split].
  - intros f. rewrite add_defaults_get. unfold d2. rewrite dict_get_set, String.eqb_refl. cbn [option_map]. apply fill_get.
  - rewrite add_defaults_names. unfold d2. rewrite ResultsProofs.dict_set_keys. rewrite H1.
    destruct (in_dec string_dec "_reference" (map fst (contents h l))) as [I|I].
    + assert (X : existsb (String.eqb "_reference") (map fst (contents h l)) = true) by (apply existsb_exists; exists "_reference"; split; [exact I|reflexivity]).
      rewrite X. reflexivity.
    + destruct (existsb (String.eqb "_reference") (map fst (contents h l))) eqn:X; [|reflexivity]. apply existsb_exists in X. destruct X as (x & X1 & X2).
      apply String.eqb_eq in X2. congruence.
  - intros n f N. rewrite add_defaults_get. unfold d2. rewrite dict_get_set. destruct (String.eqb_spec "_reference" n) as [X|X]; [congruence|].
    rewrite H1. destruct (dict_get (contents h l) n) as [t|]; [|reflexivity]. cbn [option_map]. apply fill_get.
Qed.
