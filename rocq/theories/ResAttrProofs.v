(* Proofs for C115. *)
From Coq Require Import Lia.
From Verif Require Import ResultsModel ResultsSpec GroupingModel MatchersModel ValidationModel BaseProofs NamesProofs MatchersProofs ValidationProofs2 ResultsProofs ResultsProofs2.
From Verif Require Import TemporalModel TemporalSpec ResAttrModel ResAttrSpec.
Open Scope Z_scope.

Lemma feqb_refl k : field_eqb k k = true. Proof. apply field_eqb_spec. reflexivity. Qed.
Lemma feqb_neq a b : a <> b -> field_eqb a b = false.
Proof. intros N. destruct (field_eqb a b) eqn:E; [|reflexivity]. apply field_eqb_spec in E. contradiction. Qed.
Lemma fget_cons k a d k' : fget ((k, a) :: d) k' = if field_eqb k k' then Some a else fget d k'.
Proof. unfold fget. cbn [find fst]. destruct (field_eqb k k'); reflexivity. Qed.
Lemma fget_set d k v k' : fget (dict_set field_eqb d k v) k' = if field_eqb k k' then Some v else fget d k'.
Proof.
  induction d as [|[k0 a0] d IH]; cbn [dict_set]; [rewrite fget_cons; reflexivity|].
  destruct (field_eqb k0 k) eqn:E; rewrite !fget_cons.
  - apply field_eqb_spec in E. subst k0. destruct (field_eqb k k'); reflexivity.
  - rewrite IH. destruct (field_eqb k0 k') eqn:E'; [|reflexivity]. apply field_eqb_spec in E'. subst k'. rewrite feqb_neq; [reflexivity|]. intros ->. rewrite feqb_refl in E. discriminate.
Qed.
Lemma sel_get attr n time m : m <> n -> fget (snd (sel_attr attr n time)) (FName m) = fget attr (FName m).
Proof.
  intros N. unfold sel_attr. cbn [snd]. destruct (fget attr (FName n)) eqn:E; [|reflexivity]. rewrite fget_set, feqb_neq; [reflexivity|congruence].
Qed.
Lemma dget_app {V} (d e : list (string * V)) k : dict_get (d ++ e) k = match dict_get d k with Some v => Some v | None => dict_get e k end.
Proof. induction d as [|[k0 v0] d IH]; [reflexivity|]. unfold dict_get in *. cbn [app find fst]. destruct (String.eqb k0 k); [reflexivity|exact IH]. Qed.
Lemma dget_one {V} k0 (v0 : V) k : dict_get [(k0, v0)] k = if String.eqb k0 k then Some v0 else None.
Proof. unfold dict_get. cbn [find fst]. destruct (String.eqb k0 k); reflexivity. Qed.
Lemma add_coordinates (va : attrs) k :
  dict_get (match dict_get va "coordinates" with Some _ => va | None => va ++ [("coordinates", coordinates false)]%string end) k =
  match dict_get va k with Some v => Some v | None => if String.eqb k "coordinates" then Some "idx lat lon"%string else None end.
Proof.
  destruct (dict_get va "coordinates") eqn:C.
  - destruct (dict_get va k) eqn:K; [reflexivity|]. destruct (String.eqb_spec k "coordinates") as [-> | _]; [congruence|reflexivity].
  - rewrite dget_app, dget_one. destruct (dict_get va k) eqn:K; [reflexivity|]. rewrite String.eqb_sym. destruct (String.eqb k "coordinates"); reflexivity.
Qed.
Lemma sel_described attr n : described (fget attr (FName n)) (fst (sel_attr attr n false)).
Proof. intros k. unfold sel_attr. cbn [fst]. destruct (fget attr (FName n)) as [va|]; apply add_coordinates. Qed.

(* one loop *)
Lemma store_keep names : forall vars attr n a, dict_get vars n = Some a -> dict_get (fst (store_attrs vars attr names)) n = Some a.
Proof.
  induction names as [|m names IH]; intros vars attr n a H; [exact H|]. unfold store_attrs in *. cbn [fold_left fst snd].
  destruct (dict_get vars m) eqn:M; [apply IH; exact H|]. destruct (sel_attr attr m false) as [x attr'] eqn:S. apply IH. rewrite dget_app, H. reflexivity.
Qed.
Lemma store_other names : forall vars attr n, ~ In n names -> dict_get (fst (store_attrs vars attr names)) n = dict_get vars n.
Proof.
  induction names as [|m names IH]; intros vars attr n H; [reflexivity|]. unfold store_attrs in *. cbn [fold_left fst snd]. cbn [In] in H.
  destruct (dict_get vars m) eqn:M; [apply IH; tauto|]. destruct (sel_attr attr m false) as [x attr'] eqn:S. rewrite IH by tauto. rewrite dget_app, dget_one.
  destruct (String.eqb_spec m n) as [-> | _]; [tauto|]. destruct (dict_get vars n); reflexivity.
Qed.
Lemma store_new names : forall vars attr n, In n names -> dict_get vars n = None ->
  exists a, dict_get (fst (store_attrs vars attr names)) n = Some a /\ described (fget attr (FName n)) a.
Proof.
  induction names as [|m names IH]; intros vars attr n H V; [destruct H|]. unfold store_attrs. cbn [fold_left fst snd]. destruct (String.string_dec m n) as [-> | N].
  - rewrite V. pose proof (sel_described attr n) as D. destruct (sel_attr attr n false) as [x attr'] eqn:S. cbn [fst] in D. exists x. split; [|exact D].
    apply (store_keep names (vars ++ [(n, x)]) attr'). rewrite dget_app, V, dget_one, String.eqb_refl. reflexivity.
  - destruct H as [H|H]; [contradiction|]. destruct (dict_get vars m) eqn:M; [apply (IH vars attr n H V)|].
    pose proof (sel_get attr m false n ltac:(congruence)) as G. destruct (sel_attr attr m false) as [x attr'] eqn:S. cbn [snd] in G. rewrite <- G.
    apply (IH (vars ++ [(m, x)]) attr' n H). rewrite dget_app, V, dget_one. destruct (String.eqb_spec m n); [contradiction|reflexivity].
Qed.
(* the dictionary of the caller *)
Lemma oc_refl d : only_coordinates d d.
Proof. unfold only_coordinates. induction d as [|x d IH]; constructor; [split; [reflexivity|left; reflexivity]|exact IH]. Qed.
Definition oc1 (x y : field * attrs) : Prop :=
  fst y = fst x /\ (snd y = snd x \/ dict_get (snd x) "coordinates" = None /\ snd y = snd x ++ [("coordinates", "idx lat lon")]%string).
Lemma oc1_trans x y z : oc1 x y -> oc1 y z -> oc1 x z.
Proof.
  intros [F H] [F' H']. split; [congruence|]. destruct H as [H|[H1 H2]], H' as [H'|[H1' H2']].
  - left. congruence.
  - right. split; congruence.
  - right. split; [assumption|congruence].
  - exfalso. rewrite H2, dget_app, H1, dget_one in H1'. discriminate.
Qed.
Lemma oc_trans d : forall e f, only_coordinates d e -> only_coordinates e f -> only_coordinates d f.
Proof.
  unfold only_coordinates. induction d as [|x d IH]; intros e f H K; inversion H; subst; inversion K; subst; constructor; [eapply oc1_trans; eassumption|eapply IH; eassumption].
Qed.
Lemma oc_set d n a : fget d (FName n) = Some a -> dict_get a "coordinates" = None ->
  only_coordinates d (dict_set field_eqb d (FName n) (a ++ [("coordinates", "idx lat lon")]%string)).
Proof.
  unfold only_coordinates. induction d as [|[k0 a0] d IH]; [discriminate|]. rewrite fget_cons. cbn [dict_set]. destruct (field_eqb k0 (FName n)) eqn:E; intros G C.
  - injection G as ->. apply field_eqb_spec in E. constructor; [|apply oc_refl]. cbn [fst snd]. split; [congruence|]. right. split; [exact C|reflexivity].
  - constructor; [split; [reflexivity|left; reflexivity]|apply IH; assumption].
Qed.
Lemma oc_same d n a : fget d (FName n) = Some a -> only_coordinates d (dict_set field_eqb d (FName n) a).
Proof.
  unfold only_coordinates. induction d as [|[k0 a0] d IH]; [discriminate|]. rewrite fget_cons. cbn [dict_set]. destruct (field_eqb k0 (FName n)) eqn:E; intros G.
  - injection G as ->. apply field_eqb_spec in E. constructor; [|apply oc_refl]. cbn [fst snd]. split; [congruence|left; reflexivity].
  - constructor; [split; [reflexivity|left; reflexivity]|apply IH; assumption].
Qed.
Lemma oc_sel d n : only_coordinates d (snd (sel_attr d n false)).
Proof.
  unfold sel_attr. cbn [snd]. destruct (fget d (FName n)) as [a|] eqn:G; [|apply oc_refl]. destruct (dict_get a "coordinates") eqn:C; [apply oc_same; exact G|apply oc_set; assumption].
Qed.
Lemma oc_store names : forall vars d, only_coordinates d (snd (store_attrs vars d names)).
Proof.
  induction names as [|m names IH]; intros vars d; [apply oc_refl|]. unfold store_attrs in *. cbn [fold_left fst snd]. destruct (dict_get vars m) eqn:M; [apply IH|].
  pose proof (oc_sel d m) as S. destruct (sel_attr d m false) as [x d']. cbn [snd] in S. eapply oc_trans; [exact S|apply IH].
Qed.
Lemma oc_get d : forall e k, only_coordinates d e -> match fget d k, fget e k with Some a, Some b => oc1 (k, a) (k, b) | None, None => True | _, _ => False end.
Proof.
  unfold only_coordinates. induction d as [|[k0 a0] d IH]; intros e k H; inversion H as [|? [k1 a1] ? e' [F O] R]; subst; [exact Logic.I|]. cbn [fst snd] in *. subst k1.
  rewrite !fget_cons. destruct (field_eqb k0 k); [|apply IH; exact R]. split; [reflexivity|exact O].
Qed.
Lemma pick_get (p : field -> bool) d k : fget (filter (fun ka => p (fst ka)) d) k = if p k then fget d k else None.
Proof.
  induction d as [|[k0 a0] d IH]; [cbn; destruct (p k); reflexivity|]. cbn [filter fst]. rewrite fget_cons. destruct (p k0) eqn:P.
  - rewrite fget_cons. destruct (field_eqb k0 k) eqn:E; [apply field_eqb_spec in E; subst; rewrite P; reflexivity|exact IH].
  - destruct (field_eqb k0 k) eqn:E; [apply field_eqb_spec in E; subst; rewrite P in *; exact IH|exact IH].
Qed.
Lemma shared_oc d p q : NoDup (map fst d) -> (forall k a, fget p k = Some a -> fget d k = Some a) -> only_coordinates p q -> only_coordinates d (shared d q).
Proof.
  intros N P O. unfold only_coordinates, shared. assert (G : forall k a, In (k, a) d -> fget d k = Some a).
  { clear -N. induction d as [|[k0 a0] d IH]; intros k a H; [destruct H|destruct H as [H|H]].
    - injection H as -> ->. rewrite fget_cons, feqb_refl. reflexivity.
    - cbn [map fst] in N. inversion_clear N as [|? ? N1 N2]. rewrite fget_cons, feqb_neq; [apply IH; assumption|]. intros ->. apply N1, in_map_iff. exists (k, a). auto. }
  clear N. assert (W : forall l, incl l d -> Forall2 (fun x y => fst y = fst x /\ (snd y = snd x \/ dict_get (snd x) "coordinates" = None /\ snd y = snd x ++ [("coordinates", "idx lat lon")]%string)) l
      (map (fun ka => (fst ka, match fget q (fst ka) with Some a => a | None => snd ka end)) l)).
  { induction l as [|[k a] l IH]; intros I; [constructor|]. cbn [map fst snd]. constructor; [|apply IH; intros x Hx; apply I; right; exact Hx]. cbn [fst snd].
    pose proof (G k a (I _ (or_introl eq_refl))) as Gk. pose proof (oc_get p q k O) as Q. destruct (fget p k) as [x|] eqn:Ep, (fget q k) as [y|] eqn:Eq; try contradiction.
    - pose proof (P k x Ep) as Px. assert (x = a) by congruence. subst x. exact Q.
    - split; [reflexivity|left; reflexivity]. }
  apply W, incl_refl.
Qed.
Lemma nodup_map_inj {A B} (f : A -> B) l x y : NoDup (map f l) -> In x l -> In y l -> f x = f y -> x = y.
Proof.
  induction l as [|z l IH]; intros N X Y E; [destruct X|]. cbn [map] in N. inversion_clear N as [|? ? N1 N2]. destruct X as [X|X], Y as [Y|Y].
  - congruence.
  - subst z. exfalso. apply N1. rewrite E. apply in_map. exact Y.
  - subst z. exfalso. apply N1. rewrite <- E. apply in_map. exact X.
  - apply IH; assumption.
Qed.
Lemma existsb_field k l : existsb (field_eqb k) l = true <-> In k l.
Proof.
  rewrite existsb_exists. split; [intros (x & H & E); apply field_eqb_spec in E; subst; exact H|intros H; exists k; split; [exact H|apply feqb_refl]].
Qed.
Lemma result_unfold vars attr fields tv :
  result_attrs vars attr fields tv =
  let mf := filter (fun k => negb (is_ts tv k)) fields in let tf := filter (is_ts tv) fields in
  let pm := filter (fun ka => existsb (field_eqb (fst ka)) mf) attr in let pt := filter (fun ka => existsb (field_eqb (fst ka)) tf) attr in
  let rm := store_attrs vars pm (map var_name mf) in let rt := store_attrs (fst rm) pt (map var_name tf) in
  (fst rt, shared (shared attr (snd rm)) (snd rt)).
Proof.
  unfold result_attrs, metrics_attrs, ts_attrs. cbv zeta. destruct (store_attrs vars _ _) as [v m]. cbn [fst snd]. destruct (store_attrs v _ _) as [v' t]. reflexivity.
Qed.
Lemma run_other vars c n : ~ mentions c n -> dict_get (fst (run_attrs vars c)) n = dict_get vars n.
Proof.
  destruct c as [attr fields|attr names|attr fields tv]; cbn [mentions run_attrs]; intros M.
  - apply store_other. exact M.
  - apply store_other. exact M.
  - rewrite result_unfold. cbv zeta. cbn [fst]. rewrite !store_other; [reflexivity| |]; intros H; apply M; apply in_map_iff in H as (f & E & H); apply filter_In in H as [H _]; apply in_map_iff; exists f; auto.
Qed.
Lemma run_keep vars c n a : dict_get vars n = Some a -> dict_get (fst (run_attrs vars c)) n = Some a.
Proof.
  destruct c as [attr fields|attr names|attr fields tv]; cbn [run_attrs]; intros H.
  - apply store_keep. exact H.
  - apply store_keep. exact H.
  - rewrite result_unfold. cbv zeta. cbn [fst]. apply store_keep, store_keep. exact H.
Qed.
Lemma run_new vars c n : distinct_names c -> mentions c n -> dict_get vars n = None ->
  exists a, dict_get (fst (run_attrs vars c)) n = Some a /\ (passed_on c n -> described (given c n) a) /\ (~ passed_on c n -> described None a).
Proof.
  destruct c as [attr fields|attr names|attr fields tv]; cbn [run_attrs distinct_names mentions passed_on]; unfold given; cbn [dict_of]; intros D M V.
  - destruct (store_new _ vars attr n M V) as (a & E & H). exists a. split; [exact E|]. split; [auto|intros X; destruct (X Logic.I)].
  - destruct (store_new _ vars attr n M V) as (a & E & H). exists a. split; [exact E|]. split; [auto|intros X; destruct (X Logic.I)].
  - rewrite result_unfold. cbv zeta. cbn [fst]. apply in_map_iff in M as (f & E & M).
    set (mf := filter (fun k => negb (is_ts tv k)) fields). set (tf := filter (is_ts tv) fields).
    set (pm := filter (fun ka => existsb (field_eqb (fst ka)) mf) attr). set (pt := filter (fun ka => existsb (field_eqb (fst ka)) tf) attr).
    assert (U : forall g, In g fields -> var_name g = n -> g = f) by (intros g Hg Eg; apply (nodup_map_inj var_name fields); [exact D|exact Hg|exact M|congruence]).
    destruct (is_ts tv f) eqn:T.
    + assert (F : f = FName n). { destruct f as [s|l]; [cbn [var_name] in E; congruence|discriminate T]. }
      assert (NM : ~ In n (map var_name mf)).
      { intros H. apply in_map_iff in H as (g & Eg & H). apply filter_In in H as [H Hg]. rewrite (U g H Eg), T in Hg. discriminate. }
      assert (IT : In f tf) by (apply filter_In; split; assumption).
      destruct (store_new (map var_name tf) (fst (store_attrs vars pm (map var_name mf))) pt n) as (a & Ea & Ha).
      * apply in_map_iff. exists f. auto.
      * rewrite store_other by exact NM. exact V.
      * exists a. split; [exact Ea|]. unfold pt in Ha. rewrite (pick_get (fun k => existsb (field_eqb k) tf)), <- F, (proj2 (existsb_field f tf) IT) in Ha.
        split; [intros _; rewrite <- F; exact Ha|intros X; exfalso; apply X; rewrite <- F; exact M].
    + assert (IM : In f mf) by (apply filter_In; split; [exact M|rewrite T; reflexivity]).
      destruct (store_new (map var_name mf) vars pm n) as (a & Ea & Ha); [apply in_map_iff; exists f; auto|exact V|].
      exists a. split; [apply store_keep; exact Ea|]. unfold pm in Ha. rewrite (pick_get (fun k => existsb (field_eqb k) mf)) in Ha. split.
      * intros P. assert (F : FName n = f) by (apply U; [exact P|reflexivity]). rewrite F in *. rewrite (proj2 (existsb_field f mf) IM) in Ha. exact Ha.
      * intros P. destruct (existsb (field_eqb (FName n)) mf) eqn:X; [|exact Ha]. exfalso. apply P. apply existsb_field, filter_In in X as [X _]. exact X.
Qed.
Lemma shared_get d q k : fget (shared d q) k = match fget d k with Some a => Some (match fget q k with Some b => b | None => a end) | None => None end.
Proof.
  induction d as [|[k0 a0] d IH]; [reflexivity|]. unfold shared in *. cbn [map fst snd]. rewrite !fget_cons. destruct (field_eqb k0 k) eqn:E; [|exact IH].
  apply field_eqb_spec in E. subst. reflexivity.
Qed.
Lemma oc_keys d e : only_coordinates d e -> map fst e = map fst d.
Proof. unfold only_coordinates. intros H. induction H as [|x y l l' P H IH]; [reflexivity|]. cbn [map]. destruct P as [F _]. apply f_equal2; [exact F|exact IH]. Qed.
Lemma run_caller vars c : NoDup (map fst (dict_of c)) -> only_coordinates (dict_of c) (snd (run_attrs vars c)).
Proof.
  destruct c as [attr fields|attr names|attr fields tv]; cbn [run_attrs dict_of]; intros N.
  - apply oc_store.
  - apply oc_store.
  - rewrite result_unfold. cbv zeta. cbn [snd].
    set (mf := filter (fun k => negb (is_ts tv k)) fields). set (tf := filter (is_ts tv) fields).
    set (pm := filter (fun ka => existsb (field_eqb (fst ka)) mf) attr). set (pt := filter (fun ka => existsb (field_eqb (fst ka)) tf) attr).
    pose proof (oc_store (map var_name mf) vars pm) as Om. set (rm := snd (store_attrs vars pm (map var_name mf))) in *.
    pose proof (oc_store (map var_name tf) (fst (store_attrs vars pm (map var_name mf))) pt) as Ot. set (rt := snd (store_attrs _ pt _)) in *.
    assert (O1 : only_coordinates attr (shared attr rm)).
    { apply (shared_oc attr pm rm N); [|exact Om]. intros k a H. unfold pm in H. rewrite (pick_get (fun k => existsb (field_eqb k) mf)) in H. destruct (existsb _ mf); [exact H|discriminate]. }
    eapply oc_trans; [exact O1|]. apply (shared_oc (shared attr rm) pt rt); [rewrite (oc_keys _ _ O1); exact N| |exact Ot].
    intros k a H. unfold pt in H. rewrite (pick_get (fun k => existsb (field_eqb k) tf)) in H. destruct (existsb (field_eqb k) tf) eqn:X; [|discriminate].
    rewrite shared_get, H. pose proof (oc_get pm rm k Om) as G. unfold pm in G at 1. rewrite (pick_get (fun k => existsb (field_eqb k) mf)) in G.
    apply existsb_field, filter_In in X as [_ X]. assert (Y : existsb (field_eqb k) mf = false).
    { destruct (existsb (field_eqb k) mf) eqn:Y; [|reflexivity]. apply existsb_field, filter_In in Y as [_ Y]. rewrite X in Y. discriminate. }
    rewrite Y in G. destruct (fget rm k); [contradiction|reflexivity].
Qed.
(* histories *)
Lemma run_all_keep h : forall vars n a, dict_get vars n = Some a -> dict_get (run_all_attrs vars h) n = Some a.
Proof. induction h as [|c h IH]; intros vars n a H; [exact H|]. unfold run_all_attrs in *. cbn [fold_left]. apply IH. apply run_keep. exact H. Qed.
Lemma run_all_other h : forall vars n, (forall c, In c h -> ~ mentions c n) -> dict_get (run_all_attrs vars h) n = dict_get vars n.
Proof.
  induction h as [|c h IH]; intros vars n H; [reflexivity|]. unfold run_all_attrs in *. cbn [fold_left]. rewrite IH by (intros c' Hc; apply H; right; exact Hc).
  apply run_other, H. left. reflexivity.
Qed.

(* ---- locations by coordinates *)
Lemma lookup_ok s t lon lat : inv s t -> exists l, lonlat2idx s lon lat = Ok l /\ NoDup l /\
  forall i, In i l <-> exists p, nth_error (t_locs t) i = Some p /\ (fst (fst p) == lon)%Q /\ (snd (fst p) == lat)%Q.
Proof.
  intros I. destruct (i_lon s t I) as (vlon & V1 & D1 & C1). destruct (i_lat s t I) as (vlat & V2 & D2 & C2).
  unfold lonlat2idx, get_var. unfold view in V1, V2. rewrite V1, V2. cbn [bindR]. eexists. split; [reflexivity|]. split; [apply NoDup_filter, seq_NoDup|].
  intros i. rewrite filter_In, in_seq. assert (L := i_loc s t I).
  assert (G : (i < f_loc s)%nat -> nth i (cells s vlon) None = at_ (fun p => Some (fst (fst p))) (t_locs t) i /\ nth i (cells s vlat) None = at_ (fun p => Some (snd (fst p))) (t_locs t) i).
  { intros H. split.
    - destruct (nth_cells s "lon" _ DLoc i (i_lon s t I)) as (v & E & _ & C). unfold view in E. assert (v = vlon) by congruence. subst v. apply C. exact H.
    - destruct (nth_cells s "lat" _ DLoc i (i_lat s t I)) as (v & E & _ & C). unfold view in E. assert (v = vlat) by congruence. subst v. apply C. exact H. }
  split.
  - intros [[_ H] F]. cbn [Nat.add] in H. destruct (G H) as [G1 G2]. rewrite G1, G2 in F. unfold at_ in F. destruct (nth_error (t_locs t) i) as [p|]; [|discriminate F].
    exists p. apply andb_true_iff in F as [F1 F2]. cbn [cell_is] in F1, F2. apply Qeq_bool_iff in F1, F2. auto.
  - intros (p & E & Q1 & Q2). assert (H : (i < f_loc s)%nat) by (rewrite L; apply nth_error_Some; congruence). split; [lia|].
    destruct (G H) as [-> ->]. unfold at_. rewrite E. cbn [cell_is]. apply andb_true_iff. split; apply Qeq_bool_iff; assumption.
Qed.
Lemma coords_ok s t i p : inv s t -> nth_error (t_locs t) i = Some p -> idx2lonlat s i = Ok (Some (fst (fst p)), Some (snd (fst p))).
Proof.
  intros I E. assert (H : (i < f_loc s)%nat) by (rewrite (i_loc s t I); apply nth_error_Some; congruence).
  destruct (nth_cells s "lon" _ DLoc i (i_lon s t I)) as (vlon & V1 & D1 & C1). destruct (nth_cells s "lat" _ DLoc i (i_lat s t I)) as (vlat & V2 & D2 & C2).
  unfold idx2lonlat, get_var. unfold view in V1, V2. rewrite V1, V2. cbn [bindR].
  assert (Lg : forall v, v_dim v = DLoc -> nth_error (cells s v) i = Some (nth i (cells s v) None)).
  { intros v D. apply nth_error_nth'. unfold cells. rewrite map_length, seq_length, D. exact H. }
  rewrite (Lg vlon D1), (Lg vlat D2), (C1 H), (C2 H). unfold at_. rewrite E. reflexivity.
Qed.
