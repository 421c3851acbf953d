(* Proofs about the subset adapters. *)
From Coq Require Import Reals List Lia Bool.
From Verif Require Import Base BaseProofs GroupingModel GroupingSpec GroupingProofs DistributorProofs CalcModel CalcProofs SubsetModel SubsetSpec.
Open Scope list_scope.

Lemma mask_subsequence {A} (P : A -> Prop) l mask : marks P l mask -> subsequence P l (mask_select mask l).
Proof.
  induction 1 as [|a b l mask H F IH]; cbn; [constructor|].
  destruct b; constructor; auto; [apply H; reflexivity|intros C; apply H in C; discriminate].
Qed.
Lemma marks_map {A B} (h : A -> B) (P : B -> Prop) l : forall mask, marks P (map h l) mask -> marks (fun a => P (h a)) l mask.
Proof.
  induction l as [|a l IH]; intros mask M; inversion M; subst; constructor; auto. now apply IH.
Qed.

Section S.
Variable template : dataset.
Variable meta : metadata.
Variable calc : frame -> gpi_info -> res dataset.
Variable mode : grouping.
Notation genname := (genname meta mode).
Notation store := (store meta mode).

Lemma non_seas s : In s (non_seas_metrics meta) <-> In s ["gpi"; "lon"; "lat"]%string \/ exists m, meta = Some m /\ In s (map fst m).
Proof.
  unfold non_seas_metrics. rewrite in_app_iff. destruct meta as [m|]; split; intros [H|H]; auto.
  - right. exists m. auto.
  - destruct H as (m' & E & H). injection E as <-. auto.
  - destruct H.
  - destruct H as (m' & E & _). discriminate.
Qed.
Lemma genname_keep name k : location_or_metadata meta k -> genname name k = k.
Proof.
  intros (s & -> & H). unfold SubsetModel.genname.
  assert (E : existsb (String.eqb s) (non_seas_metrics meta) = true).
  { apply existsb_exists. exists s. split; [now apply non_seas|apply String.eqb_refl]. }
  now rewrite E.
Qed.
Lemma genname_new name k : ~ location_or_metadata meta k ->
  genname name k = match mode with GTuple => name :: k | GJoin => [name ++ "|" ++ show k]%string end.
Proof.
  intros N. unfold SubsetModel.genname. destruct k as [|s [|s' k]]; auto.
  destruct (existsb (String.eqb s) (non_seas_metrics meta)) eqn:E; auto. exfalso. apply N. exists s. split; auto.
  apply non_seas. apply existsb_exists in E as (x & I & E). apply String.eqb_eq in E as ->. exact I.
Qed.
Lemma keep_dec k : location_or_metadata meta k \/ ~ location_or_metadata meta k.
Proof.
  destruct k as [|s [|s' k]]; try (right; intros (x & E & _); discriminate).
  destruct (in_dec String.string_dec s (non_seas_metrics meta)) as [I|N].
  - left. exists s. split; auto. now apply non_seas.
  - right. intros (x & E & H). injection E as ->. apply N. now apply non_seas.
Qed.

Lemma store_out name ds : forall d k, (forall k', In k' (map fst ds) -> genname name k' <> k) -> ds_get (store name d ds) k = ds_get d k.
Proof.
  induction ds as [|[k0 v0] ds IH]; intros d k N; [reflexivity|].
  change (store name d ((k0, v0) :: ds)) with (store name (ds_set d (genname name k0) v0) ds).
  rewrite IH by (intros k' I; apply N; right; exact I). apply get_set_other. apply N. now left.
Qed.
Lemma store_in name ds : forall d k v, NoDup (map fst ds) -> In (k, v) ds ->
  (forall k', In k' (map fst ds) -> genname name k' = genname name k -> k' = k) ->
  ds_get (store name d ds) (genname name k) = Some v.
Proof.
  induction ds as [|[k0 v0] ds IH]; intros d k v N I J; [destruct I|].
  change (store name d ((k0, v0) :: ds)) with (store name (ds_set d (genname name k0) v0) ds).
  apply NoDup_cons_iff in N as [N1 N2]. destruct I as [E|I].
  - injection E as -> ->. rewrite store_out; [apply get_set_same|].
    intros k' I' E. apply N1. cbn. rewrite <- (J k' (or_intror I') E). exact I'.
  - apply IH; auto. intros k' I'. apply J. now right.
Qed.
Lemma store_keys name ds : forall d k, ds_get (store name d ds) k <> None ->
  ds_get d k <> None \/ exists k', In k' (map fst ds) /\ genname name k' = k.
Proof.
  induction ds as [|[k0 v0] ds IH]; intros d k H; [now left|].
  change (store name d ((k0, v0) :: ds)) with (store name (ds_set d (genname name k0) v0) ds) in H.
  apply IH in H as [H|(k' & I & E)]; [|right; exists k'; split; [now right|exact E]].
  rewrite get_set in H. destruct (k_eqb_spec (genname name k0) k) as [E|_]; [|now left].
  right. exists k0. split; [now left|exact E].
Qed.

Lemma template_keys (subsets : list (string * distributor)) : forall d k, ds_get (fold_left (fun d sd => store (fst sd) d template) subsets d) k <> None ->
  ds_get d k <> None \/ exists name k', In name (map fst subsets) /\ In k' (map fst template) /\ genname name k' = k.
Proof.
  induction subsets as [|[name D] r IH]; intros d k H; [now left|]. cbn in H.
  apply IH in H as [H|(n & k' & I & I' & E)]; [|right; exists n, k'; split; [now right|auto]].
  apply store_keys in H as [H|(k' & I & E)]; [now left|]. right. exists name, k'. split; [now left|auto].
Qed.

Variable f : frame.
Variable info : gpi_info.

(* one answer per subset *)
Definition answer (sd : string * distributor) (ds : dataset) : Prop :=
  exists g, subset_frame (snd sd) f = Ok g /\ calc g info = Ok ds.

Lemma loop_ok subsets : forall d outs, Forall2 answer subsets outs ->
  subset_loop meta calc mode d subsets f info =
    Ok (fold_left (fun d e => store (fst e) d (snd e)) (combine (map fst subsets) outs) d).
Proof.
  induction subsets as [|[name D] r IH]; intros d outs F; inversion F as [|x ds y outs' (g & E1 & E2) F']; subst; [reflexivity|].
  cbn [subset_loop]. cbn [snd] in E1. rewrite E1. cbn [bindR]. rewrite E2. cbn [bindR]. now apply IH.
Qed.

Lemma fold_out l : forall d k, (forall name ds k', In (name, ds) l -> In k' (map fst ds) -> genname name k' <> k) ->
  ds_get (fold_left (fun d e => store (fst e) d (snd e)) l d) k = ds_get d k.
Proof.
  induction l as [|[name ds] l IH]; intros d k N; [reflexivity|]. cbn. rewrite IH by (intros n x k' I; apply N; now right).
  apply store_out. intros k' I. apply (N name ds k'); auto. now left.
Qed.
Lemma fold_in l : forall d name ds k v, NoDup (map fst l) -> In (name, ds) l -> NoDup (map fst ds) -> In (k, v) ds ->
  (forall name' ds' k', In (name', ds') l -> In k' (map fst ds') -> genname name' k' = genname name k -> name' = name /\ k' = k) ->
  ds_get (fold_left (fun d e => store (fst e) d (snd e)) l d) (genname name k) = Some v.
Proof.
  induction l as [|[n0 ds0] l IH]; intros d name ds k v N I ND Ik J; [destruct I|].
  apply NoDup_cons_iff in N as [N1 N2]. cbn [fold_left fst snd]. destruct I as [E|I].
  - injection E as -> ->. rewrite fold_out.
    + apply store_in; auto. intros k' I' E. now destruct (J name ds k' (or_introl eq_refl) I' E).
    + intros n x k' I' Ik' E. destruct (J n x k' (or_intror I') Ik' E) as [-> _]. apply N1. cbn [fst].
      change name with (fst (name, x)). now apply in_map.
  - apply (IH _ name ds k v); auto. intros n x k' I'. apply J. now right.
Qed.
(* a value on which all the subsets agree *)
Lemma fold_same l : forall d k v, (exists name ds, In (name, ds) l) ->
  (forall name ds, In (name, ds) l -> NoDup (map fst ds) /\ In (k, v) ds) ->
  (forall name ds k', In (name, ds) l -> In k' (map fst ds) -> genname name k' = k -> k' = k) ->
  (forall name, genname name k = k) ->
  ds_get (fold_left (fun d e => store (fst e) d (snd e)) l d) k = Some v.
Proof.
  induction l as [|[n0 ds0] l IH]; intros d k v Hne H J G; [destruct Hne as (a & b & []) |].
  cbn [fold_left fst snd]. destruct l as [|e l].
  - cbn [fold_left]. destruct (H n0 ds0 (or_introl eq_refl)) as [N I].
    rewrite <- (G n0) at 1. apply store_in; auto. intros k' I' E.
    rewrite G in E. apply (J n0 ds0 k'); auto. now left.
  - apply IH; auto.
    + destruct e as [a b]. exists a, b. now left.
    + intros name ds I. apply (H name ds). now right.
    + intros name ds k' I. apply (J name ds k'). now right.
Qed.
Lemma fold_keys l : forall d k, ds_get (fold_left (fun d e => store (fst e) d (snd e)) l d) k <> None ->
  ds_get d k <> None \/ exists name ds k', In (name, ds) l /\ In k' (map fst ds) /\ genname name k' = k.
Proof.
  induction l as [|[n ds] l IH]; intros d k H; [now left|]. cbn in H.
  apply IH in H as [H|(a & b & c & I & H)]; [|right; exists a, b, c; split; [now right|exact H]].
  apply store_keys in H as [H|(k' & I & E)]; [now left|]. right. exists n, ds, k'. split; [now left|auto].
Qed.

Lemma frame_where D P : (exists mask, ts_filter D (map fst (f_rows f)) = Ok mask /\ marks P (map fst (f_rows f)) mask) ->
  exists g, subset_frame D f = Ok g /\ rows_where P f g.
Proof.
  intros (mask & E & M). unfold subset_frame. destruct (f_rows f) as [|r0 rows] eqn:R.
  - exists f. split; auto. split; auto. rewrite R. constructor.
  - exists (Frame (f_cols f) (mask_select mask (r0 :: rows))). split.
    + unfold ts_select. rewrite E. reflexivity.
    + split; [reflexivity|]. cbn [f_rows]. rewrite R. apply mask_subsequence. now apply marks_map.
Qed.

Lemma in_combine_fst {A B} (l : list A) (m : list B) a : List.length l = List.length m -> In a l -> exists b, In (a, b) (combine l m).
Proof.
  revert m. induction l as [|x l IH]; intros [|y m] L I; try destruct I; try discriminate.
  - subst. exists y. now left.
  - injection L as L. destruct (IH m L H) as (b & Hb). exists b. now right.
Qed.
Lemma combine_fst {A B} (l : list A) (m : list B) : List.length l = List.length m -> map fst (combine l m) = l.
Proof. revert m. induction l as [|x l IH]; intros [|y m] L; try discriminate; cbn; [reflexivity|]. f_equal. apply IH. now injection L. Qed.

Variable P : string -> ts -> Prop.
Variable subsets : list (string * distributor).
Hypothesis distinct : NoDup (map fst subsets).
Hypothesis selects : forall name D, In (name, D) subsets ->
  exists mask, ts_filter D (map fst (f_rows f)) = Ok mask /\ marks (P name) (map fst (f_rows f)) mask.
Hypothesis answers : forall g, f_cols g = f_cols f -> exists ds, calc g info = Ok ds /\ is_dict ds.

Lemma all_answers : forall l, (forall e, In e l -> In e subsets) ->
  exists outs, Forall2 answer l outs /\
    Forall2 (fun sd ds => exists g, rows_where (P (fst sd)) f g /\ calc g info = Ok ds /\ is_dict ds) l outs.
Proof.
  induction l as [|[name D] l IH]; intros S'; [exists []; split; constructor|].
  destruct IH as (outs & F1 & F2); [intros e I; apply S'; now right|].
  destruct (frame_where D (P name) (selects name D (S' _ (or_introl eq_refl)))) as (g & E & W).
  destruct (answers g (proj1 W)) as (ds & C & Dd).
  exists (ds :: outs). split; constructor; auto; exists g; auto.
Qed.

(* the keys of different subsets and metrics differ *)
Definition separate (keys : key -> Prop) : Prop := forall name name' k k', In name (map fst subsets) -> In name' (map fst subsets) ->
  keys k -> keys k' -> ~ location_or_metadata meta k ->
  genname name' k' = genname name k -> name' = name /\ k' = k.
Definition separate_kept (keys : key -> Prop) : Prop := forall name k k', In name (map fst subsets) ->
  keys k -> keys k' -> location_or_metadata meta k -> genname name k' = k -> k' = k.

Lemma in_combine_map (outs : list dataset) Q name ds : Forall2 Q subsets outs -> In (name, ds) (combine (map fst subsets) outs) ->
  exists D, In (name, D) subsets /\ Q (name, D) ds.
Proof.
  clear. intros F. induction F as [|[n D] o l outs H F IH]; intros I; [destruct I|]. destruct I as [E|I].
  - cbn [fst] in E. injection E as -> ->. exists D. split; [now left|exact H].
  - destruct (IH I) as (D' & I' & H'). exists D'. split; [now right|exact H'].
Qed.

Lemma subset_ok (keys : key -> Prop) :
  (forall g ds, f_cols g = f_cols f -> calc g info = Ok ds -> forall k, In k (map fst ds) -> keys k) ->
  separate keys -> separate_kept keys ->
  exists d, subset_calc template meta calc mode subsets f info = Ok d /\
    (forall name, In name (map fst subsets) -> exists g ds, rows_where (P name) f g /\ calc g info = Ok ds /\
       forall k, ~ location_or_metadata meta k -> ds_get ds k <> None -> ds_get d (genname name k) = ds_get ds k) /\
    (forall k v, subsets <> [] -> location_or_metadata meta k ->
       (forall g ds, f_cols g = f_cols f -> calc g info = Ok ds -> ds_get ds k = Some v) -> ds_get d k = Some v) /\
    (forall k, ds_get d k <> None ->
       exists name k', In name (map fst subsets) /\ (keys k' \/ In k' (map fst template)) /\ k = genname name k').
Proof.
  intros K SEP SEP2. destruct (all_answers subsets (fun e I => I)) as (outs & F1 & F2).
  eexists. split; [unfold subset_calc; apply loop_ok; exact F1|].
  pose proof (Forall2_len _ _ _ F1) as L0.
  assert (L : List.length (map fst subsets) = List.length outs) by (rewrite map_length; exact L0).
  assert (GETIN : forall (ds : dataset) k v, ds_get ds k = Some v -> In (k, v) ds).
  { intros ds k v E. unfold ds_get in E. destruct (find _ ds) as [[k1 v1]|] eqn:Fd; [|discriminate].
    apply find_some in Fd as [I E']. cbn in E, E'. injection E as ->. destruct (k_eqb_spec k1 k) as [->|]; [exact I|discriminate]. }
  split; [|split].
  - intros name I. destruct (in_combine_fst _ outs name L I) as (ds & Id).
    destruct (in_combine_map outs _ name ds F2 Id) as (D & ID & g & W & C & Dd).
    exists g, ds. split; [exact W|split; [exact C|]]. intros k Nk Hk.
    destruct (ds_get ds k) as [v|] eqn:E; [|congruence].
    apply (fold_in _ _ name ds k v); auto.
    + rewrite combine_fst; auto.
    + apply Dd.
    + intros n' ds' k' I' Ik' E'. destruct (in_combine_map outs _ n' ds' F2 I') as (D' & ID' & g' & W' & C' & Dd').
      apply (SEP name n' k k'); auto.
      * apply (in_map fst) in ID'. exact ID'.
      * apply (K g ds (proj1 W) C). apply GETIN in E. apply (in_map fst) in E. exact E.
      * apply (K g' ds' (proj1 W') C'). exact Ik'.
  - intros k v NE Lk H. apply fold_same.
    + destruct subsets as [|[n D] r] eqn:ES; [congruence|]. cbn [map fst] in *. destruct (in_combine_fst _ outs n L (or_introl eq_refl)) as (ds & Id).
      exists n, ds. exact Id.
    + intros name ds I. destruct (in_combine_map outs _ name ds F2 I) as (D & ID & g & W & C & Dd).
      split; [apply Dd|]. apply GETIN. apply (H g ds (proj1 W) C).
    + intros name ds k' I Ik' E. destruct (in_combine_map outs _ name ds F2 I) as (D & ID & g & W & C & Dd).
      apply (SEP2 name k k'); auto.
      * apply (in_map fst) in ID. exact ID.
      * apply (K g ds (proj1 W) C). pose proof (H g ds (proj1 W) C) as E'. apply GETIN in E'. apply (in_map fst) in E'. exact E'.
      * apply (K g ds (proj1 W) C). exact Ik'.
    + intros name. now apply genname_keep.
  - intros k H. apply fold_keys in H as [H|(name & ds & k' & I & Ik & E)].
    + change (subset_template template meta mode subsets) with (fold_left (fun d sd => store (fst sd) d template) subsets []) in H.
      apply template_keys in H as [H|(name & k' & I & I' & E)]; [exfalso; apply H; reflexivity|].
      exists name, k'. auto.
    + destruct (in_combine_map outs _ name ds F2 I) as (D & ID & g & W & C & Dd). exists name, k'.
      split; [apply (in_map fst) in ID; exact ID|]. split; [|now symmetry]. left. apply (K g ds (proj1 W) C). exact Ik.
Qed.
End S.

(* ---- the two groupings ---- *)
Lemma tuple_separate meta name name' k k' : ~ location_or_metadata meta k -> k <> [] -> k' <> [] ->
  genname meta GTuple name' k' = genname meta GTuple name k -> name' = name /\ k' = k.
Proof.
  intros N NE NE'. rewrite (genname_new meta GTuple name k N).
  destruct (keep_dec meta k') as [Y|N'].
  - rewrite (genname_keep meta GTuple name' k' Y). destruct Y as (s & -> & _). destruct k; [congruence|discriminate].
  - rewrite (genname_new meta GTuple name' k' N'). intros E. injection E as -> ->. auto.
Qed.
Lemma tuple_separate_kept meta name k k' : location_or_metadata meta k -> k' <> [] ->
  genname meta GTuple name k' = k -> k' = k.
Proof.
  intros (s & -> & _) NE'. destruct (keep_dec meta k') as [Y|N'].
  - now rewrite (genname_keep meta GTuple name k' Y).
  - rewrite (genname_new meta GTuple name k' N'). destruct k'; [congruence|discriminate].
Qed.

Lemma no_bar_cons c s : no_bar (String c s) -> c <> "|"%char /\ no_bar s.
Proof.
  intros N. split.
  - intros ->. apply (N ""%string s). reflexivity.
  - intros a b E. apply (N (String c a) b). now rewrite E.
Qed.
Lemma bar_split a : forall b x y, no_bar a -> no_bar b -> (a ++ "|" ++ x = b ++ "|" ++ y)%string -> a = b /\ x = y.
Proof.
  induction a as [|c a IH]; intros [|e b] x y Na Nb E.
  - cbn in E. injection E as ->. auto.
  - cbn in E. injection E as E1 E2. apply no_bar_cons in Nb as [C _]. now subst e.
  - cbn in E. injection E as E1 E2. apply no_bar_cons in Na as [C _]. now subst c.
  - cbn in E. injection E as -> E2. destruct (IH b x y) as [-> ->]; auto; eapply no_bar_cons; eauto.
Qed.
Lemma join_separate meta name name' k k' : ~ location_or_metadata meta k -> no_bar name -> no_bar name' ->
  (forall s m, meta = Some m -> In s (map fst m) -> no_bar s) ->
  (show k' = show k -> k' = k) ->
  genname meta GJoin name' k' = genname meta GJoin name k -> name' = name /\ k' = k.
Proof.
  intros N B B' M S'. rewrite (genname_new meta GJoin name k N).
  destruct (keep_dec meta k') as [Y|N'].
  - rewrite (genname_keep meta GJoin name' k' Y). destruct Y as (s & -> & H). intros E. exfalso. injection E as E.
    assert (Nb : no_bar s).
    { destruct H as [H|(m & Em & H)]; [|now apply (M s m)].
      intros a b ->. clear -H. cbn in H.
      destruct H as [H|[H|[H|[]]]]; do 4 (destruct a as [|? a]; cbn in H; try congruence). }
    apply (Nb name (show k)). exact E.
  - rewrite (genname_new meta GJoin name' k' N'). intros E. injection E as E.
    destruct (bar_split _ _ _ _ B' B E) as [-> E']. auto.
Qed.
Lemma join_separate_kept meta name k k' : location_or_metadata meta k ->
  (forall s m, meta = Some m -> In s (map fst m) -> no_bar s) ->
  genname meta GJoin name k' = k -> k' = k.
Proof.
  intros (s & -> & H) M. destruct (keep_dec meta k') as [Y|N'].
  - now rewrite (genname_keep meta GJoin name k' Y).
  - rewrite (genname_new meta GJoin name k' N'). intros E. exfalso. injection E as E.
    assert (Nb : no_bar s).
    { destruct H as [H|(m & Em & H)]; [|now apply (M s m)].
      intros a b ->. clear -H. cbn in H.
      destruct H as [H|[H|[H|[]]]]; do 4 (destruct a as [|? a]; cbn in H; try congruence). }
    apply (Nb name (show k')). exact (eq_sym E).
Qed.

(* ---- months ---- *)
Lemma months_loop_ok l : (forall name e, In (name, e) l -> exists m, e = Months m) ->
  months_loop l = Ok (map (fun e => (fst e, match snd e with Months m => Selected (months_distributor m) | s => s end)) l).
Proof.
  induction l as [|[name e] l IH]; intros H; [reflexivity|]. destruct (H name e (or_introl eq_refl)) as (m & ->).
  cbn. rewrite IH by (intros n x I; apply (H n x); now right). reflexivity.
Qed.
Lemma months_init_ok (l : list (string * list Z)) :
  months_init (map (fun e => (fst e, Months (snd e))) l) =
    Ok (map (fun e => (fst e, Selected (months_distributor (snd e)))) l, map (fun e => (fst e, months_distributor (snd e))) l).
Proof.
  unfold months_init. rewrite months_loop_ok.
  - cbn [mapR]. rewrite map_map. cbn [fst snd]. f_equal. f_equal.
    induction l as [|[n m] l IH]; [reflexivity|]. cbn. f_equal. exact IH.
  - intros name e I. apply in_map_iff in I as ([n m] & E & _). cbn in E. injection E as _ <-. now exists m.
Qed.
Lemma months_again (l : list (string * list Z)) : l <> [] ->
  months_init (map (fun e => (fst e, Selected (months_distributor (snd e)))) l) = Err EType.
Proof. destruct l as [|[n m] l]; [congruence|]. reflexivity. Qed.

(* ---- the adapters ---- *)
Lemma tuple_ok template meta calc subsets f info (P : string -> ts -> Prop) :
  NoDup (map fst subsets) ->
  (forall name D, In (name, D) subsets ->
     exists mask, ts_filter D (map fst (f_rows f)) = Ok mask /\ marks (P name) (map fst (f_rows f)) mask) ->
  (forall g, f_cols g = f_cols f -> exists ds, calc g info = Ok ds /\ is_dict ds) ->
  exists d, subset_calc template meta calc GTuple subsets f info = Ok d /\
    (forall name, In name (map fst subsets) -> exists g ds, rows_where (P name) f g /\ calc g info = Ok ds /\
       forall k, ~ location_or_metadata meta k -> ds_get ds k <> None -> ds_get d (name :: k) = ds_get ds k) /\
    (forall k v, subsets <> [] -> location_or_metadata meta k ->
       (forall g ds, f_cols g = f_cols f -> calc g info = Ok ds -> ds_get ds k = Some v) -> ds_get d k = Some v) /\
    (forall k, ds_get d k <> None -> location_or_metadata meta k \/ exists name k', k = name :: k' /\ In name (map fst subsets)).
Proof.
  intros N S A.
  destruct (subset_ok template meta calc GTuple f info P subsets N S A (fun k => k <> [])) as (d & E & H1 & H2 & H3).
  - intros g ds G C k I ->. destruct (A g G) as (ds' & C' & _ & NE). apply NE. congruence.
  - intros name name' k k' _ _ I I' L. now apply tuple_separate.
  - intros name k k' _ I I' L. now apply tuple_separate_kept.
  - exists d. split; [exact E|]. split; [|split; [exact H2|]].
    + intros name I. destruct (H1 name I) as (g & ds & W & C & H). exists g, ds. split; [exact W|split; [exact C|]].
      intros k Nk Hk. rewrite <- (H k Nk Hk). now rewrite (genname_new meta GTuple name k Nk).
    + intros k H. destruct (H3 k H) as (name & k' & I & _ & ->). destruct (keep_dec meta k') as [Y|Nk].
      * left. now rewrite genname_keep.
      * right. rewrite (genname_new meta GTuple name k' Nk). exists name, k'. auto.
Qed.
Lemma join_ok template meta calc subsets f info (P : string -> ts -> Prop) :
  NoDup (map fst subsets) -> (forall name, In name (map fst subsets) -> no_bar name) ->
  (forall s m, meta = Some m -> In s (map fst m) -> no_bar s) ->
  (forall name D, In (name, D) subsets ->
     exists mask, ts_filter D (map fst (f_rows f)) = Ok mask /\ marks (P name) (map fst (f_rows f)) mask) ->
  (forall g, f_cols g = f_cols f -> exists ds, calc g info = Ok ds /\ is_dict ds /\ forall k, In k (map fst ds) -> exists s, k = [s]) ->
  exists d, subset_calc template meta calc GJoin subsets f info = Ok d /\
    (forall name, In name (map fst subsets) -> exists g ds, rows_where (P name) f g /\ calc g info = Ok ds /\
       forall s, ~ location_or_metadata meta [s] -> ds_get ds [s] <> None -> ds_get d [name ++ "|" ++ s]%string = ds_get ds [s]) /\
    (forall k v, subsets <> [] -> location_or_metadata meta k ->
       (forall g ds, f_cols g = f_cols f -> calc g info = Ok ds -> ds_get ds k = Some v) -> ds_get d k = Some v).
Proof.
  intros N B M S A.
  assert (A' : forall g, f_cols g = f_cols f -> exists ds, calc g info = Ok ds /\ is_dict ds).
  { intros g G. destruct (A g G) as (ds & C & D & _). exists ds. auto. }
  destruct (subset_ok template meta calc GJoin f info P subsets N S A' (fun k => exists s, k = [s])) as (d & E & H1 & H2 & _).
  - intros g ds G C k I. destruct (A g G) as (ds' & C' & _ & NE). apply NE. congruence.
  - intros name name' k k' I1 I2 (s & ->) (s' & ->) L. apply join_separate; auto. cbn. congruence.
  - intros name k k' _ I I' L. now apply join_separate_kept.
  - exists d. split; [exact E|]. split; [|exact H2].
    intros name I. destruct (H1 name I) as (g & ds & W & C & H). exists g, ds. split; [exact W|split; [exact C|]].
    intros s Nk Hk. rewrite <- (H [s] Nk Hk). now rewrite (genname_new meta GJoin name [s] Nk).
Qed.
Lemma months_ok template meta calc (months : list (string * list Z)) f info :
  NoDup (map fst months) -> (forall name l m, In (name, l) months -> In m l -> (1 <= m <= 12)%Z) ->
  (forall r, In r (f_rows f) -> valid_ts (fst r) /\ whole_second (fst r)) ->
  (forall g, f_cols g = f_cols f -> exists ds, calc g info = Ok ds /\ is_dict ds) ->
  exists own subsets d, months_init (map (fun e => (fst e, Months (snd e))) months) = Ok (own, subsets) /\
    subset_calc template meta calc GTuple subsets f info = Ok d /\
    (forall name l, In (name, l) months -> exists g ds,
       rows_where (fun t => In (dm (t_date t)) l) f g /\ calc g info = Ok ds /\
       forall k, ~ location_or_metadata meta k -> ds_get ds k <> None -> ds_get d (name :: k) = ds_get ds k) /\
    (forall k v, months <> [] -> location_or_metadata meta k ->
       (forall g ds, f_cols g = f_cols f -> calc g info = Ok ds -> ds_get ds k = Some v) -> ds_get d k = Some v).
Proof.
  intros N M V A. eexists _, _. rewrite months_init_ok.
  set (subsets := map (fun e => (fst e, months_distributor (snd e))) months).
  assert (NS : map fst subsets = map fst months) by (unfold subsets; rewrite map_map; reflexivity).
  destruct (tuple_ok template meta calc subsets f info (fun name t => exists l, In (name, l) months /\ In (dm (t_date t)) l))
    as (d & E & H1 & H2 & _); auto.
  - now rewrite NS.
  - intros name D I. apply in_map_iff in I as ([n l] & E & I). cbn [fst snd] in E. injection E as -> <-.
    destruct (months_exact l (map fst (f_rows f))) as (mask & E & H).
    + intros m Im. now apply (M name l).
    + intros t It. apply in_map_iff in It as (r & <- & Ir). now apply V.
    + exists mask. split; [exact E|]. unfold marks in *. clear -H I N.
      induction H as [|t b ts mask H F IH]; constructor; auto. rewrite H. split.
      * intros Il. now exists l.
      * intros (l' & I' & Il). assert (l' = l) as ->; [|exact Il].
        clear -N I I'. induction months as [|[n x] r IH]; [destruct I|]. cbn in N. apply NoDup_cons_iff in N as [N1 N2].
        destruct I as [E|I], I' as [E'|I']; auto.
        -- congruence.
        -- exfalso. apply N1. injection E as -> ->. apply (in_map fst) in I'. exact I'.
        -- exfalso. apply N1. injection E' as -> ->. apply (in_map fst) in I. exact I.
  - exists d. split; [reflexivity|]. split; [exact E|]. split.
    + intros name l I. destruct (H1 name) as (g & ds & (W1 & W2) & C & H); [rewrite NS; apply (in_map fst) in I; exact I|].
      exists g, ds. split; [|auto]. split; [exact W1|]. clear -W2 I N.
      assert (U : forall t, (exists l0, In (name, l0) months /\ In (dm (t_date t)) l0) <-> In (dm (t_date t)) l).
      { intros t. split; [|intros; now exists l]. intros (l' & I' & Il). assert (l' = l) as ->; [|exact Il].
        clear -N I I'. induction months as [|[n x] r IH]; [destruct I|]. cbn in N. apply NoDup_cons_iff in N as [N1 N2].
        destruct I as [E|I], I' as [E'|I']; auto.
        -- congruence.
        -- exfalso. apply N1. injection E as -> ->. apply (in_map fst) in I'. exact I'.
        -- exfalso. apply N1. injection E' as -> ->. apply (in_map fst) in I. exact I. }
      induction W2 as [|a l0 k Ha W IH|a l0 k Ha W IH]; constructor; auto.
      * now apply U.
      * intros C. apply Ha. now apply U.
    + intros k v NE. apply H2. intros C. apply NE. unfold subsets in C. now apply map_eq_nil in C.
Qed.
