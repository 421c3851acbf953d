(* Result dictionaries and the calculators for two datasets. *)
From Coq Require Import Reals Qreals List Lra Lia.
From Verif Require Import Base BaseProofs GroupingModel RStats RStatsProofs MetricsModel MetricsProofs RollingModel TcolModel ConfintModel
  CalcModel CalcSpec.
Open Scope string_scope.
Open Scope list_scope.

Lemma k_eqb_spec a b : Bool.reflect (a = b) (k_eqb a b).
Proof. unfold k_eqb. destruct (list_eq_dec string_dec a b); constructor; assumption. Qed.
Lemma k_eqb_refl a : k_eqb a a = true.
Proof. destruct (k_eqb_spec a a); congruence. Qed.
Lemma k_eqb_neq a b : a <> b -> k_eqb a b = false.
Proof. intros N. destruct (k_eqb_spec a b); congruence. Qed.

Lemma get_set d k v k' : ds_get (ds_set d k v) k' = if k_eqb k k' then Some v else ds_get d k'.
Proof.
  unfold ds_get, ds_set. induction d as [|[a b] d IH]; cbn.
  - destruct (k_eqb k k'); reflexivity.
  - destruct (k_eqb_spec a k) as [->|N]; cbn.
    + destruct (k_eqb_spec k k'); reflexivity.
    + destruct (k_eqb_spec a k') as [->|N']; cbn.
      * rewrite k_eqb_neq by congruence. reflexivity.
      * exact IH.
Qed.
Lemma get_set_same d k v : ds_get (ds_set d k v) k = Some v.
Proof. rewrite get_set, k_eqb_refl. reflexivity. Qed.
Lemma get_set_other d k v k' : k <> k' -> ds_get (ds_set d k v) k' = ds_get d k'.
Proof. intros N. rewrite get_set, k_eqb_neq by exact N. reflexivity. Qed.

Lemma get_update_out e : forall d k, ~ In k (map fst e) -> ds_get (ds_update d e) k = ds_get d k.
Proof.
  induction e as [|[a v] e IH]; intros d k N; [reflexivity|].
  change (ds_update d ((a, v) :: e)) with (ds_update (ds_set d a v) e).
  rewrite IH by (intros I; apply N; right; exact I). apply get_set_other. intros ->. apply N. left. reflexivity.
Qed.
Lemma get_update_in e : forall d k v, NoDup (map fst e) -> In (k, v) e -> ds_get (ds_update d e) k = Some v.
Proof.
  induction e as [|[a w] e IH]; intros d k v N I; [destruct I|].
  change (ds_update d ((a, w) :: e)) with (ds_update (ds_set d a w) e).
  cbn [map fst] in N. apply NoDup_cons_iff in N as [N1 N2]. destruct I as [E|I].
  - injection E as -> ->. rewrite (get_update_out e) by exact N1. apply get_set_same.
  - apply IH; assumption.
Qed.
Lemma get_update_any e : forall d k, In k (map fst e) -> exists v, In (k, v) e /\ ds_get (ds_update d e) k = Some v.
Proof.
  induction e as [|[a w] e IH]; intros d k I; [destruct I|].
  change (ds_update d ((a, w) :: e)) with (ds_update (ds_set d a w) e).
  destruct (in_dec (list_eq_dec string_dec) k (map fst e)) as [J|J].
  - destruct (IH (ds_set d a w) k J) as (v & V & E). exists v. split; [right; exact V|exact E].
  - cbn in I. destruct I as [<-|I]; [|contradiction]. exists w. split; [left; reflexivity|].
    rewrite (get_update_out e) by exact J. apply get_set_same.
Qed.

(* one number under the key *)
Definition single (d : dataset) (k : key) : Prop := exists c, ds_get d k = Some (Arr [c]).
Lemma set0_ok d k v : single d k -> set0 d k v = Ok (ds_set d k (Arr [v])).
Proof. intros [c E]. unfold set0. rewrite E. reflexivity. Qed.
Lemma single_set d k v k' : single d k' -> single (ds_set d k (Arr [v])) k'.
Proof.
  intros [c E]. unfold single. rewrite get_set. destruct (k_eqb k k'); eauto.
Qed.

Lemma assigns_ok l : forall d, (forall e, In e l -> single d (fst e)) ->
  exists d', assigns d l = Ok d' /\ (forall k, single d k -> single d' k) /\
    (forall k, ~ In k (map fst l) -> ds_get d' k = ds_get d k) /\
    (NoDup (map fst l) -> forall k v, In (k, v) l -> holds d' k v).
Proof.
  induction l as [|[k v] l IH]; intros d H.
  - exists d. split; [reflexivity|]. split; [auto|]. split; [auto|]. intros _ k v [].
  - cbn [assigns]. rewrite set0_ok by exact (H (k, v) (or_introl eq_refl)). cbn [bindR].
    destruct (IH (ds_set d k (Arr [v]))) as (d' & E & SG & OUT & INN).
    { intros e I. apply single_set, H. right. exact I. }
    exists d'. split; [exact E|]. split; [intros k' S0; apply SG, single_set, S0|]. split.
    + intros k' N. rewrite OUT by (intros I; apply N; right; exact I). apply get_set_other. intros ->. apply N. left. reflexivity.
    + intros N k' v' I. cbn [map fst] in N. apply NoDup_cons_iff in N as [N1 N2]. destruct I as [EQ|I].
      * injection EQ as <- <-. unfold holds. rewrite OUT by exact N1. apply get_set_same.
      * apply INN; assumption.
Qed.

(* ---- the base class ---- *)
Lemma str_key a b : [a] = [b] :> key <-> a = b.
Proof. split; congruence. Qed.
Lemma in_keys (s : string) l : In [s] (map (fun x => [x] : key) l) <-> In s l.
Proof.
  rewrite in_map_iff. split.
  - intros (x & E & I). congruence.
  - intros I. exists s. auto.
Qed.

Definition has_base (t : dataset) (meta : metadata) : Prop :=
  (forall s, In s (location_keys ++ ["status"]) -> single t [s]) /\
  (forall m k, meta = Some m -> In k (map fst m) -> single t [k]).

Lemma base_has meta : has_base (base_template meta) meta.
Proof.
  unfold base_template. set (t := [([_], _); _; _; _] : dataset).
  assert (T : forall s, In s (location_keys ++ ["status"]) -> single t [s]).
  { intros s I. cbn in I. destruct I as [<-|[<-|[<-|[<-|[]]]]]; eexists; reflexivity. }
  destruct meta as [m|]; [|split; [exact T|discriminate]].
  assert (U : forall k, In k (map fst m) -> single (ds_update t (map (fun e => ([fst e], Arr [snd e])) m)) [k]).
  { intros k I. destruct (get_update_any (map (fun e => ([fst e], Arr [snd e])) m) t [k]) as (v & V & E).
    - rewrite map_map. cbn. apply in_map_iff in I as (e & <- & I). apply in_map_iff. exists e. auto.
    - apply in_map_iff in V as (e & EQ & _). injection EQ as _ <-. exists (snd e). exact E. }
  split.
  - intros s I. destruct (in_dec string_dec s (map fst m)) as [J|J]; [apply U, J|].
    destruct (T s I) as [c E]. exists c. rewrite get_update_out; [exact E|]. rewrite map_map. cbn.
    intros I'. apply in_map_iff in I' as (e & EQ & I'). apply J. apply in_map_iff. exists e. split; [congruence|exact I'].
  - intros m' k EQ I. injection EQ as <-. apply U, I.
Qed.
Lemma single_update d e k : (forall k v, In (k, v) e -> exists c, v = Arr [c]) -> single d k -> single (ds_update d e) k.
Proof.
  intros H S0. destruct (in_dec (list_eq_dec string_dec) k (map fst e)) as [J|J].
  - destruct (get_update_any e d k J) as (v & V & E). destruct (H k v V) as [c ->]. exists c. exact E.
  - destruct S0 as [c E]. exists c. rewrite get_update_out by exact J. exact E.
Qed.
Lemma single_update_in d e k : (forall k v, In (k, v) e -> exists c, v = Arr [c]) -> In k (map fst e) -> single (ds_update d e) k.
Proof.
  intros H J. destruct (get_update_any e d k J) as (v & V & E). destruct (H k v V) as [c ->]. exists c. exact E.
Qed.
Lemma has_base_update d e meta : (forall k v, In (k, v) e -> exists c, v = Arr [c]) -> has_base d meta -> has_base (ds_update d e) meta.
Proof. intros H [A B]. split; intros; apply single_update; eauto. Qed.
Lemma metric_template_single names k v : In (k, v) (metric_template names) -> exists c, v = Arr [c].
Proof.
  intros I. apply in_map_iff in I as (m & E & _). injection E as _ <-. destruct (String.eqb m "n_obs"); eexists; reflexivity.
Qed.
Lemma metric_template_keys names : map fst (metric_template names) = map (fun x => [x]) names.
Proof. unfold metric_template. rewrite map_map. reflexivity. Qed.

Lemma meta_steps_ok i given fields : i_meta i = Some given -> (forall k, In k fields -> exists v, meta_get given k = Some v) ->
  NoDup fields -> forall d, (forall k, In k fields -> single d [k]) ->
  exists d', meta_steps i d fields = Ok d' /\ (forall k, single d k -> single d' k) /\
    (forall k, (forall s, k = [s] -> ~ In s fields) -> ds_get d' k = ds_get d k) /\
    (forall k v, In k fields -> meta_get given k = Some v -> holds d' [k] v).
Proof.
  intros G. induction fields as [|k fs IH]; intros P N d S0.
  - exists d. split; [reflexivity|]. split; [auto|]. split; [auto|]. intros k v [].
  - apply NoDup_cons_iff in N as [N1 N2]. cbn [meta_steps]. unfold meta_step at 1. rewrite G.
    destruct (P k (or_introl eq_refl)) as [v V]. rewrite V. rewrite set0_ok by (apply S0; left; reflexivity). cbn [bindR].
    destruct (IH (fun k' I => P k' (or_intror I)) N2 (ds_set d [k] (Arr [v]))) as (d' & E & SG & OUT & INN).
    { intros k' I. apply single_set, S0. right. exact I. }
    exists d'. split; [exact E|]. split; [intros k' S1; apply SG, single_set, S1|]. split.
    + intros k' N. rewrite OUT by (intros s EQ I; apply (N s EQ); right; exact I). apply get_set_other.
      intros <-. apply (N k eq_refl). left. reflexivity.
    + intros k' v' I V'. destruct I as [->|I]; [|apply INN; assumption].
      rewrite V in V'. injection V' as <-. unfold holds. rewrite OUT.
      * apply get_set_same.
      * intros s EQ. assert (s = k') by congruence. subst s. exact N1.
Qed.

Lemma meta_calc_ok t meta i used : has_base t meta -> good_meta meta i used ->
  exists d, meta_calc t meta i = Ok d /\ (forall k, single t k -> single d k) /\
    identified d i /\ meta_copied d meta i /\
    (forall k, (forall s, k = [s] -> ~ In s location_keys /\ (forall m, meta = Some m -> ~ In s (map fst m))) -> ds_get d k = ds_get t k).
Proof.
  intros [B1 B2] G. unfold meta_calc.
  destruct (assigns_ok [(["gpi"], RInt (i_gpi i)); (["lon"], RNum (Some (i_lon i))); (["lat"], RNum (Some (i_lat i)))] t)
    as (d & E & SG & OUT & INN).
  { intros e I. cbn in I. destruct I as [<-|[<-|[<-|[]]]]; cbn [fst]; apply B1; cbn; auto. }
  rewrite E. cbn [bindR].
  assert (ND : NoDup (map fst [(["gpi"], RInt (i_gpi i)); (["lon"], RNum (Some (i_lon i))); (["lat"], RNum (Some (i_lat i)))])).
  { cbn. repeat constructor; cbn; intuition discriminate. }
  specialize (INN ND).
  destruct meta as [m|].
  - destruct (G m eq_refl) as (N & DIS & given & EG & PR).
    destruct (meta_steps_ok i given (map fst m) EG PR N d (fun k I => SG _ (B2 m k eq_refl I))) as (d' & E' & SG' & OUT' & INN').
    exists d'. split; [exact E'|]. split; [intros k S0; apply SG', SG, S0|].
    assert (NL : forall s, In s location_keys -> ds_get d' [s] = ds_get d [s]).
    { intros s I. apply OUT'. intros s' EQ I'. assert (s' = s) by congruence. subst s'. apply (DIS s I'). apply in_app_iff. left. exact I. }
    split; [|split].
    + unfold identified, holds. rewrite !NL by (cbn; auto). repeat split; apply INN; cbn; auto.
    + intros m' given' k v EM EG' I V. injection EM as <-. assert (given' = given) by congruence. subst given'. apply INN'; assumption.
    + intros k H. rewrite OUT'.
      * apply OUT. intros I. cbn in I. destruct I as [<-|[<-|[<-|[]]]]; destruct (H _ eq_refl) as [H1 _]; apply H1; cbn; auto.
      * intros s EQ. destruct (H s EQ) as [_ H2]. apply H2. reflexivity.
  - exists d. split; [reflexivity|]. split; [exact SG|]. split; [|split].
    + unfold identified. repeat split; apply INN; cbn; auto.
    + intros m given k v EM. discriminate.
    + intros k H. apply OUT. intros I. cbn in I. destruct I as [<-|[<-|[<-|[]]]]; destruct (H _ eq_refl) as [H1 _]; apply H1; cbn; auto.
Qed.

(* after the base class: what the rest of a calculator needs *)
Definition prepared (d t : dataset) (meta : metadata) (i : gpi_info) : Prop :=
  (forall k, single t k -> single d k) /\ identified d i /\ meta_copied d meta i /\
  (forall k, (forall s, k = [s] -> ~ In s location_keys /\ (forall m, meta = Some m -> ~ In s (map fst m))) -> ds_get d k = ds_get t k).

(* changing keys that are neither location keys nor metadata keeps location and metadata *)
Lemma keep_identified d d' i : (forall s, In s location_keys -> ds_get d' [s] = ds_get d [s]) -> identified d i -> identified d' i.
Proof. intros H (A & B & C). unfold identified, holds in *. rewrite !H by (cbn; auto). auto. Qed.
Lemma keep_meta d d' meta i : (forall m s, meta = Some m -> In s (map fst m) -> ds_get d' [s] = ds_get d [s]) -> meta_copied d meta i -> meta_copied d' meta i.
Proof. intros H M m g k v E1 E2 I V. unfold holds. rewrite (H m k E1 I). exact (M m g k v E1 E2 I V). Qed.

(* a calculator that sets only metric keys `used` and the status keeps everything else *)
Lemma status_set d s : single d ["status"] -> set_status d s = Ok (ds_set d ["status"] (Arr [RInt s])).
Proof. intros H. apply set0_ok, H. Qed.

(* the same after n_obs has been assigned as well *)
Definition prepared_n (d t : dataset) (meta : metadata) (i : gpi_info) : Prop :=
  (forall k, single t k -> single d k) /\ identified d i /\ meta_copied d meta i /\
  (forall k, (forall s, k = [s] -> ~ In s (location_keys ++ ["n_obs"]) /\ (forall m, meta = Some m -> ~ In s (map fst m))) -> ds_get d k = ds_get t k).
Lemma prepared_weaken d t meta i : prepared d t meta i -> prepared_n d t meta i.
Proof.
  intros (A & B & C & D). split; [exact A|]. split; [exact B|]. split; [exact C|]. intros k H. apply D. intros s E.
  destruct (H s E) as [H1 H2]. split; [|exact H2]. intros I. apply H1. apply in_app_iff. left. exact I.
Qed.
Lemma set_n_obs d t meta i used v : prepared d t meta i -> good_meta meta i used -> In "n_obs" used -> single t ["n_obs"] ->
  exists d', set0 d ["n_obs"] v = Ok d' /\ prepared_n d' t meta i /\ holds d' ["n_obs"] v.
Proof.
  intros (SG & ID & MC & OUT) G U S0. rewrite set0_ok by (apply SG, S0). eexists. split; [reflexivity|].
  split; [|apply get_set_same]. split; [intros k S1; apply single_set, SG, S1|]. split; [|split].
  - refine (keep_identified d _ i _ ID). intros s I. apply get_set_other. intros EQ. assert (s = "n_obs") by congruence. subst s. cbn in I. intuition discriminate.
  - refine (keep_meta d _ meta i _ MC). intros m s EM I. apply get_set_other. intros EQ. assert (s = "n_obs") by congruence. subst s.
    destruct (G m EM) as (_ & DIS & _). apply (DIS _ I). apply in_app_iff. right. right. exact U.
  - intros k H. rewrite get_set_other.
    + apply OUT. intros s E. destruct (H s E) as [H1 H2]. split; [|exact H2]. intros I. apply H1. apply in_app_iff. left. exact I.
    + intros <-. destruct (H _ eq_refl) as [H1 _]. apply H1. cbn. auto.
Qed.

Lemma finish_insufficient d t meta i used : prepared_n d t meta i -> has_base t meta -> good_meta meta i used ->
  exists d', set_status d INSUFFICIENT_DATA = Ok d' /\ identified d' i /\ meta_copied d' meta i /\ insufficient d' t meta /\
    (forall k, k <> ["status"] -> ds_get d' k = ds_get d k).
Proof.
  intros (SG & ID & MC & OUT) [B1 B2] G. rewrite status_set by (apply SG, B1; cbn; auto). eexists. split; [reflexivity|].
  assert (NS : forall k, k <> ["status"] -> ds_get (ds_set d ["status"] (Arr [RInt INSUFFICIENT_DATA])) k = ds_get d k).
  { intros k N. apply get_set_other. congruence. }
  split; [|split; [|split; [|exact NS]]].
  - refine (keep_identified d _ i _ ID). intros s I. apply NS. intros EQ. assert (s = "status") by congruence. subst s. cbn in I. intuition discriminate.
  - refine (keep_meta d _ meta i _ MC). intros m s EM I. apply NS. intros EQ. assert (s = "status") by congruence. subst s.
    destruct (G m EM) as (_ & DIS & _). apply (DIS _ I). apply in_app_iff. right. left. reflexivity.
  - split; [apply get_set_same|]. intros k H. rewrite NS.
    + apply OUT. intros s EQ. destruct (H s EQ) as [H1 H2]. split; [|exact H2]. intros I. apply H1.
      cbn in I |- *. intuition auto.
    + intros ->. destruct (H "status" eq_refl) as [H1 _]. apply H1. cbn. auto.
Qed.

(* assigning values to metric keys and then the status *)
Lemma finish_ok d t meta i used l : prepared_n d t meta i -> has_base t meta -> good_meta meta i used ->
  (forall k v, In (k, v) l -> single t k /\ forall s, k = [s] -> In s used) ->
  ~ In "status" used -> (forall s, In s location_keys -> ~ In s used) -> NoDup (map fst l) ->
  exists d0 d', assigns d l = Ok d0 /\ set_status d0 OK = Ok d' /\ identified d' i /\ meta_copied d' meta i /\
    holds d' ["status"] (RInt 0) /\ (forall k v, In (k, v) l -> holds d' k v) /\
    (forall k, single t k -> single d' k) /\
    (forall k, k <> ["status"] -> ~ In k (map fst l) -> ds_get d' k = ds_get d k).
Proof.
  intros (SG & ID & MC & OUT) [B1 B2] G L NS NL ND.
  destruct (assigns_ok l d) as (d0 & E & SG0 & OUT0 & INN0).
  { intros [k v] I. apply SG. apply (L k v I). }
  exists d0, (ds_set d0 ["status"] (Arr [RInt OK])). split; [exact E|].
  split; [apply status_set, SG0, SG, B1; cbn; auto|].
  assert (KL : forall s, In [s] (map fst l) -> In s used).
  { intros s I. apply in_map_iff in I as ([k' v] & EQ & I). cbn in EQ. subst k'. apply (L _ v I). reflexivity. }
  assert (KEEP : forall k, k <> ["status"] -> ~ In k (map fst l) -> ds_get (ds_set d0 ["status"] (Arr [RInt OK])) k = ds_get d k).
  { intros k N1 N2. rewrite get_set_other by congruence. apply OUT0, N2. }
  split; [|split; [|split; [|split; [|split]]]].
  - refine (keep_identified d _ i _ ID). intros s I. apply KEEP.
    + intros EQ. assert (s = "status") by congruence. subst s. cbn in I. intuition discriminate.
    + intros J. exact (NL s I (KL s J)).
  - refine (keep_meta d _ meta i _ MC). intros m s EM I. destruct (G m EM) as (_ & DIS & _). apply KEEP.
    + intros EQ. assert (s = "status") by congruence. subst s. apply (DIS _ I). apply in_app_iff. right. left. reflexivity.
    + intros J. apply (DIS _ I). apply in_app_iff. right. right. exact (KL s J).
  - apply get_set_same.
  - intros k v I. unfold holds. rewrite get_set_other; [apply INN0; assumption|]. intros EQ. apply NS.
    destruct (L k v I) as (_ & U). apply U. congruence.
  - intros k S0. apply single_set, SG0, SG, S0.
  - exact KEEP.
Qed.

Lemma index_of_in l s : In s l -> exists i, index_of l s = Some i /\ (i < List.length l)%nat /\ nth i l "" = s.
Proof.
  induction l as [|x l IH]; [intros []|]. intros I. cbn. destruct (String.eqb_spec x s) as [->|N].
  - exists 0%nat. cbn. split; [reflexivity|]. split; [lia|reflexivity].
  - destruct I as [E|I]; [congruence|]. destruct (IH I) as (i & E & L & NTH). exists (S i). rewrite E. cbn.
    split; [reflexivity|]. split; [lia|exact NTH].
Qed.
Lemma column_ok f s : In s (f_cols f) -> exists c, column f s = Ok c /\ List.length c = nrows f.
Proof.
  intros I. destruct (index_of_in _ _ I) as (i & E & _). unfold column. rewrite E. eexists. split; [reflexivity|].
  unfold col_at. apply map_length.
Qed.

Ltac nodup_strings := repeat (constructor; [cbn; intuition discriminate|]); try constructor.
Ltac nodup_keys := cbn; nodup_strings.
Ltac in_cases I := cbn in I; repeat (destruct I as [I|I]; [|]); try (exfalso; exact I).

Section Two.
Variables sp_pearson sp_spearman sp_kendall : list cell -> list cell -> option R * option R.
Variable min_obs : nat.
Variable meta : metadata.

Lemma names_single base names s : In s names -> single (ds_update base (metric_template names)) [s].
Proof.
  intros I. apply single_update_in; [apply metric_template_single|]. rewrite metric_template_keys. apply (proj2 (in_keys s names)), I.
Qed.
Lemma basic_has_base : has_base (basic_template meta) meta.
Proof. apply has_base_update; [apply metric_template_single|apply base_has]. Qed.
Lemma plus_has_base : has_base (plus_mse_template meta) meta.
Proof. apply has_base_update; [apply metric_template_single|apply basic_has_base]. Qed.

(* BasicMetrics on any template that contains its keys *)
Lemma basic_run template other calc_tau f i used :
  has_base template meta -> good_meta meta i used -> incl basic_names used ->
  ~ In "status" used -> (forall s, In s location_keys -> ~ In s used) ->
  (forall s, In s basic_names -> single template [s]) ->
  In "ref" (f_cols f) -> In other (f_cols f) ->
  exists d, basic_on sp_pearson sp_spearman sp_kendall min_obs meta template other calc_tau f i = Ok d /\
    identified d i /\ meta_copied d meta i /\ (forall k, single template k -> single d k) /\
    ((nrows f < min_obs)%nat -> insufficient d template meta /\ ds_get d ["n_obs"] = ds_get template ["n_obs"]) /\
    ((min_obs <= nrows f)%nat -> exists x y, column f "ref" = Ok x /\ column f other = Ok y /\
       succeeded d (nrows f) /\
       (forall k v, In (k, v) (basic_values sp_pearson sp_spearman sp_kendall calc_tau f x y) -> holds d k v) /\
       (forall k, (forall s, k = [s] -> ~ In s (location_keys ++ ["status"] ++ basic_names) /\
                     (forall m, meta = Some m -> ~ In s (map fst m))) -> ds_get d k = ds_get template k)).
Proof.
  intros HB G INC NS NL ST CR CO. unfold basic_on.
  destruct (meta_calc_ok template meta i used HB G) as (d & E & PREP). rewrite E. cbn [bindR].
  destruct (Nat.ltb_spec (nrows f) min_obs) as [L|L].
  - destruct (finish_insufficient d template meta i used (prepared_weaken _ _ _ _ PREP) HB G) as (d' & E' & ID & MC & INS & KEEP).
    exists d'. split; [exact E'|]. split; [exact ID|]. split; [exact MC|]. split.
    { intros k S0. destruct (k_eqb_spec k ["status"]) as [->|N].
      - destruct INS as [H _]. eexists. exact H.
      - destruct PREP as (SG & _). destruct (SG k S0) as [c C]. exists c. rewrite KEEP by exact N. exact C. }
    split; [intros _|lia]. split; [exact INS|]. rewrite KEEP by discriminate.
    destruct PREP as (_ & _ & _ & OUT). apply OUT. intros s EQ. assert (s = "n_obs") by congruence. subst s.
    split; [cbn; intuition discriminate|]. intros m EM I. destruct (G m EM) as (_ & DIS & _). apply (DIS _ I).
    apply in_app_iff. right. right. apply INC. cbn. auto.
  - destruct (column_ok f "ref" CR) as (x & EX & _). destruct (column_ok f other CO) as (y & EY & _).
    rewrite EX, EY. cbn [bindR]. set (l := basic_values _ _ _ _ _ _ _).
    assert (LK : forall k v, In (k, v) l -> exists s, k = [s] /\ In s basic_names).
    { intros k v I. unfold l, basic_values in I. apply in_app_iff in I as [I|I]; [|destruct calc_tau]; cbn in I;
        repeat (destruct I as [I|I]; [injection I as <- _; eexists; split; [reflexivity|cbn; auto 12]|]); destruct I. }
    assert (ND : NoDup (map fst l)).
    { unfold l, basic_values. destruct calc_tau; cbn; nodup_strings. }
    destruct (finish_ok d template meta i used l (prepared_weaken _ _ _ _ PREP) HB G) as (d0 & d' & E0 & E1 & ID & MC & SS & VAL & SG & KEEP); try assumption.
    { intros k v I. destruct (LK k v I) as (s & -> & U). split; [apply ST, U|]. intros s' EQ. assert (s' = s) by congruence. subst s'. apply INC, U. }
    exists d'. rewrite E0. cbn [bindR]. split; [exact E1|]. split; [exact ID|]. split; [exact MC|]. split; [exact SG|].
    split; [lia|]. intros _. exists x, y. split; [reflexivity|]. split; [reflexivity|].
    split; [split; [exact SS|apply VAL; unfold l, basic_values; cbn; auto 10]|]. split; [exact VAL|].
    intros k H. rewrite KEEP.
    + destruct PREP as (_ & _ & _ & OUT). apply OUT. intros s EQ. destruct (H s EQ) as [H1 H2]. split; [|exact H2].
      intros I. apply H1. apply in_app_iff. left. exact I.
    + intros ->. destruct (H _ eq_refl) as [H1 _]. apply H1. cbn. auto.
    + intros I. apply in_map_iff in I as ([k' v] & EQ & I). cbn in EQ. subst k'. destruct (LK k v I) as (s & -> & U).
      destruct (H s eq_refl) as [H1 _]. apply H1. apply in_app_iff. right. right. exact U.
Qed.

Lemma basic_ok other calc_tau f i :
  good_meta meta i basic_names -> In "ref" (f_cols f) -> In other (f_cols f) ->
  exists d, basic_calc sp_pearson sp_spearman sp_kendall min_obs meta other calc_tau f i = Ok d /\
    identified d i /\ meta_copied d meta i /\
    ((nrows f < min_obs)%nat -> insufficient d (basic_template meta) meta) /\
    ((min_obs <= nrows f)%nat -> exists x y, column f "ref" = Ok x /\ column f other = Ok y /\ succeeded d (nrows f) /\
       (forall k v, In (k, v) (basic_values sp_pearson sp_spearman sp_kendall calc_tau f x y) -> holds d k v)).
Proof.
  intros G CR CO. destruct (basic_run (basic_template meta) other calc_tau f i basic_names) as (d & E & ID & MC & _ & INS & SUC); try assumption.
  - apply basic_has_base.
  - apply incl_refl.
  - cbn. intuition discriminate.
  - intros s I J. cbn in I, J. intuition (subst; discriminate).
  - intros s I. apply names_single, I.
  - exists d. split; [exact E|]. split; [exact ID|]. split; [exact MC|]. split; [intros L; apply INS, L|].
    intros L. destruct (SUC L) as (x & y & EX & EY & S0 & V & _). exists x, y. auto.
Qed.

Lemma plus_mse_ok other f i :
  good_meta meta i (basic_names ++ mse_names) -> In "ref" (f_cols f) -> In other (f_cols f) ->
  exists d, plus_mse_calc sp_pearson sp_spearman sp_kendall min_obs meta other f i = Ok d /\
    identified d i /\ meta_copied d meta i /\
    ((nrows f < min_obs)%nat -> insufficient d (plus_mse_template meta) meta) /\
    ((min_obs <= nrows f)%nat -> exists x y, column f "ref" = Ok x /\ column f other = Ok y /\ succeeded d (nrows f) /\
       (forall k v, In (k, v) (basic_values sp_pearson sp_spearman sp_kendall false f x y ++ mse_values x y) -> holds d k v)).
Proof.
  intros G CR CO. unfold plus_mse_calc.
  assert (NST : ~ In "status" (basic_names ++ mse_names)) by (cbn; intuition discriminate).
  assert (NLO : forall s, In s location_keys -> ~ In s (basic_names ++ mse_names)).
  { intros s I J. cbn in I, J. intuition (subst; discriminate). }
  assert (STB : forall s, In s basic_names -> single (plus_mse_template meta) [s]).
  { intros s I. apply single_update; [apply metric_template_single|]. apply names_single, I. }
  destruct (basic_run (plus_mse_template meta) other false f i (basic_names ++ mse_names)) as (d & E & ID & MC & SG & INS & SUC);
    try assumption; [apply plus_has_base|apply incl_appl, incl_refl|].
  rewrite E. cbn [bindR].
  assert (SGS : single d ["status"]) by (apply SG; apply plus_has_base; cbn; auto).
  rewrite status_set by exact SGS. cbn [bindR]. set (d1 := ds_set d ["status"] (Arr [RInt UNCAUGHT])).
  assert (KEEP1 : forall k, k <> ["status"] -> ds_get d1 k = ds_get d k) by (intros k N; apply get_set_other; congruence).
  assert (SG1 : forall k, single (plus_mse_template meta) k -> single d1 k) by (intros k S0; apply single_set, SG, S0).
  assert (ID1 : identified d1 i).
  { refine (keep_identified d _ i _ ID). intros s I. apply KEEP1. intros EQ. assert (s = "status") by congruence. subst s. cbn in I. intuition discriminate. }
  assert (MC1 : meta_copied d1 meta i).
  { refine (keep_meta d _ meta i _ MC). intros m s EM I. apply KEEP1. intros EQ. assert (s = "status") by congruence. subst s.
    destruct (G m EM) as (_ & DIS & _). apply (DIS _ I). cbn. auto. }
  destruct (Nat.ltb_spec (nrows f) min_obs) as [L|L].
  - rewrite status_set by (apply single_set, SGS). eexists. split; [reflexivity|].
    assert (KEEP2 : forall k, k <> ["status"] -> ds_get (ds_set d1 ["status"] (Arr [RInt INSUFFICIENT_DATA])) k = ds_get d k).
    { intros k N. rewrite get_set_other by congruence. apply KEEP1, N. }
    split; [|split; [|split; [intros _|lia]]].
    + refine (keep_identified d _ i _ ID). intros s I. apply KEEP2. intros EQ. assert (s = "status") by congruence. subst s. cbn in I. intuition discriminate.
    + refine (keep_meta d _ meta i _ MC). intros m s EM I. apply KEEP2. intros EQ. assert (s = "status") by congruence. subst s.
      destruct (G m EM) as (_ & DIS & _). apply (DIS _ I). cbn. auto.
    + destruct (INS L) as [[_ H] _]. split; [apply get_set_same|]. intros k HK. rewrite KEEP2; [apply H, HK|].
      intros ->. destruct (HK _ eq_refl) as [H1 _]. apply H1. cbn. auto.
  - destruct (SUC L) as (x & y & EX & EY & SS & VAL & OUTB). rewrite EX, EY. cbn [bindR].
    destruct (assigns_ok (mse_values x y) d1) as (d2 & E2 & SG2 & OUT2 & INN2).
    { intros e I. apply SG1. unfold mse_values in I. cbn in I.
      repeat (destruct I as [<-|I]; [apply names_single; cbn; auto|]). destruct I. }
    rewrite E2. cbn [bindR]. rewrite status_set by (apply SG2, single_set, SGS). eexists. split; [reflexivity|].
    assert (NDM : NoDup (map fst (mse_values x y))) by (cbn; nodup_strings).
    assert (KM : forall k, In k (map fst (mse_values x y)) -> exists s, k = [s] /\ In s mse_names).
    { intros k I. cbn in I. repeat (destruct I as [<-|I]; [eexists; split; [reflexivity|cbn; auto]|]). destruct I. }
    assert (KEEP2 : forall k, k <> ["status"] -> ~ In k (map fst (mse_values x y)) ->
      ds_get (ds_set d2 ["status"] (Arr [RInt OK])) k = ds_get d k).
    { intros k N1 N2. rewrite get_set_other by congruence. rewrite OUT2 by exact N2. apply KEEP1, N1. }
    split; [|split; [|split; [lia|intros _]]].
    + refine (keep_identified d _ i _ ID). intros s I. apply KEEP2.
      * intros EQ. assert (s = "status") by congruence. subst s. cbn in I. intuition discriminate.
      * intros J. destruct (KM _ J) as (s' & EQ & U). assert (s' = s) by congruence. subst s'. apply (NLO s I). apply in_app_iff. auto.
    + refine (keep_meta d _ meta i _ MC). intros m s EM I. destruct (G m EM) as (_ & DIS & _). apply KEEP2.
      * intros EQ. assert (s = "status") by congruence. subst s. apply (DIS _ I). cbn. auto.
      * intros J. destruct (KM _ J) as (s' & EQ & U). assert (s' = s) by congruence. subst s'. apply (DIS s I).
        apply in_app_iff. right. right. assert (U' : In s (basic_names ++ mse_names)) by (apply in_app_iff; right; exact U). exact U'.
    + exists x, y. split; [reflexivity|]. split; [reflexivity|].
      assert (VAL2 : forall k v, In (k, v) (basic_values sp_pearson sp_spearman sp_kendall false f x y) ->
        holds (ds_set d2 ["status"] (Arr [RInt OK])) k v).
      { intros k v I. unfold holds. rewrite KEEP2; [apply VAL, I| |].
        - intros ->. unfold basic_values in I. cbn in I. intuition discriminate.
        - intros J. destruct (KM _ J) as (s & -> & U). unfold basic_values in I. cbn in I, U. intuition (subst; discriminate). }
      split; [split; [apply get_set_same|apply VAL2; unfold basic_values; cbn; auto 10]|].
      intros k v I. apply in_app_iff in I as [I|I]; [apply VAL2, I|].
      unfold holds. rewrite get_set_other; [apply (INN2 NDM k v I)|].
      intros <-. cbn in I. intuition discriminate.
Qed.
End Two.
