(* BasicMetrics under the months adapter: the hypotheses of C60 hold for a real calculator. *)
From Coq Require Import Reals List Lia.
From Verif Require Import Base BaseProofs GroupingModel GroupingSpec CalcModel CalcSpec CalcProofs SubsetModel SubsetSpec SubsetProofs.
Open Scope list_scope.

Lemma dict_set_keys' d k v : map fst (ds_set d k v) = map fst d \/ (map fst (ds_set d k v) = map fst d ++ [k] /\ ~ In k (map fst d)).
Proof.
  induction d as [|[k0 v0] d IH]; cbn; [right; auto|]. destruct (k_eqb_spec k0 k) as [->|N]; cbn; [now left|].
  destruct IH as [E|[E NI]]; [left; now f_equal|]. right. split; [now f_equal|]. intros [C|C]; auto.
Qed.
Lemma is_dict_set d k v : is_dict d -> k <> [] -> is_dict (ds_set d k v).
Proof.
  intros [N E] K. unfold is_dict. destruct (dict_set_keys' d k v) as [->|[-> NI]]; [now split|]. split.
  - clear -N NI. induction (map fst d) as [|a l IH]; cbn; [repeat constructor; auto|].
    apply NoDup_cons_iff in N as [N1 N2]. constructor.
    + rewrite in_app_iff. cbn. intros [C|[C|[]]]; [auto|]. apply NI. now left.
    + apply IH; auto. intros C. apply NI. now right.
  - rewrite in_app_iff. intros [C|[C|[]]]; [auto|congruence].
Qed.
Lemma is_dict_update e : forall d, is_dict d -> ~ In [] (map fst e) -> is_dict (ds_update d e).
Proof.
  induction e as [|[k v] e IH]; intros d D N; [exact D|]. change (ds_update d ((k, v) :: e)) with (ds_update (ds_set d k v) e).
  apply IH; [|intros C; apply N; now right]. apply is_dict_set; auto. intros ->. apply N. now left.
Qed.
Lemma set0_dict d k v d' : set0 d k v = Ok d' -> k <> [] -> is_dict d -> is_dict d'.
Proof.
  unfold set0. destruct (ds_get d k) as [[[|c r]| |]|]; try discriminate. intros E K D. injection E as <-. now apply is_dict_set.
Qed.
Lemma assigns_dict l : forall d d', assigns d l = Ok d' -> ~ In [] (map fst l) -> is_dict d -> is_dict d'.
Proof.
  induction l as [|[k v] l IH]; intros d d' E N D; cbn in E; [injection E as <-; exact D|].
  destruct (set0 d k v) as [d1|] eqn:S0; [|discriminate]. cbn in E. apply (IH d1 d' E).
  - intros C. apply N. now right.
  - apply (set0_dict d k v d1 S0); auto. intros ->. apply N. now left.
Qed.
Lemma meta_steps_dict i fields : forall d d', meta_steps i d fields = Ok d' -> is_dict d -> is_dict d'.
Proof.
  induction fields as [|k fields IH]; intros d d' E D; cbn in E; [injection E as <-; exact D|].
  destruct (meta_step i d k) as [d1|] eqn:S0; [|discriminate]. cbn in E. apply (IH d1 d' E).
  unfold meta_step in S0. destruct (i_meta i) as [m|]; [|discriminate]. destruct (meta_get m k) as [v|]; [|discriminate].
  apply (set0_dict d [k] v d1 S0); auto. discriminate.
Qed.
Lemma meta_calc_dict t meta i d : meta_calc t meta i = Ok d -> is_dict t -> is_dict d.
Proof.
  unfold meta_calc. intros E T. destruct (assigns t _) as [d1|] eqn:A; [|discriminate]. cbn [bindR] in E.
  assert (D1 : is_dict d1). { apply (assigns_dict _ t d1 A); auto. cbn. intuition discriminate. }
  destruct meta as [m|]; [|injection E as <-; exact D1]. now apply (meta_steps_dict i (map fst m) d1 d).
Qed.
Lemma base_dict meta : is_dict (base_template meta).
Proof.
  unfold base_template. destruct meta as [m|].
  - apply is_dict_update.
    + split; cbn; [repeat constructor; cbn; intuition discriminate|intuition discriminate].
    + rewrite map_map. intros C. apply in_map_iff in C as (e & E & _). discriminate.
  - split; cbn; [repeat constructor; cbn; intuition discriminate|intuition discriminate].
Qed.

Section B.
Variables sp_pearson sp_spearman sp_kendall : list cell -> list cell -> option R * option R.
Variable min_obs : nat.
Variable meta : metadata.
Notation calc := (basic_calc sp_pearson sp_spearman sp_kendall min_obs meta).

Lemma basic_dict other tau f i d : calc other tau f i = Ok d -> is_dict d.
Proof.
  unfold basic_calc, basic_on. intros E. destruct (meta_calc _ meta i) as [d0|] eqn:M; [|discriminate].
  assert (D0 : is_dict d0).
  { apply (meta_calc_dict _ meta i d0 M). unfold basic_template. apply is_dict_update; [apply base_dict|].
    rewrite metric_template_keys. intros C. apply in_map_iff in C as (e & C & _). discriminate. }
  cbn [bindR] in E. destruct (Nat.ltb (nrows f) min_obs).
  - apply (set0_dict d0 _ _ d E); auto. discriminate.
  - destruct (column f "ref") as [x|]; [|discriminate]. destruct (column f other) as [y|]; [|discriminate].
    cbn [bindR] in E. destruct (assigns d0 _) as [d1|] eqn:A; [|discriminate]. cbn [bindR] in E.
    apply (set0_dict d1 _ _ d E); [discriminate|]. apply (assigns_dict _ d0 d1 A); auto.
    unfold basic_values. cbn. destruct tau; cbn; intuition discriminate.
Qed.

Lemma location_outside i s : good_meta meta i basic_names -> In s ("status"%string :: basic_names) -> ~ location_or_metadata meta [s].
Proof.
  intros G I (x & E & H). injection E as <-. destruct H as [H|(m & Em & H)].
  - cbn in I, H. intuition (subst; discriminate).
  - destruct (G m Em) as (_ & N & _). apply (N s H). rewrite !in_app_iff. cbn in I |- *. tauto.
Qed.
End B.

(* every month subset gets the status and the number of observations of its own rows *)
Theorem C60_months_basic sp_pearson sp_spearman sp_kendall min_obs meta template other calc_tau (months : list (string * list Z)) f i :
  good_meta meta i basic_names -> In "ref"%string (f_cols f) -> In other (f_cols f) ->
  NoDup (map fst months) -> (forall name l m, In (name, l) months -> In m l -> (1 <= m <= 12)%Z) ->
  (forall r, In r (f_rows f) -> valid_ts (fst r) /\ whole_second (fst r)) -> months <> [] ->
  exists own subsets d, months_init (map (fun e => (fst e, Months (snd e))) months) = Ok (own, subsets) /\
    subset_calc template meta (basic_calc sp_pearson sp_spearman sp_kendall min_obs meta other calc_tau) GTuple subsets f i = Ok d /\
    identified d i /\
    forall name l, In (name, l) months -> exists g, rows_where (fun t => In (dm (t_date t)) l) f g /\
      ((nrows g < min_obs)%nat -> holds d [name; "status"%string] (RInt 1) /\ holds d [name; "R"%string] (RNum None)) /\
      ((min_obs <= nrows g)%nat -> exists x y, column g "ref" = Ok x /\ column g other = Ok y /\
         holds d [name; "status"%string] (RInt 0) /\ holds d [name; "n_obs"%string] (RInt (Z.of_nat (nrows g))) /\
         forall k v, In (k, v) (basic_values sp_pearson sp_spearman sp_kendall calc_tau g x y) -> holds d (name :: k) v).
Proof.
  intros G Ir Io N M V NE.
  pose proof (fun g => basic_ok sp_pearson sp_spearman sp_kendall min_obs meta other calc_tau g i) as OKs.
  destruct (months_ok template meta (basic_calc sp_pearson sp_spearman sp_kendall min_obs meta other calc_tau) months f i N M V)
    as (own & subsets & d & E1 & E2 & H1 & H2).
  { intros g C. destruct (OKs g G) as (ds & E & _); [now rewrite C|now rewrite C|]. exists ds. split; [exact E|].
    exact (basic_dict _ _ _ _ _ _ _ _ _ _ E). }
  exists own, subsets, d. split; [exact E1|]. split; [exact E2|]. split.
  - assert (L : forall s, In s ["gpi"; "lon"; "lat"]%string -> location_or_metadata meta [s]) by (intros s I; exists s; auto).
    unfold identified, holds. split; [|split]; apply H2; auto; try (apply L; cbn; tauto);
      intros g ds C E; destruct (OKs g G) as (ds' & E' & (I1 & I2 & I3) & _); [now rewrite C|now rewrite C| |now rewrite C|now rewrite C| |now rewrite C|now rewrite C|];
      assert (ds' = ds) as <- by congruence; auto.
  - intros name l I. destruct (H1 name l I) as (g & ds & W & E & H). exists g. split; [exact W|].
    destruct (OKs g G) as (ds' & E' & ID & MC & H3 & H4); [now rewrite (proj1 W)|now rewrite (proj1 W)|].
    assert (ds' = ds) as -> by congruence.
    assert (K : forall s v, In s ("status"%string :: basic_names) -> holds ds [s] v -> holds d [name; s] v).
    { intros s v Is Hs. unfold holds in *. rewrite H; auto; [now apply (location_outside meta i)|congruence]. }
    split.
    + intros Lt. destruct (H3 Lt) as [S1 S2]. split; [apply K; auto; now left|].
      apply K; [cbn; tauto|]. unfold holds. rewrite S2.
      * assert (NI : forall m, meta = Some m -> ~ In "R"%string (map fst m)).
        { intros m Em C. destruct (G m Em) as (_ & Nm & _). apply (Nm _ C). rewrite !in_app_iff. cbn. tauto. }
        unfold basic_template. apply get_update_in.
        -- rewrite metric_template_keys. cbn. repeat constructor; cbn; intuition discriminate.
        -- unfold metric_template. cbn. tauto.
      * intros s Es. injection Es as <-. split; [cbn; intuition discriminate|].
        intros m Em C. destruct (G m Em) as (_ & Nm & _). apply (Nm _ C). rewrite !in_app_iff. cbn. tauto.
    + intros Le. destruct (H4 Le) as (x & y & X & Y & (S1 & S2) & S3). exists x, y. split; [exact X|]. split; [exact Y|].
      split; [apply K; auto; now left|]. split; [apply K; auto; cbn; tauto|].
      intros k v Ik. pose proof (S3 k v Ik) as Hk.
      assert (exists s, k = [s] /\ In s basic_names) as (s & -> & Is).
      { clear -Ik. unfold basic_values in Ik. apply in_app_or in Ik.
        assert (Z : In k (map fst (basic_values sp_pearson sp_spearman sp_kendall true g x y))).
        { unfold basic_values. rewrite map_app, in_app_iff. destruct Ik as [Ik|Ik]; [left; apply (in_map fst) in Ik; exact Ik|].
          right. destruct calc_tau; [apply (in_map fst) in Ik; exact Ik|destruct Ik]. }
        cbn in Z. repeat destruct Z as [<-|Z]; try contradiction; eexists; (split; [reflexivity|cbn; tauto]). }
      apply K; auto. now right.
Qed.
Print Assumptions C60_months_basic.
