(* C103: dictionaries of datasets can be used for several validations, with one exception. *)
From Coq Require Import List String Bool Arith Lia.
From Verif Require Import Base MatchersModel GroupingModel MatchersProofs ResultsProofs StartProofs4 ReuseModel ReuseProofs.
Import ListNotations.
Open Scope string_scope.
Open Scope list_scope.

(* what the user wrote, with the documented default for every field that was left out *)
Definition with_default (v : option dval) (f : string) : option dval :=
  match v with
  | Some v => Some v
  | None => if String.eqb f "use_lut" then Some (DBool false) else if String.eqb f "args" then Some (DArgs [])
            else if String.eqb f "kwargs" then Some (DKwargs []) else if String.eqb f "grids_compatible" then Some (DBool false)
            else if String.eqb f "max_dist" then Some DInf else None
  end.
Lemma with_default_ok v f : with_default v f = match v with Some v => Some v | None => dict_get defaults f end.
Proof.
  destruct v; [reflexivity|]. unfold with_default, defaults. rewrite !dict_get_cons.
  rewrite !(String.eqb_sym f). destruct (String.eqb "use_lut" f), (String.eqb "args" f), (String.eqb "kwargs" f), (String.eqb "grids_compatible" f), (String.eqb "max_dist" f); reflexivity.
Qed.

(* a construction without masking, also one that raises, keeps the datasets and all given fields of the
   dictionary and adds the defaults; other dictionaries are untouched *)
Theorem C103_defaults h r loc : r_data r = GDict loc -> r_mask r = None -> (loc < List.length h)%nat ->
  let h' := fst (v_init h r) in
  map fst (contents h' loc) = map fst (contents h loc) /\
  (forall n s f, dict_get (contents h loc) n = Some s -> exists s', dict_get (contents h' loc) n = Some s' /\ dict_get s' f = with_default (dict_get s f) f) /\
  (forall l, l <> loc -> contents h' l = contents h l).
Proof.
  intros ED EM L. cbn zeta. assert (E : fst (v_init h r) = fst (dm_init h loc (r_sref r) "read")).
  { unfold v_init. rewrite ED, EM. destruct (dm_init h loc (r_sref r) "read") as [h1 [m|e]]; [|reflexivity]. cbn zeta.
    destruct (calcs_ok h1 m (r_calcs r)); reflexivity. }
  rewrite E, dm_heap by exact L. rewrite contents_same by exact L. split; [apply add_defaults_names|]. split.
  - intros n s f G. exists (fill s). rewrite add_defaults_get, G. split; [reflexivity|]. rewrite fill_get, with_default_ok. reflexivity.
  - intros l N. apply contents_other. congruence.
Qed.

(* the dictionaries of a validation and its temporal reference *)
Definition uses (r : request) (v : validation) (loc : nat) (mask : option nat) : Prop :=
  r_data r = GDict loc /\ r_mask r = mask /\ mask <> Some loc.

(* a later construction: it does not mask with dictionary loc, and masks with the dictionary `mask` only for
   the same datasets and the same temporal reference *)
Definition harmless (loc : nat) (mask : option nat) (t : string) (r : request) : Prop :=
  r_mask r <> Some loc /\
  (mask = None \/ r_mask r <> mask \/ (r_data r = GDict loc /\ (r_tref r = Some t \/ (r_tref r = None /\ r_sref r = t)))).

Lemma v_init_dict h r loc h1 v : r_data r = GDict loc -> v_init h r = (h1, Ok v) ->
  exists hd m, dm_init h loc (r_sref r) "read" = (hd, Ok m) /\ calcs_ok hd m (r_calcs r) = true /\ v_dm v = m /\ v_tref v = resolved r m /\
    match r_mask r with
    | None => h1 = hd /\ v_masking v = None
    | Some ml => exists s mm, dict_get (contents hd loc) (resolved r m) = Some s /\ (ml < List.length h)%nat /\ v_masking v = Some mm /\ m_loc mm = ml
    end.
Proof.
  intros ED E. unfold v_init in E. rewrite ED in E. destruct (dm_init h loc (r_sref r) "read") as [hd [m|e]] eqn:E1; [|discriminate].
  cbn zeta in E. fold (resolved r m) in E. destruct (calcs_ok hd m (r_calcs r)) eqn:CO; [|discriminate]. cbn [negb] in E.
  exists hd, m. split; [reflexivity|]. split; [exact CO|]. destruct (r_mask r) as [ml|].
  - destruct (dict_get (contents hd loc) (resolved r m)) as [s|] eqn:G; [|discriminate].
    destruct (dm_init (set_at hd ml (dict_set String.eqb (contents hd ml) "_reference" s)) ml "_reference" "read") as [h3 [mm|e]] eqn:E3; [|discriminate].
    injection E as <- <-. cbn. split; [reflexivity|]. split; [reflexivity|]. exists s, mm. split; [reflexivity|].
    destruct (dm_ok _ _ _ _ _ _ E3) as (L & EL & _ & _). rewrite set_at_length in L.
    assert (HL : List.length hd = List.length h) by (replace hd with (fst (dm_init h loc (r_sref r) "read")) by (rewrite E1; reflexivity); apply dm_length).
    split; [lia|]. split; [reflexivity|exact EL].
  - injection E as <- <-. cbn. repeat split; reflexivity.
Qed.

(* after a masked construction *)
Lemma after_masked h r loc l h1 v : r_data r = GDict loc -> r_mask r = Some l -> loc <> l -> v_init h r = (h1, Ok v) ->
  masked_by h1 loc l (v_tref v) /\ m_loc (v_dm v) = loc /\ exists mm, v_masking v = Some mm /\ m_loc mm = l.
Proof.
  intros ED EM NL E. destruct (v_init_dict h r loc h1 v ED E) as (hd & m & E1 & CO & EV & ET & X). rewrite EM in X.
  destruct X as (s & mm & G & LL & EMM & EML).
  destruct (v_init_mask h r loc l hd m ED EM NL LL E1 CO s G) as (A1 & A2 & A3 & A4 & A5). rewrite E in A1, A2, A3, A4, A5. cbn [fst] in *.
  destruct (dm_ok _ _ _ _ _ _ E1) as (LO & ML & _ & _).
  assert (HF : filled (contents hd loc)) by (replace hd with (fst (dm_init h loc (r_sref r) "read")) by (rewrite E1; reflexivity); apply dm_filled, LO).
  assert (HL : List.length h1 = List.length h) by (replace h1 with (fst (v_init h r)) by (rewrite E; reflexivity); apply v_init_length).
  split; [|split; [rewrite EV; exact ML|exists mm; split; assumption]]. constructor.
  - exact NL.
  - lia.
  - rewrite A1. exact HF.
  - exact A2.
  - rewrite A4. destruct (in_dec string_dec "_reference" (names h l)) as [I|I]; [exact I|apply in_or_app; right; left; reflexivity].
  - rewrite ET. unfold names. rewrite A1. destruct (in_dec string_dec (resolved r m) (map fst (contents hd loc))) as [I|I]; [exact I|]. apply dict_get_none in I. congruence.
  - intros f. rewrite A3. unfold dget. rewrite A1, ET, G. destruct (dict_get s f) eqn:GF; [reflexivity|].
    destruct (dict_get defaults f) eqn:GD; [|reflexivity]. pose proof (HF (resolved r m) s f G) as Y. unfold has in Y. rewrite GD, GF in Y. discriminate (Y eq_refl).
Qed.

Lemma masked_step h loc l t r : masked_by h loc l t -> harmless loc (Some l) t r ->
  masked_by (fst (v_init h r)) loc l t /\ same_view h (fst (v_init h r)) loc /\ same_view h (fst (v_init h r)) l.
Proof.
  intros [NE LL FL FM IR IT FE] [H1 H2].
  destruct (v_init_view h r loc FL H1) as [VL FL'].
  assert (VM : same_view h (fst (v_init h r)) l /\ filled (contents (fst (v_init h r)) l)).
  { destruct H2 as [X|[X|[ED TR]]]; [discriminate|apply v_init_view; assumption|].
    destruct (option_map (Nat.eqb l) (r_mask r)) as [[|]|] eqn:EM.
    - destruct (r_mask r) as [l'|] eqn:EM'; [|discriminate]. cbn in EM. injection EM as EM. apply Nat.eqb_eq in EM. subst l'.
      destruct (dm_init h loc (r_sref r) "read") as [hd [m|e]] eqn:E1.
      2:{ assert (X : fst (v_init h r) = fst (dm_init h loc (r_sref r) "read")) by (unfold v_init; rewrite ED, E1; reflexivity).
          rewrite X. apply dm_view, FM. }
      destruct (calcs_ok hd m (r_calcs r)) eqn:CO.
      2:{ assert (X : fst (v_init h r) = fst (dm_init h loc (r_sref r) "read")) by (unfold v_init; rewrite ED, E1; cbn zeta; rewrite CO; reflexivity).
          rewrite X. apply dm_view, FM. }
      destruct (dm_ok _ _ _ _ _ _ E1) as (LO & _ & MR & _).
      assert (RT : resolved r m = t). { unfold resolved. destruct TR as [-> | [-> TR]]; [reflexivity|]. rewrite MR. exact TR. }
      assert (HD : hd = fst (dm_init h loc (r_sref r) "read")) by (rewrite E1; reflexivity).
      destruct (dm_view h loc (r_sref r) "read" loc FL) as [[VN VD] FD]. rewrite <- HD in VN, VD, FD.
      assert (IT' : In t (names hd loc)) by (rewrite VN; exact IT).
      destruct (in_names_get hd loc t IT') as [s G]. rewrite <- RT in G.
      destruct (v_init_mask h r loc l hd m ED EM' NE LL E1 CO s G) as (A1 & A2 & A3 & A4 & A5).
      split; [|exact A2]. split.
      + rewrite A4. destruct (in_dec string_dec "_reference" (names h l)) as [I|I]; [reflexivity|contradiction].
      + intros n f. destruct (string_dec n "_reference") as [-> | N].
        * rewrite A3, FE. rewrite <- VD. unfold dget. rewrite RT in G. rewrite G. destruct (dict_get s f) eqn:GF; [reflexivity|].
          destruct (dict_get defaults f) eqn:GD; [|reflexivity]. pose proof (FD t s f G) as Y. unfold has in Y. rewrite GD, GF in Y. discriminate (Y eq_refl).
        * rewrite A5 by exact N. unfold dget. destruct (dict_get (contents h l) n) as [s'|] eqn:GN; [|reflexivity].
          destruct (dict_get s' f) eqn:GF; [reflexivity|]. destruct (dict_get defaults f) eqn:GD; [|reflexivity].
          pose proof (FM n s' f GN) as Y. unfold has in Y. rewrite GD, GF in Y. discriminate (Y eq_refl).
    - apply v_init_view; [exact FM|]. intros X. rewrite X in EM. cbn in EM. injection EM as EM. apply Nat.eqb_neq in EM. contradiction.
    - apply v_init_view; [exact FM|]. intros X. rewrite X in EM. discriminate. }
  destruct VM as [VM FM']. split; [|split; assumption]. destruct VL as [N1 D1]. destruct VM as [N2 D2]. constructor.
  - exact NE.
  - rewrite v_init_length. exact LL.
  - exact FL'.
  - exact FM'.
  - rewrite N2. exact IR.
  - rewrite N1. exact IT.
  - intros f. rewrite D1, D2. apply FE.
Qed.

(* what a manager sees: the names and fields of its datasets *)
Definition unchanged (h h' : heap) (m : manager) : Prop :=
  map fst (contents h' (m_loc m)) = map fst (contents h (m_loc m)) /\ forall n f, field h' m n f = field h m n f.

(* constructing further validations does not change what an existing one reads, neither its datasets nor its
   masking datasets *)
Theorem C103_independent h r loc mask h1 v rs : uses r v loc mask -> v_init h r = (h1, Ok v) ->
  Forall (harmless loc mask (v_tref v)) rs ->
  unchanged h1 (v_inits h1 rs) (v_dm v) /\
  match v_masking v with None => mask = None | Some mm => mask <> None /\ unchanged h1 (v_inits h1 rs) mm end.
Proof.
  intros (ED & EM & NM) E HS.
  destruct mask as [l|].
  - assert (NL : loc <> l) by congruence. destruct (after_masked h r loc l h1 v ED EM NL E) as (MB & EL & mm & EMM & EML).
    rewrite EMM. assert (X : masked_by (v_inits h1 rs) loc l (v_tref v) /\ same_view h1 (v_inits h1 rs) loc /\ same_view h1 (v_inits h1 rs) l).
    { clear E EMM. unfold v_inits. revert h1 MB HS. induction rs as [|r' rs IH]; intros h1 MB HS; cbn [fold_left]; [split; [exact MB|split; apply same_view_refl]|].
      inversion HS as [|? ? HR HS']; subst. destruct (masked_step h1 (m_loc (v_dm v)) (m_loc mm) (v_tref v) r' MB HR) as (MB' & V1 & V2).
      destruct (IH (fst (v_init h1 r')) MB' HS') as (A & B & C). split; [exact A|]. split; [exact (same_view_trans _ _ _ _ V1 B)|exact (same_view_trans _ _ _ _ V2 C)]. }
    destruct X as (_ & [V1 W1] & [V2 W2]). subst loc l. split; [split; [exact V1|exact W1]|]. split; [discriminate|]. split; [exact V2|exact W2].
  - destruct (v_init_dict h r loc h1 v ED E) as (hd & m & E1 & CO & EV & ET & X). rewrite EM in X. destruct X as [-> EMM].
    rewrite EMM. split; [|reflexivity]. destruct (dm_ok _ _ _ _ _ _ E1) as (LO & ML & _ & _).
    assert (HF : filled (contents hd loc)) by (replace hd with (fst (dm_init h loc (r_sref r) "read")) by (rewrite E1; reflexivity); apply dm_filled, LO).
    assert (Y : same_view hd (v_inits hd rs) loc).
    { clear E E1 CO. unfold v_inits. revert hd HF. induction rs as [|r' rs IH]; intros hd HF; cbn [fold_left]; [apply same_view_refl|].
      inversion HS as [|? ? HR HS']; subst. destruct (v_init_view hd r' (m_loc (v_dm v)) HF (proj1 HR)) as [V1 F1].
      exact (same_view_trans _ _ _ _ V1 (IH HS' _ F1)). }
    rewrite EV. subst loc. exact Y.
Qed.

(* ---- concrete dictionaries ---- *)
Definition d_data : dct := [("ascat", [("class", DObj 1); ("columns", DStrings ["sm"])]); ("ismn", [("class", DObj 2); ("columns", DStrings ["sm"]); ("kwargs", DKwargs [("fill", 3%nat)])])].
Definition d_mask : dct := [("frozen", [("class", DObj 9); ("columns", DStrings ["ft"])])].
Definition heap0 : heap := [d_data; d_mask].
Definition req (tref : option string) (mask : option nat) : request := Request (GDict 0) "ismn" [(2, 2)%nat] tref mask None.

Example C103_case : exists h1 v, v_init heap0 (req None (Some 1%nat)) = (h1, Ok v) /\
  uses (req None (Some 1%nat)) v 0 (Some 1%nat) /\
  Forall (harmless 0 (Some 1%nat) (v_tref v)) [req (Some "ismn") (Some 1%nat); req (Some "ascat") None; req None (Some 1%nat)] /\
  (exists mm, v_masking v = Some mm /\ field h1 mm "_reference" "class" = Some (DObj 2)) /\ field h1 (v_dm v) "ismn" "kwargs" = Some (DKwargs [("fill", 3%nat)]) /\
  field h1 (v_dm v) "ascat" "kwargs" = Some (DKwargs []).
Proof.
  eexists _, _. split; [vm_compute; reflexivity|]. split; [split; [reflexivity|]; split; [reflexivity|discriminate]|]. split.
  - constructor; [|constructor; [|constructor; [|constructor]]]; (split; [discriminate|right]).
    + right. split; [reflexivity|left; reflexivity].
    + left. discriminate.
    + right. split; [reflexivity|right; split; reflexivity].
  - split; [eexists; split; reflexivity|]. split; reflexivity.
Qed.

(* one masking dictionary for two validations with different temporal references: the first validation then
   masks against the reference of the second *)
Theorem C103_shared_masking_refuted : exists h r r' h1 v mm,
  v_init h r = (h1, Ok v) /\ v_masking v = Some mm /\ r_data r' = r_data r /\ r_mask r' = r_mask r /\
  field h1 mm "_reference" "class" = field h1 (v_dm v) (v_tref v) "class" /\
  field (fst (v_init h1 r')) mm "_reference" "class" <> field (fst (v_init h1 r')) (v_dm v) (v_tref v) "class".
Proof.
  exists heap0, (req (Some "ismn") (Some 1%nat)), (req (Some "ascat") (Some 1%nat)). eexists _, _, _.
  split; [vm_compute; reflexivity|]. split; [reflexivity|]. split; [reflexivity|]. split; [reflexivity|].
  split; [vm_compute; reflexivity|]. vm_compute. discriminate.
Qed.

(* masking is impossible if the datasets are given as a DataManager, although that is documented *)
Theorem C103_manager_refuted : exists h r m ml, r_data r = GManager m /\ r_mask r = Some ml /\ snd (v_init h r) = Err EType /\
  (exists v, snd (v_init h (Request (GDict (m_loc m)) (r_sref r) (r_calcs r) (r_tref r) (r_mask r) (r_scaling_ref r))) = Ok v).
Proof.
  exists heap0, (Request (GManager (Manager 0 "ismn" ["ascat"] [("ascat", "read"); ("ismn", "read")])) "ismn" [(2, 2)%nat] None (Some 1%nat) None). eexists _, _.
  split; [reflexivity|]. split; [reflexivity|]. split; [vm_compute; reflexivity|]. eexists. vm_compute. reflexivity.
Qed.
(* it always fails *)
Theorem C103_manager_never h r m ml : r_data r = GManager m -> r_mask r = Some ml -> exists e, snd (v_init h r) = Err e.
Proof. intros ED EM. unfold v_init. rewrite ED, EM. cbn zeta. destruct (calcs_ok h m (r_calcs r)); cbn; eexists; reflexivity. Qed.

Print Assumptions C103_defaults.
Print Assumptions C103_independent.
Print Assumptions C103_shared_masking_refuted.
Print Assumptions C103_manager_refuted.
