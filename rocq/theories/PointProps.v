(* C90: the entry of a grid point does not depend on the other grid points of the run. *)
From Verif Require Import ValidationSpec BaseProofs SortProofs ValidationProofs ValidationProofs2 MaskProofs ValidationProps.
From Verif Require Import TemporalModel TemporalSpec.

Section Points.
Context {G V : Type}.
Variable code : Z -> V.
Notation config := (@config G V).

(* two configurations that differ at most in the data of other grid points than g *)
Definition same_at (c c' : config) (g : G) : Prop :=
  c_ds c = c_ds c' /\ c_ref c = c_ref c' /\ c_tref c = c_tref c' /\ c_sref c = c_sref c' /\ c_match c = c_match c' /\
  c_scale c = c_scale c' /\ c_calcs c = c_calcs c' /\ c_get c g = c_get c' g /\
  match c_mask c, c_mask c' with
  | None, None => True
  | Some (mds, gm), Some (mds', gm') => mds = mds' /\ gm g = gm' g
  | _, _ => False
  end.

Lemma metrics_unique (c : config) ig rn oref g key m m' : wf_config c -> reference_left c g ->
  gpi_metrics code c ig rn oref g key m -> gpi_metrics code c ig rn oref g key m' -> m = m'.
Proof.
  intros W RL (r & E & I) (r' & E' & I'). assert (r' = r) by congruence. subst r'.
  destruct (gpi_ok code c ig rn oref g r W RL E) as (K & _).
  assert (N : NoDup (map fst r)) by (rewrite K; exact (key_list_nodup c oref (c_calcs c) (proj1 W) (proj2 W))).
  assert (X := unique_value r key [m] [m'] N I I'). congruence.
Qed.

Definition entry_of (c : config) ig rn oref (key : list dscol) (k : field) (g : G) : V :=
  match validate_gpi code c ig rn oref g with
  | VOk r => match find (fun e => combo_eqb (fst e) key) r with
             | Some (_, m :: _) => match field_get m k with Ok v => v | Err _ => code 0 end
             | _ => code 0
             end
  | VErr _ => code 0
  end.
Lemma entry_value (c : config) ig rn oref g key m k v : wf_config c -> reference_left c g ->
  gpi_metrics code c ig rn oref g key m -> field_get m k = Ok v -> entry_of c ig rn oref key k g = v.
Proof.
  intros W RL (r & E & I) F. unfold entry_of. rewrite E.
  destruct (gpi_ok code c ig rn oref g r W RL E) as (K & _).
  assert (N : NoDup (map fst r)) by (rewrite K; exact (key_list_nodup c oref (c_calcs c) (proj1 W) (proj2 W))).
  destruct (find (fun e => combo_eqb (fst e) key) r) as [[k' ms]|] eqn:EF.
  - apply find_some in EF as [I' B]. cbn [fst] in B. apply combo_eqb_spec in B. subst k'. rewrite (unique_value r key ms [m] N I' I), F. reflexivity.
  - exfalso. assert (X := find_none _ _ EF _ I). cbn [fst] in X. assert (combo_eqb key key = true) by (apply combo_eqb_spec; reflexivity). congruence.
Qed.
Lemma attempt_same (c c' : config) ig rn oref g : same_at c c' g -> validate_gpi code c ig rn oref g = validate_gpi code c' ig rn oref g.
Proof.
  destruct c as [ds ref tref sref get mt sc calcs mask], c' as [ds' ref' tref' sref' get' mt' sc' calcs' mask'].
  unfold same_at. cbn [c_ds c_ref c_tref c_sref c_get c_match c_scale c_calcs c_mask]. intros (-> & -> & -> & -> & -> & -> & -> & EG & EM).
  unfold validate_gpi, attempt. cbn [c_get]. rewrite EG.
  assert (P : forall dfs, perform_validation code (mkCfg ds' ref' tref' sref' get mt' sc' calcs' mask) ig rn oref g dfs =
                          perform_validation code (mkCfg ds' ref' tref' sref' get' mt' sc' calcs' mask') ig rn oref g dfs).
  { intros dfs. unfold perform_validation. cbn [c_ds c_ref c_tref c_sref c_get c_match c_scale c_calcs c_mask].
    destruct mask as [[mds gm]|], mask' as [[mds' gm']|]; try contradiction; [|reflexivity]. destruct EM as (<- & EM).
    destruct (dict_get dfs tref') as [rf|]; [|reflexivity]. unfold mask_dataset, match_masking. cbn [c_match]. rewrite EM. reflexivity. }
  destruct (raise_as DATA_MANAGER_FAILED (get' g)) as [dfs|x]; cbn [bindV].
  - destruct (Nat.eqb (List.length dfs) 0); [reflexivity|]. rewrite P. reflexivity.
  - reflexivity.
Qed.

(* Every array of every run has, at the place of a grid point, a value that depends on the combination,
   the field and the data of this grid point only. *)
Theorem C90_own_entry (c : config) F rn oref :
  wf_config c -> (forall n k f, In ((n, k), f) (c_calcs c) -> regular (F k) f) ->
  exists entry : list dscol -> field -> G -> V,
    (forall gpis, gpis <> [] -> (forall g, In g gpis -> reference_left c g) ->
      exists out, calc code c true rn oref gpis = VOk out /\ NoDup (map fst out) /\
        (forall key, In key (map fst out) <-> exists n k f, reported c oref n k f key) /\
        forall key fields, In (key, fields) out -> fields = map (fun k => (k, map (entry key k) gpis)) (F (List.length key))) /\
    (* another configuration with the same data at some of the points *)
    forall c' gpis out, wf_config c' -> gpis <> [] -> (forall g, In g gpis -> reference_left c' g) ->
      calc code c' true rn oref gpis = VOk out ->
      forall key fields k arr i g v, In (key, fields) out -> In (k, arr) fields ->
        nth_error gpis i = Some g -> nth_error arr i = Some v -> same_at c c' g -> v = entry key k g.
Proof.
  intros W REG. exists (entry_of c true rn oref). split.
  - intros gpis NE RL. destruct (calc_total code c F rn oref gpis W REG) as (out & E & SH). exists out. split; [exact E|].
    destruct (calc_ok code c true rn oref gpis out W RL NE E) as (ND & KEYS & ARR). split; [exact ND|]. split; [exact KEYS|].
    intros key fields I. rewrite <- (SH key fields I). specialize (ARR key fields). clear SH KEYS ND.
    assert (forall k arr, In (k, arr) fields -> arr = map (entry_of c true rn oref key k) gpis) as A.
    { intros k arr Ik. specialize (ARR k arr I Ik). clear -ARR W RL. induction ARR as [|g v gs vs (m & GM & FG) A IH]; [reflexivity|]. cbn [map].
      rewrite (entry_value c true rn oref g key m k v W (RL g (or_introl eq_refl)) GM FG). f_equal. apply IH. intros g' Hg'. apply RL. right. exact Hg'. }
    clear -A. induction fields as [|[k arr] fields IH]; [reflexivity|]. cbn [map fst]. rewrite <- (A k arr (or_introl eq_refl)). f_equal. apply IH.
    intros k' arr' H. apply A. right. exact H.
  - intros c' gpis out W' NE RL E key fields k arr i g v I Ik Eg Ev SA.
    destruct (calc_ok code c' true rn oref gpis out W' RL NE E) as (_ & _ & ARR). specialize (ARR key fields k arr I Ik).
    assert (exists m, gpi_metrics code c' true rn oref g key m /\ field_get m k = Ok v) as (m & GM & FG).
    { clear -ARR Eg Ev. revert i Eg Ev. induction ARR as [|g0 v0 gs vs P A IH]; intros [|i] Eg Ev; cbn in *; try discriminate.
      - injection Eg as ->. injection Ev as ->. exact P.
      - exact (IH i Eg Ev). }
    assert (EE : entry_of c true rn oref key k g = entry_of c' true rn oref key k g) by (unfold entry_of; rewrite (attempt_same c c' true rn oref g SA); reflexivity).
    rewrite EE. symmetry. apply (entry_value c' true rn oref g key m k v W'); [|exact GM|exact FG].
    apply RL. apply nth_error_In in Eg. exact Eg.
Qed.

(* a run over two lists of points is the two runs, one after the other *)
Theorem C90_split (c : config) F rn oref gpis1 gpis2 out1 out2 out :
  wf_config c -> (forall n k f, In ((n, k), f) (c_calcs c) -> regular (F k) f) ->
  gpis1 <> [] -> gpis2 <> [] -> (forall g, In g (gpis1 ++ gpis2) -> reference_left c g) ->
  calc code c true rn oref gpis1 = VOk out1 -> calc code c true rn oref gpis2 = VOk out2 -> calc code c true rn oref (gpis1 ++ gpis2) = VOk out ->
  forall key fields, In (key, fields) out <-> exists f1 f2, In (key, f1) out1 /\ In (key, f2) out2 /\ map fst f1 = map fst f2 /\
    fields = map2 (fun a b => (fst a, snd a ++ snd b)) f1 f2.
Proof.
  intros W REG N1 N2 RL E1 E2 E. destruct (C90_own_entry c F rn oref W REG) as (entry & H & _).
  assert (N12 : gpis1 ++ gpis2 <> []) by (destruct gpis1; [contradiction|discriminate]).
  destruct (H gpis1 N1 (fun g I => RL g (in_or_app _ _ _ (or_introl I)))) as (o1 & X1 & ND1 & K1 & A1). assert (o1 = out1) by congruence. subst o1.
  destruct (H gpis2 N2 (fun g I => RL g (in_or_app _ _ _ (or_intror I)))) as (o2 & X2 & ND2 & K2 & A2). assert (o2 = out2) by congruence. subst o2.
  destruct (H (gpis1 ++ gpis2) N12 RL) as (o & X & ND & K & A). assert (o = out) by congruence. subst o. clear X1 X2 X H.
  assert (M : forall key, map (fun k => (k, map (entry key k) (gpis1 ++ gpis2))) (F (List.length key)) =
    map2 (fun a b => (fst a, snd a ++ snd b)) (map (fun k => (k, map (entry key k) gpis1)) (F (List.length key))) (map (fun k => (k, map (entry key k) gpis2)) (F (List.length key)))).
  { intros key. rewrite map2_map. apply map_ext. intros k. cbn [fst snd]. rewrite map_app. reflexivity. }
  assert (ST : forall key gs, map fst (map (fun k => (k, map (entry key k) gs)) (F (List.length key))) = F (List.length key)) by (intros; rewrite map_map; cbn; apply map_id).
  assert (GET : forall (o : list (list dscol * list (field * list V))) key, In key (map fst o) -> exists f, In (key, f) o).
  { intros o key I. apply in_map_iff in I as ([k f] & Ek & I). cbn in Ek. subst. eauto. }
  intros key fields. split.
  - intros I. assert (KI : In key (map fst out)) by (apply in_map_iff; exists (key, fields); auto).
    apply K in KI. destruct (GET out1 key (proj2 (K1 key) KI)) as (f1 & I1). destruct (GET out2 key (proj2 (K2 key) KI)) as (f2 & I2).
    exists f1, f2. split; [exact I1|]. split; [exact I2|]. rewrite (A1 _ _ I1), (A2 _ _ I2), (A _ _ I). split; [rewrite !ST; reflexivity|apply M].
  - intros (f1 & f2 & I1 & I2 & _ & ->). assert (KI : In key (map fst out1)) by (apply in_map_iff; exists (key, f1); auto).
    apply K1 in KI. destruct (GET out key (proj2 (K key) KI)) as (f & I). rewrite (A1 _ _ I1), (A2 _ _ I2), <- M, <- (A _ _ I). exact I.
Qed.

(* the order of the points plays no role: the same point gets the same value *)
Theorem C90_order (c : config) F rn oref gpis gpis' out out' :
  wf_config c -> (forall n k f, In ((n, k), f) (c_calcs c) -> regular (F k) f) ->
  gpis <> [] -> Permutation gpis gpis' -> (forall g, In g gpis -> reference_left c g) ->
  calc code c true rn oref gpis = VOk out -> calc code c true rn oref gpis' = VOk out' ->
  forall key f f' k arr arr', In (key, f) out -> In (key, f') out' -> In (k, arr) f -> In (k, arr') f' ->
    Permutation (combine gpis arr) (combine gpis' arr').
Proof.
  intros W REG NE P RL E E' key f f' k arr arr' I I' Ik Ik'. destruct (C90_own_entry c F rn oref W REG) as (entry & H & _).
  assert (NE' : gpis' <> []) by (intros ->; apply Permutation_sym, Permutation_nil in P; contradiction).
  destruct (H gpis NE RL) as (o & X & _ & _ & A). assert (o = out) by congruence. subst o.
  destruct (H gpis' NE' (fun g J => RL g (Permutation_in _ (Permutation_sym P) J))) as (o & X' & _ & _ & A'). assert (o = out') by congruence. subst o.
  rewrite (A _ _ I) in Ik. rewrite (A' _ _ I') in Ik'. apply in_map_iff in Ik as (k0 & Ek & _). apply in_map_iff in Ik' as (k1 & Ek' & _).
  injection Ek as -> <-. injection Ek' as -> <-.
  assert (C : forall gs, combine gs (map (entry key k) gs) = map (fun g => (g, entry key k g)) gs) by (induction gs as [|g gs IH]; cbn; [reflexivity|rewrite IH; reflexivity]).
  rewrite !C. apply Permutation_map, P.
Qed.
End Points.
Print Assumptions C90_own_entry.
Print Assumptions C90_split.
Print Assumptions C90_order.

(* the configuration of C32's example, split into two runs, one of them in another order *)
Example C90_ex : calc idz ex_cfg true true false [4; 0]%nat =
  VOk [([("a", "x"); ("b", "y")]%string, [(FName "gpi", [4; 0]); (FName "n_obs", [0; 2]); (FName "status", [4; 0])])] /\
  calc idz ex_cfg true true false [2]%nat =
  VOk [([("a", "x"); ("b", "y")]%string, [(FName "gpi", [2]); (FName "n_obs", [0]); (FName "status", [7])])] /\
  calc idz ex_cfg true true false [4; 0; 2]%nat =
  VOk [([("a", "x"); ("b", "y")]%string, [(FName "gpi", [4; 0; 2]); (FName "n_obs", [0; 2; 0]); (FName "status", [4; 0; 7])])].
Proof. repeat split; vm_compute; reflexivity. Qed.
Example C90_ex_hyps : wf_config ex_cfg /\ (forall n k f, In ((n, k), f) (c_calcs ex_cfg) -> regular [FName "gpi"; FName "n_obs"; FName "status"] f) /\
  forall g, reference_left ex_cfg g.
Proof.
  split; [exact ex_cfg_wf|]. split; [|intros g mds gm dfs ref masked X; discriminate].
  intros n k f [E|[]]. injection E as <- <- <-. split; [|split; [|split; [|split]]].
  - repeat constructor; cbn; intuition discriminate.
  - cbn. auto.
  - cbn. intros l H. intuition discriminate.
  - intros d g H. unfold ex_calc. rewrite H. cbn [List.length Nat.eqb negb]. rewrite andb_false_r. eauto.
  - intros d g m. unfold ex_calc. intros E. repeat (match type of E with (if ?b then _ else _) = _ => destruct b end; try discriminate). injection E as <-.
    split; [reflexivity|]. cbn. intros k x H. intuition (match goal with H : (_, _) = (_, _) |- _ => injection H as <- <- end; eauto).
Qed.
(* a reference that is masked away completely shifts the entries of the later points *)
Theorem C90_masked_reference_refuted :
  exists (c : @config nat Z) g1 g2 out, wf_config c /\ calc idz c true true false [0; 5; 6]%nat = VOk out /\
    calc idz c true true false [g1] = VOk [] /\ [0; 5; 6]%nat = [0%nat; g1; g2] /\
    out = [([("a", "x"); ("b", "y")]%string, [(FName "gpi", [0; 6]); (FName "n_obs", [2; 2]); (FName "status", [0; 0])])].
Proof.
  exists ex_mask_cfg, 5%nat, 6%nat. eexists. split; [exact ex_cfg_wf|]. split; [vm_compute; reflexivity|]. split; [vm_compute; reflexivity|]. split; reflexivity.
Qed.
Print Assumptions C90_masked_reference_refuted.
