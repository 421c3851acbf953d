(* Property theorems C117: validations that scale with stored CDF matching parameters. *)
From Verif Require Import StoredValSpec StoredValProofs StoredProofs StoredProps ValidationInputProps NamesProofs ValidationProofs2.
From Verif Require Import TemporalModel TemporalSpec.
Open Scope Z_scope.

(* If every dataset has one column, every combination of a grid point whose validation goes through is scaled
   column by column with tables that were fitted on the same dataset and the scaling reference, all on the
   data of one and the same combination of that grid point, which has all their datasets; the scaling reference
   itself is unchanged. *)
Theorem C117_one_fit {G V : Type} :
  forall (c : @config G V) o st only_ref matched gpi k keys st' outs scol,
    wf_dict (c_ds c) -> single_columns (c_ds c) -> c_scale c <> None -> columns_of (c_ds c) (c_sref c) = Some [scol] ->
    (forall key, In key keys -> selection (c_ds c) k key) -> gp_get st gpi = None ->
    scale_keys o st c only_ref matched gpi keys = (st', VOk outs) -> outs <> [] ->
    exists key0 rt0 d0, In key0 keys /\ read_columns c key0 rt0 /\ extract c true matched key0 = Ok (Some d0) /\
      forall key out, In (key, out) outs ->
        In key keys /\ exists rt d, read_columns c key rt /\ extract c true matched key = Ok (Some d) /\ map fst out = map fst rt /\
          forall ds col, In (ds, col) rt ->
            (ds = c_sref c -> In (ds, named_col d (enc (ds, col))) out) /\
            (ds <> c_sref c -> In (ds, col) rt0 /\ exists t, cdf_fit (matcher_opts o) (named_col d0 (enc (ds, col))) (named_col d0 (enc (c_sref c, scol))) = Ok t /\
                                         In (ds, cdf_predict t (named_col d (enc (ds, col)))) out).
Proof.
  intros c o st only_ref matched gpi k keys st' outs scol W SC CS ES SEL GP H NE.
  destruct (scale_keys_first c o only_ref matched gpi keys st st' outs GP H) as [E|(key0 & d0 & i0 & p & K0 & [X0 I0] & CP & ALL)]; [contradiction|].
  destruct (extract_ok c matched key0 d0 X0) as (rt0 & kf0 & RC0 & _ & CR0). destruct CR0 as [FC0 _].
  destruct (read_distinct c k key0 rt0 scol W SC (SEL _ K0) ES RC0) as (N0 & IN0 & SR0).
  assert (ND0 : NoDup rt0) by exact (NoDup_map_inv _ _ N0).
  rewrite (columns_of_frame d0 rt0 ND0 FC0) in CP.
  assert (C0 : fcols (drop_multiindex d0) = map fst rt0) by (unfold drop_multiindex, set_columns; cbn [fcols]; rewrite FC0, map_map; apply map_ext; intros q0; apply untup_enc).
  rewrite C0 in I0. destruct (index_of_ref rt0 (fun q0 => named_col d0 (enc q0)) _ _ I0) as (col0 & IR0 & PI0).
  assert (col0 = scol).
  { pose proof (IN0 _ _ IR0) as Y. apply (columns_of_in _ _ _ (proj1 W)) in Y. congruence. } subst col0.
  assert (NF : NoDup (map fst (map (fun q0 => (fst q0, named_col d0 (enc q0))) rt0))) by (rewrite map_map; exact N0).
  destruct (calc_parameters_get o _ _ _ _ NF PI0 CP) as [_ GET].
  exists key0, rt0, d0. split; [exact K0|]. split; [exact RC0|]. split; [exact X0|]. intros key out I. destruct (ALL key out I) as (K & d & i & [X IX] & SCL). split; [exact K|].
  destruct (extract_ok c matched key d X) as (rt & kf & RC & _ & CR). destruct CR as [FC _].
  destruct (read_distinct c k key rt scol W SC (SEL _ K) ES RC) as (N & IN & SR).
  assert (ND : NoDup rt) by exact (NoDup_map_inv _ _ N). rewrite (columns_of_frame d rt ND FC) in SCL.
  assert (C1 : fcols (drop_multiindex d) = map fst rt) by (unfold drop_multiindex, set_columns; cbn [fcols]; rewrite FC, map_map; apply map_ext; intros q0; apply untup_enc).
  rewrite C1 in IX. destruct (index_of_ref rt (fun q0 => named_col d (enc q0)) _ _ IX) as (col1 & IR & PI).
  pose proof (scale_columns_inv _ _ _ _ _ PI SCL) as F. exists rt, d. split; [exact RC|]. split; [exact X|]. split.
  - clear - F. revert F. generalize out. induction rt as [|x l IH]; intros o' F; inversion F as [|? ? ? ? [E _] F']; subst; [reflexivity|]. cbn [map]. rewrite E. cbn [fst]. f_equal. apply IH, F'.
  - intros ds col J. assert (JD : In (ds, named_col d (enc (ds, col))) (map (fun q0 => (fst q0, named_col d (enc q0))) rt)) by (apply in_map_iff; exists (ds, col); split; [reflexivity|exact J]).
    destruct (Forall2_In_l _ _ _ F _ JD) as ([n v] & OI & E1 & E2). cbn [fst snd] in *. subst n. split.
    + intros ->. destruct E2 as [[_ ->]|[Z _]]; [exact OI|contradiction].
    + intros NS. destruct E2 as [[Z _]|(_ & t & T & ->)]; [contradiction|]. destruct (GET _ _ T) as ([n v] & CI & E & _ & FIT). cbn [fst snd] in *. subst n.
      apply in_map_iff in CI as ([ds0 col'] & E & CI). cbn [fst] in E. assert (ds0 = ds) by congruence. assert (EV : v = named_col d0 (enc (ds0, col'))) by congruence. subst ds0 v.
      assert (col' = col).
      { pose proof (IN0 _ _ CI) as Y1. pose proof (IN _ _ J) as Y2. apply (columns_of_in _ _ _ (proj1 W)) in Y1. apply (columns_of_in _ _ _ (proj1 W)) in Y2. congruence. } subst col'.
      split; [exact CI|]. exists t. split; [exact FIT|exact OI].
Qed.

(* Which later combinations can be scaled: once the tables of a grid point were stored for a frame, another frame with
   the same scaling reference is scaled exactly if it has no dataset that the first one did not have. *)
Theorem C117_which_can_be_scaled :
  forall o st data0 i0 ref0 gpi st1 out0 data i ref,
    NoDup (map fst data0) -> gp_get st gpi = None -> py_index data0 i0 = Ok ref0 -> stored_scale o st data0 i0 gpi = (st1, Ok out0) ->
    py_index data i = Ok ref -> fst ref = fst ref0 ->
    ((exists out, stored_scale o st1 data i gpi = (st1, Ok out)) <-> (forall name, In name (map fst data) -> In name (map fst data0))).
Proof.
  intros o st data0 i0 ref0 gpi st1 out0 data i ref N GP R0 H R E.
  assert (H' : snd (stored_scale o st data0 i0 gpi) = Ok out0) by (rewrite H; reflexivity).
  destruct (scale_ok_stored _ _ _ _ _ _ H') as (p & P & _ & [X|[_ CP]]); [congruence|]. rewrite H in P. cbn [fst] in P.
  rewrite (scale_with_stored _ _ _ _ _ _ P). rewrite <- (scale_columns_iff o data0 i0 ref0 p data i ref N R0 CP R E). split.
  - intros (out & O). exists out. congruence.
  - intros (out & O). exists out. congruence.
Qed.


(* --- an example with one column per dataset: three datasets, all of them and then two of them ------- *)
Definition cfg_sv (ds : ds_dict) (ref sref : string) : @config Z Q :=
  mkCfg ds ref ref sref (fun _ => Err EKey) (fun _ _ _ => Ok []) (Some (fun f _ _ => Ok f)) [] None.
Definition reduced_outs (r : vres (list (list dscol * list (string * list cell)))) : vres (list (list dscol * list (string * list cell))) :=
  match r with VOk l => VOk (map (fun kv => (fst kv, map (fun c => (fst c, map (option_map Qred) (snd c))) (snd kv))) l) | VErr e => VErr e end.
Definition so2 : scaler_opts := mkScaler [0#1; 50#1; 100#1]%Q None false false.
Definition ds_three : ds_dict := [("a", ["x"]); ("b", ["y"]); ("c", ["z"])]%string.
Definition matched_three : list (list string * frame) :=
  [(["a"; "b"; "c"]%string, mkFrame [enc ("a", "x")%string; enc ("b", "y")%string; enc ("c", "z")%string]
     (map (fun i : Z => (i, [Some (i # 1); Some (100 * i # 1); Some (10 * i # 1)]%Q)) [1; 2; 3; 4]))].
Definition key_abc : list dscol := [("a", "x"); ("b", "y"); ("c", "z")]%string.
Definition key_ab : list dscol := [("a", "x"); ("b", "y")]%string.
Definition key_ac : list dscol := [("a", "x"); ("c", "z")]%string.
Definition key_bc : list dscol := [("b", "y"); ("c", "z")]%string.
Definition up_to (l : list Q) : list cell := map Some l.

Example C117_one_fit_example :
  wf_dict ds_three /\ single_columns ds_three /\ get_result_combinations ds_three 2 = Ok [key_ab; key_ac; key_bc] /\
  (forall key, In key [key_ab; key_ac; key_bc] -> selection ds_three 2 key) /\
  columns_of ds_three "c" = Some ["z"%string] /\
  reduced_outs (snd (scale_keys so2 [] (cfg_sv ds_three "a" "c") false matched_three 7 [key_ab; key_ac; key_bc])) =
    VOk [(key_ab, [("a"%string, up_to [10; 20; 30; 40]%Q); ("b"%string, up_to [10; 20; 30; 40]%Q); ("c"%string, up_to [10; 20; 30; 40]%Q)]);
         (key_ac, [("a"%string, up_to [10; 20; 30; 40]%Q); ("c"%string, up_to [10; 20; 30; 40]%Q)]);
         (key_bc, [("b"%string, up_to [10; 20; 30; 40]%Q); ("c"%string, up_to [10; 20; 30; 40]%Q)])].
Proof.
  assert (W : wf_dict ds_three).
  { split; [repeat constructor; cbn; intuition discriminate|]. intros ds cols [E|[E|[E|[]]]]; injection E as <- <-; repeat constructor; cbn; intuition discriminate. }
  split; [exact W|]. split.
  { intros ds cols [E|[E|[E|[]]]]; injection E as <- <-; eexists; reflexivity. }
  split; [vm_compute; reflexivity|]. split.
  { intros key I. destruct (combinations_spec ds_three 2 W ltac:(lia)) as (out & E & _ & _ & C). apply C.
    assert (X : get_result_combinations ds_three 2 = Ok [key_ab; key_ac; key_bc]) by (vm_compute; reflexivity). assert (out = [key_ab; key_ac; key_bc]) by congruence. subst out. exact I. }
  split; vm_compute; reflexivity.
Qed.

(* --- what goes wrong ------------------------------------------------------------------------------ *)
(* The usual set-up, pairs of the scaling reference with each of the other datasets: only one of the pairs can be
   scaled, the next one with data ends the grid point.  Each pair alone can be scaled. *)
Theorem C117_pairs_refuted :
  exists (ds : ds_dict) (matched : list (list string * frame)) (k1 k2 : list dscol) out1 out2,
    wf_dict ds /\ single_columns ds /\ get_result_combinations ds 2 = Ok [k1; k2; key_bc] /\
    snd (scale_keys so2 [] (cfg_sv ds "a" "a") true matched 7 [k1]) = VOk [(k1, out1)] /\
    snd (scale_keys so2 [] (cfg_sv ds "a" "a") true matched 7 [k2]) = VOk [(k2, out2)] /\
    snd (scale_keys so2 [] (cfg_sv ds "a" "a") true matched 7 [k1; k2; key_bc]) = VErr (VError SCALING_FAILED).
Proof.
  exists ds_three, matched_three, key_ab, key_ac. do 2 eexists. destruct C117_one_fit_example as (W & SC & G & _).
  split; [exact W|]. split; [exact SC|]. split; [exact G|]. repeat split; vm_compute; reflexivity.
Qed.

(* Whatever the data: the pairs with the scaling reference that get results all have the same other dataset. *)
Theorem C117_one_pair {G V : Type} :
  forall (c : @config G V) o st only_ref matched gpi keys st' outs scol,
    wf_dict (c_ds c) -> single_columns (c_ds c) -> c_scale c <> None -> columns_of (c_ds c) (c_sref c) = Some [scol] ->
    (forall key, In key keys -> selection (c_ds c) 2 key /\ In (c_sref c) (map fst key)) -> gp_get st gpi = None ->
    scale_keys o st c only_ref matched gpi keys = (st', VOk outs) ->
    forall k1 o1 k2 o2 ds, In (k1, o1) outs -> In (k2, o2) outs -> In ds (map fst k1) -> In ds (map fst k2).
Proof.
  intros c o st only_ref matched gpi keys st' outs scol W SC CS ES SEL GP H k1 o1 k2 o2 ds I1 I2 D1.
  assert (NE : outs <> []) by (intros ->; destruct I1).
  destruct (C117_one_fit c o st only_ref matched gpi 2 keys st' outs scol W SC CS ES (fun k K => proj1 (SEL k K)) GP H NE) as (key0 & rt0 & d0 & K0 & RC0 & _ & ALL).
  (* with the scaling reference among the datasets the columns that are read are the combination *)
  assert (RK : forall key rt, In key keys -> read_columns c key rt -> rt = key).
  { intros key rt K RC. destruct (SEL key K) as [(_ & _ & SI) IR]. apply in_map_iff in IR as ([a b] & E & IR). cbn [fst] in E. subst a.
    destruct (SI _ _ IR) as (cols & CI & CB). pose proof (proj2 (columns_of_in _ _ _ (proj1 W)) CI) as CC. rewrite ES in CC. assert (cols = [scol]) by congruence. subst cols.
    destruct CB as [<-|[]]. unfold read_columns in RC. destruct (c_scale c); [|contradiction]. destruct RC as (col & rest & EC & RC). rewrite ES in EC.
    assert (col = scol) by congruence. subst col. destruct RC as [[_ R]|[N _]]; [exact R|contradiction]. }
  assert (SUB : forall k out, In (k, out) outs -> In k keys /\ forall x, In x (map fst k) -> In x (map fst key0)).
  { intros k out I. destruct (ALL k out I) as (K & rt & d & RC & _ & _ & COL). split; [exact K|]. rewrite (RK k rt K RC) in COL. rewrite (RK key0 rt0 K0 RC0) in COL.
    intros x X. apply in_map_iff in X as ([a b] & E & X). cbn [fst] in E. subst a. destruct (string_dec x (c_sref c)) as [->|N]; [exact (proj2 (SEL key0 K0))|].
    destruct (COL x b X) as [_ B]. destruct (B N) as [Y _]. apply in_map_iff. exists (x, b). split; [reflexivity|exact Y]. }
  destruct (SUB k1 o1 I1) as [K1 S1]. destruct (SUB k2 o2 I2) as [K2 S2]. specialize (S1 ds D1).
  destruct (SEL k2 K2) as [(L2 & SS2 & _) _]. destruct (SEL key0 K0) as [(L0 & SS0 & _) _].
  assert (IL : incl (map fst key0) (map fst k2)).
  { apply NoDup_length_incl; [apply strict_nodup, SS2|rewrite !map_length; lia|exact S2]. }
  exact (IL ds S1).
Qed.

(* Two columns of one dataset: the second one is scaled with the table of the first one and leaves the range of the
   scaling reference.  Scaled without the first one it gets other values. *)
Definition ds_two : ds_dict := [("a", ["x"; "y"]); ("r", ["z"])]%string.
Definition matched_two : list (list string * frame) :=
  [(["a"; "r"]%string, mkFrame [enc ("a", "x")%string; enc ("a", "y")%string; enc ("r", "z")%string]
     (map (fun i : Z => (i, [Some (i # 1); Some (100 * (5 - i) # 1); Some (10 * i # 1)]%Q)) [1; 2; 3; 4]))].
Definition key_x : list dscol := [("a", "x"); ("r", "z")]%string.
Definition key_y : list dscol := [("a", "y"); ("r", "z")]%string.
Theorem C117_second_column_refuted :
  get_result_combinations ds_two 2 = Ok [key_x; key_y] /\
  reduced_outs (snd (scale_keys so2 [] (cfg_sv ds_two "a" "r") false matched_two 7 [key_x; key_y])) =
    VOk [(key_x, [("a"%string, up_to [10; 20; 30; 40]%Q); ("r"%string, up_to [10; 20; 30; 40]%Q)]);
         (key_y, [("a"%string, up_to [4000; 3000; 2000; 1000]%Q); ("r"%string, up_to [10; 20; 30; 40]%Q)])] /\
  reduced_outs (snd (scale_keys so2 [] (cfg_sv ds_two "a" "r") false matched_two 7 [key_y])) =
    VOk [(key_y, [("a"%string, up_to [40; 30; 20; 10]%Q); ("r"%string, up_to [10; 20; 30; 40]%Q)])].
Proof. repeat split; vm_compute; reflexivity. Qed.

(* C117_which_can_be_scaled: tables stored for three datasets serve for two of them, not the other way round *)
Definition cols_abc : list (string * list cell) := [("a", up_to [1; 2; 3; 4]%Q); ("b", up_to [100; 200; 300; 400]%Q); ("c", up_to [10; 20; 30; 40]%Q)]%string.
Definition cols_ab : list (string * list cell) := [("a", up_to [1; 2; 3; 4]%Q); ("b", up_to [100; 200; 300; 400]%Q)]%string.
Definition succeeds (r : res (list (string * list cell))) : bool := match r with Ok _ => true | Err _ => false end.
Example C117_which_can_be_scaled_example :
  succeeds (snd (stored_scale so2 [] cols_abc 0 7)) = true /\
  succeeds (snd (stored_scale so2 (fst (stored_scale so2 [] cols_abc 0 7)) cols_ab 0 7)) = true /\
  succeeds (snd (stored_scale so2 [] cols_ab 0 7)) = true /\
  succeeds (snd (stored_scale so2 (fst (stored_scale so2 [] cols_ab 0 7)) cols_abc 0 7)) = false.
Proof. repeat split; vm_compute; reflexivity. Qed.

Print Assumptions C117_one_fit.
Print Assumptions C117_which_can_be_scaled.
Print Assumptions C117_one_pair.
Print Assumptions C117_pairs_refuted.
Print Assumptions C117_second_column_refuted.
