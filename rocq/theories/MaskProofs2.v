(* Masking when the reference has several columns. *)
From Verif Require Import MatchersSpec ValidationSpec BaseProofs SortProofs NamesProofs GroupingProofs MatchersProofs ValidationProofs ValidationProofs2 MaskProofs.
From Verif Require Import TemporalModel TemporalSpec.

Lemma dict_set_incl {K V} (eqb : K -> K -> bool) (Heq : forall a b, eqb a b = true <-> a = b) (d : list (K * V)) k v e :
  In e (dict_set eqb d k v) -> In e d \/ e = (k, v).
Proof.
  induction d as [|[k' v'] d IH]; cbn; [intuition congruence|]. destruct (eqb k' k) eqn:E; cbn; [|intuition congruence].
  apply Heq in E. subst. intuition congruence.
Qed.
Lemma dict_set_fold_incl {K V} (eqb : K -> K -> bool) (Heq : forall a b, eqb a b = true <-> a = b) (l acc : list (K * V)) e :
  In e (fold_left (fun d kb => dict_set eqb d (fst kb) (snd kb)) l acc) -> In e (acc ++ l).
Proof.
  revert acc. induction l as [|[k v] l IH]; intros acc; cbn; [rewrite app_nil_r; auto|]. intros H. apply IH in H. rewrite in_app_iff in *.
  destruct H as [H|H]; [|right; right; exact H]. apply (dict_set_incl eqb Heq) in H as [H| ->]; [left; exact H|right; left; reflexivity].
Qed.
Lemma dict_set_keys {K V} (eqb : K -> K -> bool) (Heq : forall a b, eqb a b = true <-> a = b) (d : list (K * V)) k v x :
  In x (map fst (dict_set eqb d k v)) <-> In x (map fst d) \/ x = k.
Proof.
  induction d as [|[k' v'] d IH]; cbn; [intuition congruence|]. destruct (eqb k' k) eqn:E; cbn; [|rewrite IH; intuition congruence].
  apply Heq in E. subst. intuition congruence.
Qed.
Lemma dict_set_fold_keys {K V} (eqb : K -> K -> bool) (Heq : forall a b, eqb a b = true <-> a = b) (l acc : list (K * V)) x :
  In x (map fst (fold_left (fun d kb => dict_set eqb d (fst kb) (snd kb)) l acc)) <-> In x (map fst (acc ++ l)).
Proof.
  revert acc. induction l as [|[k v] l IH]; intros acc; cbn; [rewrite app_nil_r; tauto|].
  rewrite IH, !map_app, !in_app_iff, (dict_set_keys eqb Heq). cbn. intuition congruence.
Qed.

Lemma masking_combo_shapes mds rcs cmb : wf_dict mds -> In ("_reference"%string, rcs) mds -> masking_combo mds cmb ->
  exists rc ds col, In rc rcs /\ ds <> "_reference"%string /\ (exists cols, In (ds, cols) mds /\ In col cols) /\
    (cmb = [("_reference"%string, rc); (ds, col)] \/ cmb = [(ds, col); ("_reference"%string, rc)]).
Proof.
  intros [N _] ER [(L & S0 & Hc) Hin].
  destruct cmb as [|[d1 c1] [|[d2 c2] [|? ?]]]; try discriminate. clear L.
  cbn in S0. inversion S0 as [|? ? S1 F]; subst. inversion F as [|? ? [F1 F2] _]; subst.
  assert (RC : forall c, (exists cols, In ("_reference"%string, cols) mds /\ In c cols) -> In c rcs).
  { intros c (cols & H1 & H2). rewrite (unique_value mds _ rcs cols N ER H1). exact H2. }
  destruct Hin as [E|[E|[]]]; cbn in E; subst.
  - exists c1, d2, c2. split; [apply RC, Hc; left; reflexivity|]. split; [congruence|]. split; [apply Hc; right; left; reflexivity|]. left. reflexivity.
  - exists c2, d1, c1. split; [apply RC, Hc; right; left; reflexivity|]. split; [congruence|]. split; [apply Hc; left; reflexivity|]. right. reflexivity.
Qed.

Section Mask.
Context {G V : Type}.
Notation config := (@config G V).

Lemma mask_several_exact (c : config) mds gm ref g rcs masked :
  wf_dict mds -> In ("_reference"%string, rcs) mds -> mask_dataset c mds gm ref g = Ok masked ->
  exists matched, match_masking c gm ref g = Ok matched /\ fcols masked = fcols ref /\
    (forall cmb, masking_combo mds cmb -> exists o, get_data_for_result_tuple (c_tref c) matched cmb = Ok o) /\
    exists keep, frows masked = filter keep (frows ref) /\
      (forall t r, keep (t, r) = false -> exists cmb d, masking_combo mds cmb /\ get_data_for_result_tuple (c_tref c) matched cmb = Ok (Some d) /\ In t (findex d)) /\
      (forall t r k cmb0 d0, masking_combo mds cmb0 -> In k (combo_column cmb0) -> get_data_for_result_tuple (c_tref c) matched cmb0 = Ok (Some d0) -> frows d0 <> [] ->
        (forall cmb d, masking_combo mds cmb -> In k (combo_column cmb) -> get_data_for_result_tuple (c_tref c) matched cmb = Ok (Some d) -> frows d <> [] -> In t (findex d)) -> keep (t, r) = false).
Proof.
  intros W ER H. unfold mask_dataset in H. destruct (match_masking c gm ref g) as [matched|] eqn:EM; [|discriminate]. cbn [bindR] in H.
  assert (HR : In "_reference"%string (map fst mds)) by (apply in_map_iff; exists ("_reference"%string, rcs); auto).
  destruct (names_spec mds "_reference" 2 W (le_S _ _ (le_n 1)) HR) as (names & EN & NN & IN). rewrite EN in H. cbn [bindR] in H.
  destruct (seqR _) as [datas|] eqn:ES in H; [|discriminate]. cbn [bindR] in H. apply seqR_forall2 in ES.
  exists matched. split; [reflexivity|]. split; [injection H as <-; reflexivity|].
  assert (FD : Forall2 (fun cmb d => snd d = cmb /\ get_data_for_result_tuple (c_tref c) matched cmb = Ok (fst d)) names datas).
  { clear -ES. induction ES as [|a b l m Hab F IH]; constructor; [|exact IH].
    destruct (extract c false matched a) as [o|] eqn:E; [|discriminate]. cbn in Hab. injection Hab as <-. cbn. split; [reflexivity|].
    unfold extract in E. destruct (c_scale c); exact E. }
  split.
  { intros cmb Hc. apply (proj2 (IN cmb)) in Hc. clear -FD Hc. induction FD as [|a b l m [E1 E2] F IH]; [contradiction|].
    destruct Hc as [<-|Hc]; [eauto|apply IH, Hc]. }
  set (L := flat_map (fun dr : option frame * list dscol => match fst dr with None => [] | Some data =>
              if Nat.eqb (List.length (frows data)) 0 then [] else map (fun k => (k, data)) (combo_column (snd dr)) end) datas).
  assert (EL : flat_map (fun dr : option frame * list dscol =>
      match fst dr with
      | None => []
      | Some data =>
          if Nat.eqb (List.length (frows data)) 0 then []
          else flat_map (fun key : dscol => if String.eqb (fst key) "_reference" then [] else [(key, choose_column data ref)]) (snd dr)
      end) datas = map (fun e => (fst e, choose_column (snd e) ref)) L).
  { subst L. clear. induction datas as [|[o cmb] datas IH]; [reflexivity|]. cbn [flat_map fst snd]. rewrite map_app, IH. f_equal.
    destruct o as [d|]; [|reflexivity]. destruct (Nat.eqb (List.length (frows d)) 0); [reflexivity|]. rewrite combo_column_keys, map_map. reflexivity. }
  assert (IL : forall k d, In (k, d) L <-> exists cmb, masking_combo mds cmb /\ In k (combo_column cmb) /\ frows d <> [] /\
             get_data_for_result_tuple (c_tref c) matched cmb = Ok (Some d)).
  { intros k d. subst L. rewrite in_flat_map. split.
    - intros ([o cmb] & Hin & Hk). cbn [fst snd] in Hk. destruct o as [d'|]; [|contradiction].
      destruct (Nat.eqb (List.length (frows d')) 0) eqn:E0; [contradiction|]. apply in_map_iff in Hk as (k' & Ek & Hk). injection Ek as -> ->.
      exists cmb. assert (In cmb names /\ get_data_for_result_tuple (c_tref c) matched cmb = Ok (Some d)) as [Hn Hg].
      { clear -FD Hin. induction FD as [|a b l m [E1 E2] F IH]; [contradiction|]. destruct Hin as [->|Hin].
        - cbn in E1, E2. subst. split; [left; reflexivity|exact E2].
        - destruct (IH Hin). split; [right; assumption|assumption]. }
      split; [apply IN, Hn|]. split; [exact Hk|]. split; [intros C; rewrite C in E0; discriminate|exact Hg].
    - intros (cmb & Hm & Hk & NE & Hg). exists (Some d, cmb). cbn [fst snd]. apply (proj2 (IN cmb)) in Hm. split.
      + clear -FD Hm Hg. induction FD as [|a b l m [E1 E2] F IH]; [contradiction|]. destruct Hm as [->|Hm]; [|right; apply IH, Hm].
        left. rewrite Hg in E2. destruct b as [o cmb']. cbn in E1, E2. congruence.
      + destruct (Nat.eqb (List.length (frows d)) 0) eqn:E0; [destruct (frows d); [contradiction|discriminate]|].
        apply in_map_iff. exists k. auto. }
  cbv zeta in H. rewrite EL in H. assert (DM := dict_set_fold_map pair_eqb (fun d => choose_column d ref) L []). cbn [map] in DM. rewrite DM in H.
  assert (IR1 := fun e => dict_set_fold_incl pair_eqb pair_eqb_spec L [] e). assert (IR2 := fun e => dict_set_fold_keys pair_eqb pair_eqb_spec L [] e). cbn [app] in IR1, IR2.
  set (R := fold_left (fun d kb => dict_set pair_eqb d (fst kb) (snd kb)) L []) in *.
  rewrite map_map in H. cbn [snd] in H.
  assert (ER' : map (fun x : dscol * frame => choose_column (snd x) ref) R = map (fun p => map p (frows ref)) (map (fun x : dscol * frame => fun tr : Z * row => negb (existsb (Z.eqb (fst tr)) (findex (snd x)))) R)).
  { rewrite map_map. apply map_ext. intros x. reflexivity. }
  rewrite ER', all_columns in H. injection H as <-. cbn [frows].
  rewrite mask_select_map. eexists. split; [reflexivity|]. cbv beta. split.
  - intros t r KF. assert (existsb (fun x : dscol * frame => existsb (Z.eqb t) (findex (snd x))) R = true) as EX.
    { clear -KF. induction R as [|[k d] R IH]; [discriminate|]. cbn [map forallb existsb fst snd] in *. destruct (existsb (Z.eqb t) (findex d)); [reflexivity|]. apply IH, KF. }
    apply existsb_exists in EX as ([k d] & HI & Ht). cbn [snd] in Ht. apply existsb_exists in Ht as (t' & Ht & E). apply Z.eqb_eq in E. subst t'.
    apply IR1, IL in HI as (cmb & Hm & _ & _ & Hg). exists cmb, d. auto.
  - intros t r k cmb0 d0 M0 K0 G0 N0 ALL. apply not_true_iff_false. intros KT. rewrite forallb_forall in KT.
    assert (HK : In k (map fst R)) by (apply IR2, in_map_iff; exists (k, d0); split; [reflexivity|]; apply IL; exists cmb0; auto).
    apply in_map_iff in HK as ([k' d] & Ek & HI). cbn in Ek. subst k'. assert (HL := proj1 (IL k d) (IR1 _ HI)). destruct HL as (cmb & Hm & Hk & NE & Hg).
    specialize (ALL cmb d Hm Hk Hg NE).
    specialize (KT (fun tr => negb (existsb (Z.eqb (fst tr)) (findex d)))). cbv beta in KT. cbn [fst] in KT.
    assert (C : negb (existsb (Z.eqb t) (findex d)) = true) by (apply KT, in_map_iff; exists (k, d); split; [reflexivity|exact HI]).
    apply negb_true_iff in C. assert (C' : existsb (Z.eqb t) (findex d) = true) by (apply existsb_exists; exists t; split; [exact ALL|apply Z.eqb_refl]). congruence.
Qed.

(* with several reference columns: what is removed had a value in some of them, and an observation with
   values in all of them is removed if a masking column has a value at the observation matched to it *)
Lemma mask_several (c : config) store oob w mds gm ref g rcs masks masked :
  (forall d r n, c_match c d r n = combinatory_matcher store oob w d r n) ->
  wf_dict mds -> In ("_reference"%string, rcs) mds -> rcs <> [] ->
  gm g = Ok masks -> NoDup (map fst masks) -> ~ In "_reference"%string (map fst masks) ->
  wf_frame ref -> (forall k f, In (k, f) masks -> usable f) ->
  mask_dataset c mds gm ref g = Ok masked ->
  let hit t i := exists ds f cols col j rr row, In (ds, f) masks /\ In (ds, cols) mds /\ In col cols /\ col_pos col (fcols f) = Some j /\
         first_row ref t rr /\ nth i rr None <> None /\
         nearest_row (frows f) (List.length (fcols f)) t w row /\ nth j row None <> None in
  exists keep, frows masked = filter keep (frows ref) /\
   (forall t r, keep (t, r) = false -> exists rc i, In rc rcs /\ col_pos rc (fcols ref) = Some i /\ hit t i) /\
   (forall t r ds f cols col j row, In (ds, f) masks -> In (ds, cols) mds -> In col cols -> col_pos col (fcols f) = Some j ->
      nearest_row (frows f) (List.length (fcols f)) t w row -> nth j row None <> None ->
      (exists rr, first_row ref t rr /\ forall rc, In rc rcs -> exists i, col_pos rc (fcols ref) = Some i /\ nth i rr None <> None) -> keep (t, r) = false).
Proof.
  intros HM W ER RNE EG NM NR WR US H hit.
  destruct (mask_several_exact c mds gm ref g rcs masked W ER H) as (matched & MM & _ & TOT & keep & EK & KP1 & KP2).
  exists keep. split; [exact EK|]. clear EK H.
  unfold match_masking in MM. rewrite EG in MM. cbn [bindR] in MM.
  rewrite (dict_set_new String.eqb String.eqb_eq masks _ ref NR), HM in MM.
  set (dfs := masks ++ [("_reference"%string, ref)]) in *.
  assert (ND : NoDup (map fst dfs)).
  { unfold dfs. rewrite map_app. apply nodup_app; [exact NM|repeat constructor; intros []|]. intros x Hx [<-|[]]. exact (NR Hx). }
  assert (IR : In ("_reference"%string, ref) dfs) by (apply in_or_app; right; left; reflexivity).
  assert (US' : forall k f, In (k, f) dfs -> k <> "_reference"%string -> usable f).
  { intros k f Hin Nk. apply in_app_or in Hin as [Hin|[Hin|[]]]; [eapply US, Hin|congruence]. }
  destruct (combinatory_spec store oob w dfs "_reference" 2 ref ND IR (le_S _ _ (le_n 1)) US') as (out & EO & NO & KO & SO).
  assert (matched = out) by congruence. subst matched. clear MM.
  assert (KL : forall key f, In (key, f) out -> exists ds, key = ["_reference"%string; ds] /\ In ds (map fst dfs) /\ ds <> "_reference"%string).
  { intros key f Hin. destruct (KO key f Hin) as (s & -> & L & _ & Hs). destruct s as [|ds [|? ?]]; try discriminate.
    exists ds. split; [reflexivity|]. apply Hs. left. reflexivity. }
  (* the matched frame of one masking dataset *)
  assert (FR : forall ds f, In (ds, f) masks -> exists fm,
      fcols fm = columns_named ("_reference"%string, ref) ++ columns_named (ds, f) /\
      (forall t r, In (t, r) (frows fm) <-> matched_row ref [f] w t r /\ exists c, In c r /\ c <> None) /\
      (frows fm <> [] -> In (["_reference"%string; ds], fm) out) /\ (frows fm = [] -> ~ In ["_reference"%string; ds] (map fst out))).
  { intros ds f Hin. assert (Nd : ds <> "_reference"%string) by (intros ->; apply NR, in_map_iff; exists ("_reference"%string, f); auto).
    destruct (SO [ds]) as (fm & _ & EC & ROW & Y & N).
    { split; [reflexivity|]. split; [repeat constructor|]. intros x [<-|[]]. split; [|exact Nd].
      unfold dfs. rewrite map_app. apply in_or_app. left. apply in_map_iff. exists (ds, f). auto. }
    assert (EP : pick dfs [ds] = [(ds, f)]).
    { unfold pick, dfs. rewrite filter_app.
      rewrite (filter_none _ [("_reference"%string, ref)]), app_nil_r by (intros [k2 f2] [[= <- <-]|[]]; cbn [existsb fst]; rewrite orb_false_r; apply String.eqb_neq; congruence).
      clear -NM Hin.
      induction masks as [|[k f'] masks IH]; [contradiction|]. cbn in *. apply NoDup_cons_iff in NM as [N1 N2].
      destruct Hin as [[= -> ->]|Hin].
      - rewrite String.eqb_refl. cbn. f_equal. apply filter_none. intros [k2 f2] H2. cbn. rewrite orb_false_r. apply String.eqb_neq. intros ->.
        apply N1, in_map_iff. exists (ds, f2). auto.
      - rewrite (IH N2 Hin). destruct (String.eqb_spec k ds) as [->|N]; [|reflexivity]. exfalso. apply N1, in_map_iff. exists (ds, f). auto. }
    rewrite EP in *. cbn [map flat_map snd] in *. rewrite app_nil_r in EC. exists fm. auto. }
  (* the data extracted for one combination *)
  assert (DATA : forall rc ds f col cmb d t, In (ds, f) masks -> ds <> "_reference"%string ->
      (cmb = [("_reference"%string, rc); (ds, col)] \/ cmb = [(ds, col); ("_reference"%string, rc)]) ->
      get_data_for_result_tuple (c_tref c) out cmb = Ok (Some d) ->
      (In t (findex d) <-> exists i j rr row, col_pos rc (fcols ref) = Some i /\ col_pos col (fcols f) = Some j /\
          first_row ref t rr /\ nth i rr None <> None /\
          nearest_row (frows f) (List.length (fcols f)) t w row /\ nth j row None <> None)).
  { intros rc ds f col cmb d t Hin Nd Sh Hd. destruct (FR ds f Hin) as (fm & EC & ROW & Y & N).
    apply get_data_ok in Hd. destruct Hd as (key & f' & Hkey & CR & Alt).
    assert (f' = fm) as ->.
    { destruct Alt as [(x & Hx & Px)|(_ & k0 & f0 & rest & EO' & NL)].
      - destruct (KL x f' Hx) as (ds' & -> & _ & Nd').
        assert (ds' = ds).
        { assert (I1 : In ds (map fst cmb)) by (destruct Sh as [->| ->]; cbn; auto).
          apply (Permutation_in _ (Permutation_sym Px)) in I1. destruct I1 as [E|[E|[]]]; congruence. }
        subst ds'.
        assert (HH : In (["_reference"%string; ds], fm) out).
        { apply Y. intros C. apply (N C). apply in_map_iff. exists (["_reference"%string; ds], f'). auto. }
        exact (unique_value out _ f' fm NO Hx HH).
      - exfalso. apply NL. destruct (KL k0 f0) as (ds' & -> & _); [rewrite EO'; left; reflexivity|]. destruct Sh as [->| ->]; reflexivity. }
    clear Alt Hkey Y N. destruct CR as (_ & ps & FP & ERo).
    assert (P1 : col_pos (enc ("_reference"%string, rc)) (fcols fm) = col_pos rc (fcols ref)).
    { unfold enc. cbn [fst snd]. rewrite EC, col_pos_app, !col_pos_named. cbn [fst snd]. rewrite String.eqb_refl.
      assert (E : String.eqb "_reference" ds = false) by (apply String.eqb_neq; congruence). rewrite E. destruct (col_pos rc (fcols ref)); reflexivity. }
    assert (P2 : col_pos (enc (ds, col)) (fcols fm) = option_map (Nat.add (List.length (fcols ref))) (col_pos col (fcols f))).
    { unfold enc. cbn [fst snd]. rewrite EC, col_pos_app, !col_pos_named. cbn [fst snd]. rewrite String.eqb_refl.
      apply String.eqb_neq in Nd. rewrite Nd. unfold columns_named. rewrite map_length. reflexivity. }
    assert (RL : forall rr, first_row ref t rr -> List.length rr = List.length (fcols ref)).
    { intros rr Hr. apply find_some in Hr as [Hr _]. exact (WR t rr Hr). }
    unfold findex. rewrite ERo. rewrite in_map_iff.
    assert (CORE : forall i j p, p = [i; List.length (fcols ref) + j]%nat \/ p = [List.length (fcols ref) + j; i]%nat ->
       (i < List.length (fcols ref))%nat ->
       ((exists x, fst x = t /\ In x (filter (fun tr => forallb notna (snd tr)) (map (fun tr : Z * row => (fst tr, map (fun k => nth k (snd tr) None) p)) (frows fm)))) <->
        exists rr row, first_row ref t rr /\ nth i rr None <> None /\ nearest_row (frows f) (List.length (fcols f)) t w row /\ nth j row None <> None)).
    { intros i j p Hp Hi. split.
      - intros ([t' cells] & Et & Hx). cbn in Et. subst t'. apply filter_In in Hx as [Hx Hn]. cbn [snd] in Hn.
        apply in_map_iff in Hx as ([t' r] & Ex & Hr). cbn [fst snd] in Ex. injection Ex as -> <-.
        apply ROW in Hr as [(rr & rs & H1 & H2 & ->) _]. inversion H2 as [|? row ? rs' H3 H4]; subst. inversion H4; subst.
        exists rr, row. assert (L := RL rr H1). cbn [List.concat] in Hn. rewrite app_nil_r in Hn.
        assert (V1 : nth i (rr ++ row) None = nth i rr None) by (apply app_nth1; unfold cell in *; lia).
        assert (V2 : nth (List.length (fcols ref) + j) (rr ++ row) None = nth j row None).
        { rewrite app_nth2 by (unfold cell in *; lia). f_equal. unfold cell in *. lia. }
        assert (notna (nth i rr None) = true /\ notna (nth j row None) = true) as [B1 B2].
        { destruct Hp as [->| ->]; cbn [map forallb] in Hn; rewrite V1, V2 in Hn; rewrite !andb_true_iff in Hn; tauto. }
        split; [exact H1|]. split; [intros C; rewrite C in B1; discriminate|]. split; [exact H3|]. intros C; rewrite C in B2; discriminate.
      - intros (rr & row & H1 & B1 & H3 & B2). assert (L := RL rr H1).
        exists (t, map (fun k => nth k (rr ++ row) None) p). split; [reflexivity|].
        assert (V1 : nth i (rr ++ row) None = nth i rr None) by (apply app_nth1; unfold cell in *; lia).
        assert (V2 : nth (List.length (fcols ref) + j) (rr ++ row) None = nth j row None).
        { rewrite app_nth2 by (unfold cell in *; lia). f_equal. unfold cell in *. lia. }
        apply filter_In. split.
        + apply in_map_iff. exists (t, rr ++ row). split; [reflexivity|]. apply ROW. split.
          * exists rr, [row]. split; [exact H1|]. split; [constructor; [exact H3|constructor]|]. cbn. rewrite app_nil_r. reflexivity.
          * exists (nth i rr None). split; [apply in_or_app; left; apply nth_In; unfold cell in *; lia|exact B1].
        + cbn [snd]. assert (N1 : notna (nth i rr None) = true) by (destruct (nth i rr None); [reflexivity|contradiction]).
          assert (N2 : notna (nth j row None) = true) by (destruct (nth j row None); [reflexivity|contradiction]).
          destruct Hp as [->| ->]; cbn [map forallb]; rewrite V1, V2, N1, N2; reflexivity. }
    assert (exists i j, col_pos rc (fcols ref) = Some i /\ col_pos col (fcols f) = Some j /\
      (ps = [i; List.length (fcols ref) + j]%nat \/ ps = [List.length (fcols ref) + j; i]%nat)) as (i & j & Ei & Ej & Ep).
    { destruct Sh as [->| ->]; inversion FP as [|? p1 ? l1 Q1 FP1]; subst; inversion FP1 as [|? p2 ? l2 Q2 FP2]; subst; inversion FP2; subst;
        rewrite P1, P2 in *; destruct (col_pos rc (fcols ref)) as [i|]; try discriminate; destruct (col_pos col (fcols f)) as [j|]; try discriminate;
        cbn [option_map] in *; exists i, j; (split; [reflexivity|]; split; [reflexivity|]); [left|right]; congruence. }
    rewrite (CORE i j ps Ep (col_pos_lt _ _ _ Ei)). split.
    - intros (rr & row & R1 & R2 & R3 & R4). exists i, j, rr, row. auto 7.
    - intros (i' & j' & rr & row & E1 & E2 & R1 & R2 & R3 & R4). assert (i' = i) by congruence. assert (j' = j) by congruence. subst.
      exists rr, row. auto. }
  assert (SELC : forall rc ds f cols col, In rc rcs -> In (ds, f) masks -> In (ds, cols) mds -> In col cols -> ds <> "_reference"%string ->
     exists cmb, masking_combo mds cmb /\ (cmb = [("_reference"%string, rc); (ds, col)] \/ cmb = [(ds, col); ("_reference"%string, rc)])).
  { intros rc ds f cols col H0 H1 H2 H3 Nd.
    destruct (str_leb_total "_reference" ds) as [L|L].
    - exists [("_reference"%string, rc); (ds, col)]. split; [|left; reflexivity]. split; [|left; reflexivity]. split; [reflexivity|]. split.
      + cbn. repeat constructor; [exact L|congruence].
      + intros d0 c0 [E|[E|[]]]; injection E as <- <-; [exists rcs; cbn; auto|exists cols; auto].
    - exists [(ds, col); ("_reference"%string, rc)]. split; [|right; reflexivity]. split; [|right; left; reflexivity]. split; [reflexivity|]. split.
      + cbn. repeat constructor; [exact L|congruence].
      + intros d0 c0 [E|[E|[]]]; injection E as <- <-; [exists cols; auto|exists rcs; cbn; auto]. }
  split.
  - intros t r KF. destruct (KP1 t r KF) as (cmb & d & MC & Ed & Ht). destruct (masking_combo_shapes mds rcs cmb W ER MC) as (rc & ds & col & Hrc & Nd & (cols & H2 & H3) & Sh).
    assert (Hds : In ds (map fst masks)).
    { apply get_data_ok in Ed. destruct Ed as (key & f' & Hkey & _ & [(x & Hx & Px)|(_ & k0 & f0 & rest & EO' & NL)]).
      - destruct (KL x f' Hx) as (ds' & -> & Hd' & Nd').
        assert (I1 : In ds (map fst cmb)) by (destruct Sh as [->| ->]; cbn; auto).
        apply (Permutation_in _ (Permutation_sym Px)) in I1. destruct I1 as [E|[E|[]]]; [congruence|]. subst ds'.
        unfold dfs in Hd'. rewrite map_app in Hd'. apply in_app_or in Hd' as [Hd'|[Hd'|[]]]; [exact Hd'|cbn in Hd'; congruence].
      - exfalso. apply NL. destruct (KL k0 f0) as (ds' & -> & _); [rewrite EO'; left; reflexivity|]. destruct Sh as [->| ->]; reflexivity. }
    apply in_map_iff in Hds as ([ds' f] & Ef & Hf). cbn in Ef. subst ds'.
    apply (DATA rc ds f col cmb d t Hf Nd Sh Ed) in Ht. destruct Ht as (i & j & rr & row & R0 & R1 & R2 & R3 & R4 & R5).
    exists rc, i. split; [exact Hrc|]. split; [exact R0|]. exists ds, f, cols, col, j, rr, row. auto 9.
  - intros t r ds f cols col j row H1 H2 H3 Ej NR' NV (rr & FRr & ALLV).
    assert (Nd : ds <> "_reference"%string) by (intros ->; apply NR, in_map_iff; exists ("_reference"%string, f); auto).
    destruct rcs as [|rc0 rcs']; [contradiction|]. set (rcs := rc0 :: rcs') in *.
    destruct (SELC rc0 ds f cols col (or_introl eq_refl) H1 H2 H3 Nd) as (cmb0 & MC0 & Sh0).
    destruct (ALLV rc0 (or_introl eq_refl)) as (i0 & Ei0 & Vi0).
    assert (HT : forall rc cmb d, In rc rcs -> (cmb = [("_reference"%string, rc); (ds, col)] \/ cmb = [(ds, col); ("_reference"%string, rc)]) ->
      get_data_for_result_tuple (c_tref c) out cmb = Ok (Some d) -> In t (findex d)).
    { intros rc cmb d Hrc Sh Ed. apply (DATA rc ds f col cmb d t H1 Nd Sh Ed). destruct (ALLV rc Hrc) as (i & Ei & Vi). exists i, j, rr, row. auto 9. }
    assert (HK : forall rc cmb, (cmb = [("_reference"%string, rc); (ds, col)] \/ cmb = [(ds, col); ("_reference"%string, rc)]) -> forall k, In k (combo_column cmb) <-> k = (ds, col)).
    { intros rc cmb Sh k. assert (E := Nd). apply String.eqb_neq in E. destruct Sh as [->| ->]; cbn; rewrite E; cbn; intuition congruence. }
    destruct (TOT cmb0 MC0) as [[d0|] Ed0].
    + assert (T0 := HT rc0 cmb0 d0 (or_introl eq_refl) Sh0 Ed0).
      apply (KP2 t r (ds, col) cmb0 d0 MC0); [apply (HK rc0 cmb0 Sh0); reflexivity|exact Ed0|intros C; unfold findex in T0; rewrite C in T0; contradiction|].
      intros cmb d MC Kc Ed NE. destruct (masking_combo_shapes mds rcs cmb W ER MC) as (rc & ds' & col' & Hrc & Nd' & _ & Sh).
      assert (E : (ds', col') = (ds, col)).
      { assert (E := Nd'). apply String.eqb_neq in E. destruct Sh as [->| ->]; cbn in Kc; rewrite E in Kc; cbn in Kc; destruct Kc as [Kc|[]]; exact Kc. }
      injection E as -> ->. exact (HT rc cmb d Hrc Sh Ed).
    + exfalso. destruct (FR ds f H1) as (fm & _ & ROW & Y & _).
      assert (HH : In (["_reference"%string; ds], fm) out).
      { apply Y. intros C. assert (Hr : In (t, rr ++ row) (frows fm)).
        { apply ROW. split.
          - exists rr, [row]. split; [exact FRr|]. split; [constructor; [exact NR'|constructor]|]. cbn. rewrite app_nil_r. reflexivity.
          - exists (nth i0 rr None). split; [|exact Vi0]. apply in_or_app. left. apply nth_In.
            destruct (Nat.ltb_spec i0 (List.length rr)) as [L|L]; [exact L|]. exfalso. apply Vi0. apply nth_overflow. exact L. }
        rewrite C in Hr. contradiction. }
      apply (get_data_none _ _ _ Ed0 _ _ HH). destruct Sh0 as [->| ->]; cbn; [reflexivity|constructor].
Qed.
End Mask.
