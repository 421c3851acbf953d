(* Proofs about the masking of the reference by masking datasets. *)
From Verif Require Import MatchersSpec ValidationSpec BaseProofs SortProofs NamesProofs GroupingProofs MatchersProofs ValidationProofs ValidationProofs2.
From Verif Require Import TemporalModel TemporalSpec.

Lemma pair_eqb_spec a b : pair_eqb a b = true <-> a = b.
Proof.
  destruct a as [a1 a2], b as [b1 b2]. unfold pair_eqb. cbn. rewrite andb_true_iff, !String.eqb_eq. split; [intros [-> ->]; reflexivity|intros [= -> ->]; auto].
Qed.
Lemma dict_set_new {K V} (eqb : K -> K -> bool) (Heq : forall a b, eqb a b = true <-> a = b) (d : list (K * V)) k v :
  ~ In k (map fst d) -> dict_set eqb d k v = d ++ [(k, v)].
Proof.
  induction d as [|[k' v'] d IH]; cbn; intros H; [reflexivity|]. destruct (eqb k' k) eqn:E.
  - apply Heq in E. subst. exfalso. apply H. left. reflexivity.
  - rewrite IH; [reflexivity|]. intros C. apply H. right. exact C.
Qed.
Lemma dict_set_map {K V W} (eqb : K -> K -> bool) (f : V -> W) (d : list (K * V)) k v :
  map (fun e => (fst e, f (snd e))) (dict_set eqb d k v) = dict_set eqb (map (fun e => (fst e, f (snd e))) d) k (f v).
Proof. induction d as [|[k' v'] d IH]; cbn; [reflexivity|]. destruct (eqb k' k); cbn; [reflexivity|]. rewrite IH. reflexivity. Qed.
Lemma dict_set_fold_map {K V W} (eqb : K -> K -> bool) (f : V -> W) (l : list (K * V)) acc :
  fold_left (fun d kb => dict_set eqb d (fst kb) (snd kb)) (map (fun e => (fst e, f (snd e))) l) (map (fun e => (fst e, f (snd e))) acc) =
  map (fun e => (fst e, f (snd e))) (fold_left (fun d kb => dict_set eqb d (fst kb) (snd kb)) l acc).
Proof. revert acc. induction l as [|[k v] l IH]; intros acc; cbn; [reflexivity|]. rewrite <- IH, dict_set_map. reflexivity. Qed.
Definition functional {K V} (l : list (K * V)) : Prop := forall k v v', In (k, v) l -> In (k, v') l -> v = v'.
Lemma dict_set_fun {K V} (eqb : K -> K -> bool) (Heq : forall a b, eqb a b = true <-> a = b) (d : list (K * V)) k v e :
  functional ((k, v) :: d) -> (In e (dict_set eqb d k v) <-> In e d \/ e = (k, v)).
Proof.
  induction d as [|[k' v'] d IH]; intros F; cbn; [intuition congruence|].
  assert (F' : functional ((k, v) :: d)) by (intros a b b' [Ha|Ha] [Hb|Hb]; apply (F a); cbn; auto).
  destruct (eqb k' k) eqn:E; cbn; [|rewrite (IH F'); intuition congruence].
  apply Heq in E. subst k'. assert (v' = v) by (apply (F k); cbn; auto). subst. intuition congruence.
Qed.
Lemma dict_set_fold {K V} (eqb : K -> K -> bool) (Heq : forall a b, eqb a b = true <-> a = b) (l acc : list (K * V)) e :
  functional (acc ++ l) -> (In e (fold_left (fun d kb => dict_set eqb d (fst kb) (snd kb)) l acc) <-> In e (acc ++ l)).
Proof.
  revert acc. induction l as [|[k v] l IH]; intros acc F; cbn; [rewrite app_nil_r; reflexivity|].
  assert (F1 : functional ((k, v) :: acc)).
  { intros a b b' Ha Hb. apply (F a); apply in_or_app; cbn; destruct Ha, Hb; auto. }
  assert (I : forall x, In x (dict_set eqb acc k v) <-> In x acc \/ x = (k, v)) by (intros; apply dict_set_fun; assumption).
  rewrite IH.
  - rewrite !in_app_iff, I. cbn. intuition congruence.
  - intros a b b' Ha Hb. apply in_app_or in Ha, Hb. rewrite I in Ha, Hb. apply (F a); apply in_or_app; cbn; intuition congruence.
Qed.
Lemma map2_map {A B C D} (f : B -> C -> D) (g : A -> B) (h : A -> C) l : map2 f (map g l) (map h l) = map (fun x => f (g x) (h x)) l.
Proof. induction l as [|x l IH]; cbn; [reflexivity|]. rewrite IH. reflexivity. Qed.
Lemma all_columns {A} (ps : list (A -> bool)) (rows : list A) :
  fold_right (map2 andb) (map (fun _ => true) rows) (map (fun p => map p rows) ps) = map (fun x => forallb (fun p => p x) ps) rows.
Proof.
  induction ps as [|p ps IH]; cbn; [reflexivity|]. rewrite IH, map2_map. reflexivity.
Qed.
Lemma mask_select_map {A} (p : A -> bool) l : mask_select (map p l) l = filter p l.
Proof. induction l as [|x l IH]; cbn; [reflexivity|]. rewrite IH. reflexivity. Qed.

Lemma unique_value {K V} (l : list (K * V)) k v v' : NoDup (map fst l) -> In (k, v) l -> In (k, v') l -> v = v'.
Proof.
  induction l as [|[a b] l IH]; cbn; intros N H H'; [contradiction|]. apply NoDup_cons_iff in N as [N1 N2].
  destruct H as [H|H], H' as [H'|H'].
  - congruence.
  - injection H as -> ->. exfalso. apply N1, in_map_iff. exists (k, v'). auto.
  - injection H' as -> ->. exfalso. apply N1, in_map_iff. exists (k, v). auto.
  - exact (IH N2 H H').
Qed.

(* a masking combination: the reference column and one masking column *)
Definition masking_combo (mds : ds_dict) (cmb : list dscol) : Prop :=
  selection mds 2 cmb /\ In "_reference"%string (map fst cmb).

Lemma masking_combo_shape mds rc cmb : wf_dict mds -> columns_of mds "_reference" = Some [rc] -> masking_combo mds cmb ->
  exists ds col, ds <> "_reference"%string /\ (exists cols, In (ds, cols) mds /\ In col cols) /\
    (cmb = [("_reference"%string, rc); (ds, col)] \/ cmb = [(ds, col); ("_reference"%string, rc)]).
Proof.
  intros [N _] ER [(L & S & Hc) Hin]. apply columns_of_in in ER; [|exact N].
  destruct cmb as [|[d1 c1] [|[d2 c2] [|? ?]]]; try discriminate. clear L.
  cbn in S. inversion S as [|? ? S1 F]; subst. inversion F as [|? ? [F1 F2] _]; subst.
  assert (RC : forall c, (exists cols, In ("_reference"%string, cols) mds /\ In c cols) -> c = rc).
  { intros c (cols & H1 & H2). apply columns_of_in in H1, ER; try exact N.
    assert (cols = [rc]) by congruence. subst. destruct H2 as [<-|[]]. reflexivity. }
  destruct Hin as [E|[E|[]]]; cbn in E; subst.
  - exists d2, c2. split; [congruence|]. split; [apply Hc; right; left; reflexivity|]. left.
    rewrite (RC c1); [reflexivity|]. apply Hc. left. reflexivity.
  - exists d1, c1. split; [congruence|]. split; [apply Hc; left; reflexivity|]. right.
    rewrite (RC c2); [reflexivity|]. apply Hc. right. left. reflexivity.
Qed.

Section Mask.
Context {G V : Type}.
Notation config := (@config G V).

Definition combo_column (cmb : list dscol) : list dscol := filter (fun k => negb (String.eqb (fst k) "_reference")) cmb.
Lemma combo_column_keys {X} (x : X) (cmb : list dscol) :
  flat_map (fun key : dscol => if String.eqb (fst key) "_reference" then [] else [(key, x)]) cmb = map (fun k => (k, x)) (combo_column cmb).
Proof. unfold combo_column. induction cmb as [|k cmb IH]; cbn; [reflexivity|]. rewrite IH. destruct (String.eqb (fst k) "_reference"); reflexivity. Qed.


Lemma combo_by_column mds rc a b k : wf_dict mds -> columns_of mds "_reference" = Some [rc] ->
  masking_combo mds a -> masking_combo mds b -> In k (combo_column a) -> In k (combo_column b) -> a = b.
Proof.
  intros W ER Ha Hb Ka Kb.
  destruct (masking_combo_shape mds rc a W ER Ha) as (d1 & c1 & N1 & _ & S1).
  destruct (masking_combo_shape mds rc b W ER Hb) as (d2 & c2 & N2 & _ & S2).
  assert (E1 : combo_column a = [(d1, c1)]) by (apply String.eqb_neq in N1; destruct S1 as [->| ->]; cbn; rewrite N1; reflexivity).
  assert (E2 : combo_column b = [(d2, c2)]) by (apply String.eqb_neq in N2; destruct S2 as [->| ->]; cbn; rewrite N2; reflexivity).
  rewrite E1 in Ka. rewrite E2 in Kb. destruct Ka as [<-|[]], Kb as [E|[]]. injection E as -> ->.
  destruct Ha as [(_ & Sa & _) _], Hb as [(_ & Sb & _) _].
  destruct S1 as [->| ->], S2 as [->| ->]; try reflexivity; exfalso; cbn in Sa, Sb;
    inversion Sa as [|? ? _ Fa]; inversion Sb as [|? ? _ Fb]; subst; inversion Fa as [|? ? [A1 A2] _]; inversion Fb as [|? ? [B1 B2] _]; subst;
    apply A2, str_leb_antisym; assumption.
Qed.

Lemma mask_exact (c : config) mds gm ref g rc masked :
  wf_dict mds -> columns_of mds "_reference" = Some [rc] -> mask_dataset c mds gm ref g = Ok masked ->
  exists matched, match_masking c gm ref g = Ok matched /\ fcols masked = fcols ref /\
    (forall cmb, masking_combo mds cmb -> exists o, get_data_for_result_tuple (c_tref c) matched cmb = Ok o) /\
    exists keep, frows masked = filter keep (frows ref) /\
      forall t r, keep (t, r) = true <->
        forall cmb d, masking_combo mds cmb -> get_data_for_result_tuple (c_tref c) matched cmb = Ok (Some d) -> ~ In t (findex d).
Proof.
  intros W ER H. unfold mask_dataset in H. destruct (match_masking c gm ref g) as [matched|] eqn:EM; [|discriminate]. cbn [bindR] in H.
  assert (HR : In "_reference"%string (map fst mds)).
  { apply columns_of_in in ER; [|apply W]. apply in_map_iff. exists ("_reference"%string, [rc]). auto. }
  destruct (names_spec mds "_reference" 2 W (le_S _ _ (le_n 1)) HR) as (names & EN & NN & IN). rewrite EN in H. cbn [bindR] in H.
  destruct (seqR _) as [datas|] eqn:ES in H; [|discriminate]. cbn [bindR] in H. apply seqR_forall2 in ES.
  exists matched. split; [reflexivity|]. split; [injection H as <-; reflexivity|].
  assert (FD : Forall2 (fun cmb d => snd d = cmb /\ get_data_for_result_tuple (c_tref c) matched cmb = Ok (fst d)) names datas).
  { clear -ES. induction ES as [|a b l m Hab F IH]; constructor; [|exact IH].
    destruct (extract c false matched a) as [o|] eqn:E; [|discriminate]. cbn in Hab. injection Hab as <-. cbn. split; [reflexivity|].
    unfold extract in E. destruct (c_scale c); exact E. }
  split.
  { intros cmb Hc. apply (proj2 (IN cmb)) in Hc. clear -FD Hc. induction FD as [|a b l m [E1 E2] F IH]; [contradiction|].
    destruct Hc as [<-|Hc]; [eauto|apply IH, Hc]. }
  set (L := flat_map (fun dr : option frame * list dscol => match fst dr with None => [] | Some data =>
              if Nat.eqb (List.length (frows data)) 0 then [] else map (fun k => (k, data)) (combo_column (snd dr)) end) datas).
  assert (EL : flat_map (fun dr : option frame * list dscol =>
      match fst dr with
      | None => []
      | Some data =>
          if Nat.eqb (List.length (frows data)) 0 then []
          else flat_map (fun key : dscol => if String.eqb (fst key) "_reference" then [] else [(key, choose_column data ref)]) (snd dr)
      end) datas = map (fun e => (fst e, choose_column (snd e) ref)) L).
  { subst L. clear. induction datas as [|[o cmb] datas IH]; [reflexivity|]. cbn [flat_map fst snd]. rewrite map_app, IH. f_equal.
    destruct o as [d|]; [|reflexivity]. destruct (Nat.eqb (List.length (frows d)) 0); [reflexivity|]. rewrite combo_column_keys, map_map. reflexivity. }
  assert (IL : forall k d, In (k, d) L <-> exists cmb, masking_combo mds cmb /\ In k (combo_column cmb) /\ frows d <> [] /\
             get_data_for_result_tuple (c_tref c) matched cmb = Ok (Some d)).
  { intros k d. subst L. rewrite in_flat_map. split.
    - intros ([o cmb] & Hin & Hk). cbn [fst snd] in Hk. destruct o as [d'|]; [|contradiction].
      destruct (Nat.eqb (List.length (frows d')) 0) eqn:E0; [contradiction|]. apply in_map_iff in Hk as (k' & Ek & Hk). injection Ek as -> ->.
      exists cmb. assert (In cmb names /\ get_data_for_result_tuple (c_tref c) matched cmb = Ok (Some d)) as [Hn Hg].
      { clear -FD Hin. induction FD as [|a b l m [E1 E2] F IH]; [contradiction|]. destruct Hin as [->|Hin].
        - cbn in E1, E2. subst. split; [left; reflexivity|exact E2].
        - destruct (IH Hin). split; [right; assumption|assumption]. }
      split; [apply IN, Hn|]. split; [exact Hk|]. split; [intros C; rewrite C in E0; discriminate|exact Hg].
    - intros (cmb & Hm & Hk & NE & Hg). exists (Some d, cmb). cbn [fst snd]. apply (proj2 (IN cmb)) in Hm. split.
      + clear -FD Hm Hg. induction FD as [|a b l m [E1 E2] F IH]; [contradiction|]. destruct Hm as [->|Hm]; [|right; apply IH, Hm].
        left. rewrite Hg in E2. destruct b as [o cmb']. cbn in E1, E2. congruence.
      + destruct (Nat.eqb (List.length (frows d)) 0) eqn:E0; [destruct (frows d); [contradiction|discriminate]|].
        apply in_map_iff. exists k. auto. }
  assert (FL : functional L).
  { intros k d d' H1 H2. apply IL in H1, H2. destruct H1 as (a & Ma & Ka & _ & Ga), H2 as (b & Mb & Kb & _ & Gb).
    assert (a = b) by (eapply combo_by_column; eassumption). subst. congruence. }
  cbv zeta in H. rewrite EL in H. assert (DM := dict_set_fold_map pair_eqb (fun d => choose_column d ref) L []). cbn [map] in DM. rewrite DM in H.
  assert (IR := fun e => dict_set_fold pair_eqb pair_eqb_spec L [] e FL). cbn [app] in IR.
  set (R := fold_left (fun d kb => dict_set pair_eqb d (fst kb) (snd kb)) L []) in *.
  rewrite map_map in H. cbn [snd] in H.
  assert (ER' : map (fun x : dscol * frame => choose_column (snd x) ref) R = map (fun p => map p (frows ref)) (map (fun x : dscol * frame => fun tr : Z * row => negb (existsb (Z.eqb (fst tr)) (findex (snd x)))) R)).
  { rewrite map_map. apply map_ext. intros x. reflexivity. }
  rewrite ER', all_columns in H. injection H as <-. cbn [frows].
  rewrite mask_select_map. eexists. split; [reflexivity|].
  intros t r. cbv beta. rewrite forallb_forall. split.
  - intros HA cmb d Hm Hg Ht.
    assert (NE : frows d <> []) by (intros C; unfold findex in Ht; rewrite C in Ht; contradiction).
    destruct (masking_combo_shape mds rc cmb W ER Hm) as (ds & col & Nd & _ & Sh).
    assert (Hk : In (ds, col) (combo_column cmb)) by (apply String.eqb_neq in Nd; destruct Sh as [->| ->]; cbn; rewrite Nd; left; reflexivity).
    assert (HL : In ((ds, col), d) R) by (apply IR, IL; exists cmb; auto).
    specialize (HA (fun tr => negb (existsb (Z.eqb (fst tr)) (findex d)))). cbv beta in HA. cbn [fst] in HA.
    assert (C : negb (existsb (Z.eqb t) (findex d)) = true).
    { apply HA. apply in_map_iff. exists ((ds, col), d). split; [reflexivity|exact HL]. }
    apply negb_true_iff in C. assert (C' : existsb (Z.eqb t) (findex d) = true) by (apply existsb_exists; exists t; split; [exact Ht|apply Z.eqb_refl]). congruence.
  - intros HA p Hp. apply in_map_iff in Hp as ([k d] & <- & Hin). cbn [fst snd]. apply IR, IL in Hin.
    destruct Hin as (cmb & Hm & _ & _ & Hg). apply negb_true_iff. destruct (existsb (Z.eqb t) (findex d)) eqn:E; [|reflexivity].
    exfalso. apply existsb_exists in E as (t' & Ht & E). apply Z.eqb_eq in E. subst t'. exact (HA cmb d Hm Hg Ht).
Qed.

Lemma col_pos_app c l m : col_pos c (l ++ m) = match col_pos c l with Some i => Some i | None => option_map (Nat.add (List.length l)) (col_pos c m) end.
Proof.
  induction l as [|x l IH]; cbn; [destruct (col_pos c m); reflexivity|]. destruct (String.eqb c x); [reflexivity|]. rewrite IH.
  destruct (col_pos c l); [reflexivity|]. destruct (col_pos c m); reflexivity.
Qed.
Lemma col_pos_named ds col e : col_pos (tup ds col) (columns_named e) = if String.eqb ds (fst e) then col_pos col (fcols (snd e)) else None.
Proof.
  unfold columns_named. induction (fcols (snd e)) as [|x l IH]; cbn; [destruct (String.eqb ds (fst e)); reflexivity|].
  rewrite IH. destruct (String.eqb_spec (tup ds col) (tup (fst e) x)) as [E|N].
  - apply tup_inj in E as [-> ->]. rewrite !String.eqb_refl. reflexivity.
  - destruct (String.eqb_spec ds (fst e)) as [->|N2]; [|reflexivity]. destruct (String.eqb_spec col x) as [->|N3]; [contradiction|reflexivity].
Qed.
Lemma col_pos_lt c l i : col_pos c l = Some i -> (i < List.length l)%nat.
Proof. intros H. apply col_pos_nth in H. apply nth_error_Some. congruence. Qed.

(* what masking does with the combinatory matcher: the values of the masking data play no role *)
Lemma mask_combinatory (c : config) store oob w mds gm ref g rc masks masked :
  (forall d r n, c_match c d r n = combinatory_matcher store oob w d r n) ->
  wf_dict mds -> columns_of mds "_reference" = Some [rc] ->
  gm g = Ok masks -> NoDup (map fst masks) -> ~ In "_reference"%string (map fst masks) ->
  wf_frame ref -> (forall k f, In (k, f) masks -> usable f) ->
  mask_dataset c mds gm ref g = Ok masked ->
  exists keep, frows masked = filter keep (frows ref) /\
   forall t r, keep (t, r) = true <->
    ~ (exists ds f cols col i j rr row, In (ds, f) masks /\ In (ds, cols) mds /\ In col cols /\
         col_pos rc (fcols ref) = Some i /\ col_pos col (fcols f) = Some j /\
         first_row ref t rr /\ nth i rr None <> None /\
         nearest_row (frows f) (List.length (fcols f)) t w row /\ nth j row None <> None).
Proof.
  intros HM W ER EG NM NR WR US H.
  destruct (mask_exact c mds gm ref g rc masked W ER H) as (matched & MM & _ & TOT & keep & EK & KP).
  exists keep. split; [exact EK|]. clear EK H. intros t r. rewrite KP. clear KP keep masked r.
  unfold match_masking in MM. rewrite EG in MM. cbn [bindR] in MM.
  rewrite (dict_set_new String.eqb String.eqb_eq masks _ ref NR), HM in MM.
  set (dfs := masks ++ [("_reference"%string, ref)]) in *.
  assert (ND : NoDup (map fst dfs)).
  { unfold dfs. rewrite map_app. apply nodup_app; [exact NM|repeat constructor; intros []|]. intros x Hx [<-|[]]. exact (NR Hx). }
  assert (IR : In ("_reference"%string, ref) dfs) by (apply in_or_app; right; left; reflexivity).
  assert (US' : forall k f, In (k, f) dfs -> k <> "_reference"%string -> usable f).
  { intros k f Hin Nk. apply in_app_or in Hin as [Hin|[Hin|[]]]; [eapply US, Hin|congruence]. }
  destruct (combinatory_spec store oob w dfs "_reference" 2 ref ND IR (le_S _ _ (le_n 1)) US') as (out & EO & NO & KO & SO).
  assert (matched = out) by congruence. subst matched. clear MM.
  assert (KL : forall key f, In (key, f) out -> exists ds, key = ["_reference"%string; ds] /\ In ds (map fst dfs) /\ ds <> "_reference"%string).
  { intros key f Hin. destruct (KO key f Hin) as (s & -> & L & _ & Hs). destruct s as [|ds [|? ?]]; try discriminate.
    exists ds. split; [reflexivity|]. apply Hs. left. reflexivity. }
  (* the matched frame of one masking dataset *)
  assert (FR : forall ds f, In (ds, f) masks -> exists fm,
      fcols fm = columns_named ("_reference"%string, ref) ++ columns_named (ds, f) /\
      (forall t r, In (t, r) (frows fm) <-> matched_row ref [f] w t r /\ exists c, In c r /\ c <> None) /\
      (frows fm <> [] -> In (["_reference"%string; ds], fm) out) /\ (frows fm = [] -> ~ In ["_reference"%string; ds] (map fst out))).
  { intros ds f Hin. assert (Nd : ds <> "_reference"%string) by (intros ->; apply NR, in_map_iff; exists ("_reference"%string, f); auto).
    destruct (SO [ds]) as (fm & _ & EC & ROW & Y & N).
    { split; [reflexivity|]. split; [repeat constructor|]. intros x [<-|[]]. split; [|exact Nd].
      unfold dfs. rewrite map_app. apply in_or_app. left. apply in_map_iff. exists (ds, f). auto. }
    assert (EP : pick dfs [ds] = [(ds, f)]).
    { unfold pick, dfs. rewrite filter_app.
      rewrite (filter_none _ [("_reference"%string, ref)]), app_nil_r by (intros [k2 f2] [[= <- <-]|[]]; cbn [existsb fst]; rewrite orb_false_r; apply String.eqb_neq; congruence).
      clear -NM Hin.
      induction masks as [|[k f'] masks IH]; [contradiction|]. cbn in *. apply NoDup_cons_iff in NM as [N1 N2].
      destruct Hin as [[= -> ->]|Hin].
      - rewrite String.eqb_refl. cbn. f_equal. apply filter_none. intros [k2 f2] H2. cbn. rewrite orb_false_r. apply String.eqb_neq. intros ->.
        apply N1, in_map_iff. exists (ds, f2). auto.
      - rewrite (IH N2 Hin). destruct (String.eqb_spec k ds) as [->|N]; [|reflexivity]. exfalso. apply N1, in_map_iff. exists (ds, f). auto. }
    rewrite EP in *. cbn [map flat_map snd] in *. rewrite app_nil_r in EC. exists fm. auto. }
  (* the data extracted for one combination *)
  assert (DATA : forall ds f col cmb d, In (ds, f) masks -> ds <> "_reference"%string ->
      (cmb = [("_reference"%string, rc); (ds, col)] \/ cmb = [(ds, col); ("_reference"%string, rc)]) ->
      get_data_for_result_tuple (c_tref c) out cmb = Ok (Some d) ->
      (In t (findex d) <-> exists i j rr row, col_pos rc (fcols ref) = Some i /\ col_pos col (fcols f) = Some j /\
          first_row ref t rr /\ nth i rr None <> None /\
          nearest_row (frows f) (List.length (fcols f)) t w row /\ nth j row None <> None)).
  { intros ds f col cmb d Hin Nd Sh Hd. destruct (FR ds f Hin) as (fm & EC & ROW & Y & N).
    apply get_data_ok in Hd. destruct Hd as (key & f' & Hkey & CR & Alt).
    assert (f' = fm) as ->.
    { destruct Alt as [(x & Hx & Px)|(_ & k0 & f0 & rest & EO' & NL)].
      - destruct (KL x f' Hx) as (ds' & -> & _ & Nd').
        assert (ds' = ds).
        { assert (I1 : In ds (map fst cmb)) by (destruct Sh as [->| ->]; cbn; auto).
          apply (Permutation_in _ (Permutation_sym Px)) in I1. destruct I1 as [E|[E|[]]]; congruence. }
        subst ds'.
        assert (HH : In (["_reference"%string; ds], fm) out).
        { apply Y. intros C. apply (N C). apply in_map_iff. exists (["_reference"%string; ds], f'). auto. }
        exact (unique_value out _ f' fm NO Hx HH).
      - exfalso. apply NL. destruct (KL k0 f0) as (ds' & -> & _); [rewrite EO'; left; reflexivity|]. destruct Sh as [->| ->]; reflexivity. }
    clear Alt Hkey Y N. destruct CR as (_ & ps & FP & ERo).
    assert (P1 : col_pos (enc ("_reference"%string, rc)) (fcols fm) = col_pos rc (fcols ref)).
    { unfold enc. cbn [fst snd]. rewrite EC, col_pos_app, !col_pos_named. cbn [fst snd]. rewrite String.eqb_refl.
      assert (E : String.eqb "_reference" ds = false) by (apply String.eqb_neq; congruence). rewrite E. destruct (col_pos rc (fcols ref)); reflexivity. }
    assert (P2 : col_pos (enc (ds, col)) (fcols fm) = option_map (Nat.add (List.length (fcols ref))) (col_pos col (fcols f))).
    { unfold enc. cbn [fst snd]. rewrite EC, col_pos_app, !col_pos_named. cbn [fst snd]. rewrite String.eqb_refl.
      apply String.eqb_neq in Nd. rewrite Nd. unfold columns_named. rewrite map_length. reflexivity. }
    assert (RL : forall rr, first_row ref t rr -> List.length rr = List.length (fcols ref)).
    { intros rr Hr. apply find_some in Hr as [Hr _]. exact (WR t rr Hr). }
    unfold findex. rewrite ERo. rewrite in_map_iff.
    assert (CORE : forall i j p, p = [i; List.length (fcols ref) + j]%nat \/ p = [List.length (fcols ref) + j; i]%nat ->
       (i < List.length (fcols ref))%nat ->
       ((exists x, fst x = t /\ In x (filter (fun tr => forallb notna (snd tr)) (map (fun tr : Z * row => (fst tr, map (fun k => nth k (snd tr) None) p)) (frows fm)))) <->
        exists rr row, first_row ref t rr /\ nth i rr None <> None /\ nearest_row (frows f) (List.length (fcols f)) t w row /\ nth j row None <> None)).
    { intros i j p Hp Hi. split.
      - intros ([t' cells] & Et & Hx). cbn in Et. subst t'. apply filter_In in Hx as [Hx Hn]. cbn [snd] in Hn.
        apply in_map_iff in Hx as ([t' r] & Ex & Hr). cbn [fst snd] in Ex. injection Ex as -> <-.
        apply ROW in Hr as [(rr & rs & H1 & H2 & ->) _]. inversion H2 as [|? row ? rs' H3 H4]; subst. inversion H4; subst.
        exists rr, row. assert (L := RL rr H1). cbn [List.concat] in Hn. rewrite app_nil_r in Hn.
        assert (V1 : nth i (rr ++ row) None = nth i rr None) by (apply app_nth1; unfold cell in *; lia).
        assert (V2 : nth (List.length (fcols ref) + j) (rr ++ row) None = nth j row None).
        { rewrite app_nth2 by (unfold cell in *; lia). f_equal. unfold cell in *. lia. }
        assert (notna (nth i rr None) = true /\ notna (nth j row None) = true) as [B1 B2].
        { destruct Hp as [->| ->]; cbn [map forallb] in Hn; rewrite V1, V2 in Hn; rewrite !andb_true_iff in Hn; tauto. }
        split; [exact H1|]. split; [intros C; rewrite C in B1; discriminate|]. split; [exact H3|]. intros C; rewrite C in B2; discriminate.
      - intros (rr & row & H1 & B1 & H3 & B2). assert (L := RL rr H1).
        exists (t, map (fun k => nth k (rr ++ row) None) p). split; [reflexivity|].
        assert (V1 : nth i (rr ++ row) None = nth i rr None) by (apply app_nth1; unfold cell in *; lia).
        assert (V2 : nth (List.length (fcols ref) + j) (rr ++ row) None = nth j row None).
        { rewrite app_nth2 by (unfold cell in *; lia). f_equal. unfold cell in *. lia. }
        apply filter_In. split.
        + apply in_map_iff. exists (t, rr ++ row). split; [reflexivity|]. apply ROW. split.
          * exists rr, [row]. split; [exact H1|]. split; [constructor; [exact H3|constructor]|]. cbn. rewrite app_nil_r. reflexivity.
          * exists (nth i rr None). split; [apply in_or_app; left; apply nth_In; unfold cell in *; lia|exact B1].
        + cbn [snd]. assert (N1 : notna (nth i rr None) = true) by (destruct (nth i rr None); [reflexivity|contradiction]).
          assert (N2 : notna (nth j row None) = true) by (destruct (nth j row None); [reflexivity|contradiction]).
          destruct Hp as [->| ->]; cbn [map forallb]; rewrite V1, V2, N1, N2; reflexivity. }
    assert (exists i j, col_pos rc (fcols ref) = Some i /\ col_pos col (fcols f) = Some j /\
      (ps = [i; List.length (fcols ref) + j]%nat \/ ps = [List.length (fcols ref) + j; i]%nat)) as (i & j & Ei & Ej & Ep).
    { destruct Sh as [->| ->]; inversion FP as [|? p1 ? l1 Q1 FP1]; subst; inversion FP1 as [|? p2 ? l2 Q2 FP2]; subst; inversion FP2; subst;
        rewrite P1, P2 in *; destruct (col_pos rc (fcols ref)) as [i|]; try discriminate; destruct (col_pos col (fcols f)) as [j|]; try discriminate;
        cbn [option_map] in *; exists i, j; (split; [reflexivity|]; split; [reflexivity|]); [left|right]; congruence. }
    rewrite (CORE i j ps Ep (col_pos_lt _ _ _ Ei)). split.
    - intros (rr & row & R1 & R2 & R3 & R4). exists i, j, rr, row. auto 7.
    - intros (i' & j' & rr & row & E1 & E2 & R1 & R2 & R3 & R4). assert (i' = i) by congruence. assert (j' = j) by congruence. subst.
      exists rr, row. auto. }
  assert (SELC : forall ds f cols col, In (ds, f) masks -> In (ds, cols) mds -> In col cols -> ds <> "_reference"%string ->
     exists cmb, masking_combo mds cmb /\ (cmb = [("_reference"%string, rc); (ds, col)] \/ cmb = [(ds, col); ("_reference"%string, rc)])).
  { intros ds f cols col H1 H2 H3 Nd. assert (HRc : In ("_reference"%string, [rc]) mds) by (apply columns_of_in; [apply W|exact ER]).
    destruct (str_leb_total "_reference" ds) as [L|L].
    - exists [("_reference"%string, rc); (ds, col)]. split; [|left; reflexivity]. split; [|left; reflexivity]. split; [reflexivity|]. split.
      + cbn. repeat constructor; [exact L|congruence].
      + intros d0 c0 [E|[E|[]]]; injection E as <- <-; [exists [rc]; cbn; auto|exists cols; auto].
    - exists [(ds, col); ("_reference"%string, rc)]. split; [|right; reflexivity]. split; [|right; left; reflexivity]. split; [reflexivity|]. split.
      + cbn. repeat constructor; [exact L|congruence].
      + intros d0 c0 [E|[E|[]]]; injection E as <- <-; [exists cols; auto|exists [rc]; cbn; auto]. }
  split.
  - intros HA (ds & f & cols & col & i & j & rr & row & H1 & H2 & H3 & REST).
    assert (Nd : ds <> "_reference"%string) by (intros ->; apply NR, in_map_iff; exists ("_reference"%string, f); auto).
    destruct (SELC ds f cols col H1 H2 H3 Nd) as (cmb & MC & Sh). destruct (TOT cmb MC) as [[d|] Ed].
    + apply (HA cmb d MC Ed). apply (DATA ds f col cmb d H1 Nd Sh Ed). exists i, j, rr, row. exact REST.
    + (* the matched set exists because its row at t has a value *)
      destruct (FR ds f H1) as (fm & _ & ROW & Y & _). destruct REST as (_ & _ & R1 & R2 & R3 & _).
      assert (HH : In (["_reference"%string; ds], fm) out).
      { apply Y. intros C. assert (Hr : In (t, rr ++ row) (frows fm)).
        { apply ROW. split.
          - exists rr, [row]. split; [exact R1|]. split; [constructor; [exact R3|constructor]|]. cbn. rewrite app_nil_r. reflexivity.
          - exists (nth i rr None). split; [|exact R2]. apply in_or_app. left. apply nth_In.
            destruct (Nat.ltb_spec i (List.length rr)) as [L|L]; [exact L|]. exfalso. apply R2. apply nth_overflow. exact L. }
        rewrite C in Hr. contradiction. }
      apply (get_data_none _ _ _ Ed _ _ HH). destruct Sh as [->| ->]; cbn; [reflexivity|constructor].
  - intros HA cmb d MC Ed Ht. destruct (masking_combo_shape mds rc cmb W ER MC) as (ds & col & Nd & (cols & H2 & H3) & Sh).
    assert (Hds : In ds (map fst masks)).
    { apply get_data_ok in Ed. destruct Ed as (key & f' & Hkey & _ & [(x & Hx & Px)|(_ & k0 & f0 & rest & EO' & NL)]).
      - destruct (KL x f' Hx) as (ds' & -> & Hd' & Nd').
        assert (I1 : In ds (map fst cmb)) by (destruct Sh as [->| ->]; cbn; auto).
        apply (Permutation_in _ (Permutation_sym Px)) in I1. destruct I1 as [E|[E|[]]]; [congruence|]. subst ds'.
        unfold dfs in Hd'. rewrite map_app in Hd'. apply in_app_or in Hd' as [Hd'|[Hd'|[]]]; [exact Hd'|cbn in Hd'; congruence].
      - exfalso. apply NL. destruct (KL k0 f0) as (ds' & -> & _); [rewrite EO'; left; reflexivity|]. destruct Sh as [->| ->]; reflexivity. }
    apply in_map_iff in Hds as ([ds' f] & Ef & Hf). cbn in Ef. subst ds'.
    apply HA. apply (DATA ds f col cmb d Hf Nd Sh Ed) in Ht. destruct Ht as (i & j & rr & row & REST).
    exists ds, f, cols, col, i, j, rr, row. auto.
Qed.
End Mask.
