(* Proofs about validation runs with scaling and masking. *)
From Verif Require Import RunScaleSpec BaseProofs SortProofs NamesProofs TemporalProofs MatchersProofs ValidationProofs ValidationProofs2 ValidationInputProps RunProofs RunProofs2.
From Verif Require Import TemporalModel TemporalSpec.

Lemma foldV_all {A S} (f : S -> A -> vres S) l s r : foldV f s l = VOk r -> forall a, In a l -> exists s1 s2, f s1 a = VOk s2.
Proof.
  revert s. induction l as [|x l IH]; intros s H a I; [destruct I|]. cbn in H. destruct (f s x) as [s1|] eqn:E; [|discriminate]. cbn in H.
  destruct I as [<-|I]; [eauto|eapply IH; eassumption].
Qed.

Section Scale.
Context {G V : Type}.
Variable code : Z -> V.
Notation metrics := (list (field * fval V)).
Notation config := (@config G V).

Lemma sref_pos (c : config) (names : list string) i : NoDup names -> (col_pos (c_sref c) names = Some i <-> nth_error names i = Some (c_sref c)).
Proof.
  generalize (c_sref c). intros x. revert i. induction names as [|y l IH]; intros i N; cbn; [destruct i; split; discriminate|]. apply NoDup_cons_iff in N as [N1 N2].
  destruct (String.eqb_spec x y) as [->|NE].
  - split; [intros [= <-]; reflexivity|]. destruct i as [|i]; cbn; [reflexivity|]. intros E. apply nth_error_In in E. contradiction.
  - destruct i as [|i]; cbn.
    + split; [destruct (col_pos x l); discriminate|intros [= ->]; contradiction].
    + rewrite <- (IH i N2). destruct (col_pos x l); cbn; split; congruence.
Qed.

(* one combination: either it is handled, or its scaling fails *)
Lemma validate_key_split (c : config) (F : nat -> list field) rn oref g k f matched key d names : regular (F k) f ->
  extract c true matched key = Ok (Some d) -> drop_multiindex d = mkFrame names (frows d) -> (c_scale c <> None -> In (c_sref c) names) ->
  (exists o, validate_key code c true rn oref g f matched key = VOk o) \/
  (validate_key code c true rn oref g f matched key = VErr (VError SCALING_FAILED) /\ skip_key c oref key = false /\ frows d <> [] /\
   exists scale i e, c_scale c = Some scale /\ col_pos (c_sref c) names = Some i /\ scale (mkFrame names (frows d)) i g = Err e).
Proof.
  intros (N & HS & HT & HE & HF) EX DM SR. unfold validate_key. rewrite EX. cbn [liftR bindV].
  destruct (skip_key c oref key); [eauto|].
  assert (D : forall s, exists o, bindV (liftR (f (empty_frame key) g)) (fun m => liftR (mapR Some (set_status_name (code s) m))) = VOk o).
  { intros s. destruct (HE (empty_frame key) g eq_refl) as (m & Em). rewrite Em. cbn [liftR bindV].
    destruct (fills_set_name (F k) (code s) m (HF _ _ _ Em) HS) as (m' & -> & _). cbn. eauto. }
  destruct (Nat.eqb_spec (List.length (frows d)) 0) as [E0|E0]; [left; apply D|]. rewrite DM. cbn [fcols].
  destruct (c_scale c) as [scale|] eqn:SC; cbn [bindV].
  - destruct (proj1 (col_pos_in (c_sref c) names)) as (i & Hi); [apply SR; discriminate|]. unfold index_of. rewrite Hi. cbn [liftR bindV].
    destruct (scale (mkFrame names (frows d)) i g) as [sc|e] eqn:ES; cbn [raise_as bindV].
    + left. match goal with |- context [f ?a g] => destruct (f a g) end; [eauto|apply D].
    + right. split; [reflexivity|]. split; [reflexivity|]. split; [intros E; rewrite E in E0; apply E0; reflexivity|]. eauto 6.
  - left. match goal with |- context [f ?a g] => destruct (f a g) end; [eauto|apply D].
Qed.
Lemma validate_key_unscalable (c : config) ig rn oref g f matched key d names scale i e : extract c true matched key = Ok (Some d) ->
  drop_multiindex d = mkFrame names (frows d) -> skip_key c oref key = false -> frows d <> [] -> c_scale c = Some scale -> col_pos (c_sref c) names = Some i ->
  scale (mkFrame names (frows d)) i g = Err e -> validate_key code c ig rn oref g f matched key = VErr (VError SCALING_FAILED).
Proof.
  intros EX DM SK NE SC Hi ES. unfold validate_key. rewrite EX. cbn [liftR bindV]. rewrite SK.
  destruct (Nat.eqb_spec (List.length (frows d)) 0) as [E0|E0]; [destruct (frows d); [contradiction|discriminate]|].
  rewrite SC, DM. cbn [fcols]. unfold index_of. rewrite Hi. cbn [liftR bindV]. rewrite ES. reflexivity.
Qed.
Lemma jobs_all_keys (c : config) ig rn oref g cm res0 r : wf_dict (c_ds c) -> jobs_loop code c ig rn oref g cm res0 = VOk r ->
  forall n k f matched key, In (((n, k), f), matched) cm -> (1 <= k)%nat -> selection (c_ds c) k key ->
  exists o, validate_key code c ig rn oref g f matched key = VOk o.
Proof.
  intros W H n k f matched key I K SEL. destruct (foldV_all _ _ _ _ H _ I) as (s1 & s2 & E). cbn beta in E.
  destruct (Nat.eqb (List.length matched) 0); [discriminate|].
  destruct (names_of_spec c k W K) as (En & _ & IN). rewrite En in E. cbn [liftR bindV] in E.
  destruct (foldV_all _ _ _ _ E key (proj2 (IN key) SEL)) as (t1 & t2 & E2). cbn beta in E2.
  destruct (validate_key code c ig rn oref g f matched key); [eauto|discriminate].
Qed.
Lemma jobs_error (c : config) rn oref g cm res0 x : wf_dict (c_ds c) -> jobs_loop code c true rn oref g cm res0 = VErr x ->
  (forall n k f matched, In (((n, k), f), matched) cm -> (1 <= k)%nat /\ matched <> []) ->
  exists n k f matched key, In (((n, k), f), matched) cm /\ selection (c_ds c) k key /\ validate_key code c true rn oref g f matched key = VErr x.
Proof.
  intros W H K. apply foldV_err in H as ([[[n k] f] matched] & s & I & E). destruct (K n k f matched I) as [K1 NE].
  destruct matched as [|m0 ms]; [contradiction|]. cbn [List.length Nat.eqb] in E.
  destruct (names_of_spec c k W K1) as (En & _ & IN). rewrite En in E. cbn [liftR bindV] in E.
  apply foldV_err in E as (key & s' & Ik & E). apply IN in Ik.
  exists n, k, f, (m0 :: ms), key. split; [exact I|]. split; [exact Ik|]. destruct (validate_key code c true rn oref g f (m0 :: ms) key); [discriminate|]. cbn in E. congruence.
Qed.
Lemma skip_key_spec (c : config) oref key : skip_key c oref key = false <-> (oref = true -> In (c_ref c) (map fst key)).
Proof.
  unfold skip_key. destruct oref; cbn [andb]; [|split; [discriminate|reflexivity]].
  rewrite Bool.negb_false_iff. split.
  - intros H _. apply existsb_exists in H as (x & I & E). apply String.eqb_eq in E. subst x. exact I.
  - intros H. apply existsb_exists. exists (c_ref c). split; [apply H; reflexivity|apply String.eqb_refl].
Qed.

Section Point.
Variables (c : config) (F : nat -> list field) (col : string) (g : G) (dfs0 dfs data : df_dict) (out : list (list string * frame)) (joined : frame) (rn oref : bool).
Hypothesis W : wf_config c.
Hypothesis SH : keeps_shape c.
Hypothesis SR : c_scale c <> None -> columns_of (c_ds c) (c_sref c) = Some [col].
Hypothesis REG : forall n k f, In ((n, k), f) (c_calcs c) -> regular (F k) f.
Hypothesis GET : c_get c g = Ok dfs0.
Hypothesis NE : dfs0 <> [].
Hypothesis MD : masked_data c g dfs0 dfs.
Hypothesis D : delivered (c_ds c) dfs.
Hypothesis DC : data_columns c dfs data.
Hypothesis MT : forall n k f, In ((n, k), f) (c_calcs c) -> c_match c data (c_tref c) n = Ok out.
Hypothesis OS : one_set out (c_tref c) (map fst data) joined.
Hypothesis CP : forall n cols col, In (n, cols) (c_ds c) -> In col cols -> In (enc (n, col)) (fcols joined).

Let rt key := columns_read c col key.
Let R (key : list dscol) : list (Z * row) := match select_columns (map enc (rt key)) joined with Ok f => frows (dropna_any f) | Err _ => [] end.

Lemma sref_in : c_scale c <> None -> In (c_sref c, [col]) (c_ds c).
Proof.
  intros H. specialize (SR H). unfold columns_of in SR. destruct (find _ (c_ds c)) as [[k v]|] eqn:E; [|discriminate]. cbn in SR. injection SR as ->.
  apply find_some in E as [I E]. cbn in E. apply String.eqb_eq in E. subst k. exact I.
Qed.
Lemma rt_spec k key : selection (c_ds c) k key -> NoDup (map fst (rt key)) /\ incl (map fst (rt key)) (map fst (c_ds c)) /\
  (forall nm cl, In (nm, cl) (rt key) -> exists cols, In (nm, cols) (c_ds c) /\ In cl cols) /\
  (c_scale c <> None -> In (c_sref c) (map fst (rt key))) /\
  (forall matched, extract c true matched key = get_data_for_result_tuple (c_tref c) matched (rt key)).
Proof.
  intros SEL. destruct (selection_names _ _ _ SEL) as [NK IK]. destruct SEL as (_ & _ & S'). unfold rt, columns_read, extract. assert (SI0 := sref_in). assert (SR0 := SR).
  destruct (c_scale c) as [scale|] eqn:SC.
  - assert (SI : In (c_sref c, [col]) (c_ds c)) by (apply SI0; discriminate).
    assert (SN : ~ In (c_sref c) (map fst key) -> forall x, In x (map fst (key ++ [(c_sref c, col)])) <-> In x (map fst key) \/ x = c_sref c).
    { intros _ x. rewrite map_app, in_app_iff. cbn. intuition congruence. }
    assert (EB : existsb (pair_eqb (c_sref c, col)) key = existsb (String.eqb (c_sref c)) (map fst key)).
    { apply Bool.eq_iff_eq_true. rewrite !existsb_exists. split.
      - intros (x & I & E). apply pair_eqb_spec in E. subst x. exists (c_sref c). split; [apply (in_map fst) in I; exact I|apply String.eqb_refl].
      - intros (x & I & E). apply String.eqb_eq in E. subst x. apply in_map_iff in I as ([nm cl] & En & I). cbn in En. subst nm.
        exists (c_sref c, cl). split; [exact I|]. destruct (S' _ _ I) as (cols & A & B).
        rewrite (nodup_key (c_ds c) _ cols [col] (proj1 (proj1 W)) A SI) in B. destruct B as [<-|[]]. apply pair_eqb_spec. reflexivity. }
    destruct (existsb (String.eqb (c_sref c)) (map fst key)) eqn:EX.
    + split; [exact NK|]. split; [exact IK|]. split; [exact S'|]. split.
      * intros _. apply existsb_exists in EX as (x & I & E). apply String.eqb_eq in E. subst x. exact I.
      * intros matched. unfold columns. rewrite SR0 by discriminate. cbn [bindR]. rewrite EB. reflexivity.
    + assert (NI : ~ In (c_sref c) (map fst key)).
      { intros I. assert (X : existsb (String.eqb (c_sref c)) (map fst key) = true) by (apply existsb_exists; exists (c_sref c); split; [exact I|apply String.eqb_refl]). congruence. }
      specialize (SN NI). split; [|split; [|split; [|split]]].
      * rewrite map_app. cbn [map fst]. clear -NK NI. induction (map fst key) as [|x l IH]; cbn; [repeat constructor; intros []|].
        apply NoDup_cons_iff in NK as [N1 N2]. constructor; [|apply IH; [exact N2|intros C; apply NI; right; exact C]].
        rewrite in_app_iff. cbn. intros [C|[C|[]]]; [contradiction|]. apply NI. left. congruence.
      * intros x Hx. apply SN in Hx as [Hx| ->]; [apply IK, Hx|]. apply (in_map fst) in SI. exact SI.
      * intros nm cl I. apply in_app_iff in I as [I|[I|[]]]; [apply S', I|]. injection I as <- <-. exists [col]. split; [exact SI|left; reflexivity].
      * intros _. apply SN. right. reflexivity.
      * intros matched. unfold columns. rewrite SR0 by discriminate. cbn [bindR]. rewrite EB. reflexivity.
  - split; [exact NK|]. split; [exact IK|]. split; [exact S'|]. split; [intros C; contradiction|]. reflexivity.
Qed.
Lemma rows_spec k key : selection (c_ds c) k key -> exists d, complete_rows joined (rt key) d /\ R key = frows d /\ drop_multiindex d = mkFrame (map fst (rt key)) (frows d) /\
  forall kk, hd_error kk = Some (c_tref c) -> Permutation kk (map fst data) -> extract c true [(kk, joined)] key = Ok (Some d).
Proof.
  intros SEL. destruct (rt_spec k key SEL) as (ND & IN & SEL' & _ & EX).
  assert (NAMES : forall nm, In nm (map fst data) <-> In nm (map fst (c_ds c))).
  { intros nm. rewrite (data_names c dfs data DC). apply D. }
  assert (exists ps, Forall2 (fun x i => col_pos (enc x) (fcols joined) = Some i) (rt key) ps) as (ps & P).
  { clear -SEL' CP. induction (rt key) as [|[nm cl] l IH]; [exists []; constructor|].
    destruct IH as (ps & P); [intros; apply SEL'; right; assumption|]. destruct (SEL' nm cl (or_introl eq_refl)) as (cols & A & B).
    destruct (proj1 (col_pos_in _ _) (CP nm cols cl A B)) as (i & Hi). exists (i :: ps). constructor; assumption. }
  set (d := mkFrame (map enc (rt key)) (filter (fun tr => forallb notna (snd tr)) (map (fun tr => (fst tr, map (fun i => nth i (snd tr) None) ps)) (frows joined)))).
  assert (CR : complete_rows joined (rt key) d) by (split; [reflexivity|exists ps; split; [exact P|reflexivity]]).
  exists d. split; [exact CR|]. assert (CR' := CR). apply extraction in CR'. split; [|split].
  - unfold R. destruct (select_columns (map enc (rt key)) joined) as [f|]; [|discriminate]. cbn in CR'. injection CR' as _ CR'. exact CR'.
  - unfold drop_multiindex, set_columns. f_equal. rewrite (proj1 CR), map_map. apply map_ext. intros p. apply untup_enc.
  - intros kk H1 H2. rewrite EX. destruct (get_data_single (c_tref c) kk joined (rt key) H1) as (d' & E & C').
    + intros L. etransitivity; [exact H2|]. symmetry. apply NoDup_Permutation_bis; [exact ND| |intros x Hx; apply NAMES, IN, Hx].
      apply Permutation_length in H2. rewrite (map_length fst (rt key)). lia.
    + intros [nm cl] Hx. destruct (SEL' nm cl Hx) as (cols & A & B). exact (CP nm cols cl A B).
    + rewrite E. f_equal. f_equal. apply extraction in C'. congruence.
Qed.

Lemma scaled_point ig n k f key m : reported c oref n k f key -> gpi_metrics code c ig rn oref g key m ->
  (some_scaling_error c oref g col R -> failed_with code f key g SCALING_FAILED m) /\
  (~ some_scaling_error c oref g col R -> scaled_outcome code c f (if rn then numbered k else map fst key) key (rt key) g (R key) m).
Proof.
  intros REP (r & HV & Hin). assert (REP' := REP). destruct REP' as (IC & SEL & ONLY). assert (WD := proj1 W).
  destruct (selection_names _ _ _ SEL) as [NK IK]. assert (LK : List.length key = k) by apply SEL.
  destruct (rt_spec k key SEL) as (ND & _ & _ & SIN & _).
  destruct (rows_spec k key SEL) as (d & CR & ER & DM & EX).
  assert (MI : matching_input c g data) by (exists dfs0, dfs; auto).
  assert (FT : forall s t, f (mkFrame (map fst key) []) g = Ok t -> set_status_name (code s) t = Ok m -> failed_with code f key g s m).
  { intros s t Et Es. destruct (set_name_get (code s) t m Es) as (A & B & C). exists t. auto. }
  assert (SQ : exists mn, seqR (map (fun e => c_match c data (c_tref c) (fst (fst e))) (c_calcs c)) = Ok mn /\
            (forall e mm, In (e, mm) (combine (c_calcs c) mn) -> In e (c_calcs c) /\ mm = out) /\ (forall e, In e (c_calcs c) -> In (e, out) (combine (c_calcs c) mn))).
  { clear -MT. revert MT. generalize (c_calcs c). induction l as [|[[a b] h] l IH]; intros MT; [exists []; split; [reflexivity|split; [intros ? ? []|intros ? []]]|].
    cbn [map seqR fst]. rewrite (MT a b h (or_introl eq_refl)). cbn [bindR]. destruct IH as (mn & E & P & Q); [intros x y z Hz; apply (MT x y z); right; exact Hz|].
    rewrite E. cbn. exists (out :: mn). split; [reflexivity|]. split.
    - intros e mm [[= <- <-]|H]; [split; [left; reflexivity|reflexivity]|]. destruct (P e mm H) as [A B]. split; [right; exact A|exact B].
    - intros e [<-|H]; [left; reflexivity|right; apply Q, H]. }
  destruct SQ as (mn & ES & PM & PQ).
  assert (ATT : attempt code c ig rn oref g = jobs_loop code c ig rn oref g (combine (c_calcs c) mn) []).
  { rewrite (matching_reached code c ig rn oref g data MI), ES. reflexivity. }
  assert (EMPTY : frows joined = [] -> forall k' key', selection (c_ds c) k' key' -> R key' = []).
  { intros E0 k' key' SEL'. destruct (rows_spec k' key' SEL') as (d' & (_ & ps & _ & Ed) & -> & _). rewrite Ed, E0. reflexivity. }
  (* a grid point that fails as a whole *)
  assert (FAIL : forall x, attempt code c ig rn oref g = VErr x -> ig = true /\ failed_with code f key g (return_code x) m).
  { intros x EA. assert (HV' := HV). unfold validate_gpi in HV'. rewrite EA in HV'. destruct ig; [|discriminate]. split; [reflexivity|].
    destruct (gpi_failed code c rn oref g _ r W EA HV) as [_ P]. destruct (P key [m] Hin) as (t & m' & EM & (n' & k' & f' & IC' & L & Et) & WS). injection EM as <-.
    destruct (key_calc c n k f n' k' f' W IC IC') as [-> ->]; [congruence|].
    destruct (REG n' k f' IC) as (_ & HS & _ & _ & HF). destruct (HF _ _ _ Et) as [HF1 _].
    destruct (with_status_get (code (return_code x)) t m WS) as (A & B & C); [rewrite HF1; exact HS|]. exists t. auto. }
  destruct (attempt code c ig rn oref g) as [r0|x] eqn:EA.
  - (* the grid point succeeded *)
    assert (r0 = r) by (unfold validate_gpi in HV; rewrite EA in HV; congruence). subst r0. symmetry in ATT.
    assert (EO : exists kk, out = [(kk, joined)] /\ hd_error kk = Some (c_tref c) /\ Permutation kk (map fst data)).
    { destruct OS as [H|[EO _]]; [exact H|]. exfalso. destruct (foldV_all _ _ _ _ ATT _ (PQ _ IC)) as (s1 & s2 & E). rewrite EO in E. discriminate E. }
    destruct EO as (kk & EO & H1 & H2). split.
    + intros (n' & k' & f' & key' & (IC' & SEL' & ONLY') & scale & i & e & SC & Ei & NR & ES'). exfalso.
      destruct (rows_spec k' key' SEL') as (d' & _ & ER' & DM' & EX'). rewrite ER' in *.
      destruct (jobs_all_keys c ig rn oref g _ _ _ WD ATT n' k' f' out key' (PQ _ IC') (proj1 (proj2 W) n' k' f' IC') SEL') as (o & VK).
      rewrite (validate_key_unscalable c ig rn oref g f' out key' d' (map fst (rt key')) scale i e) in VK; [discriminate|rewrite EO; apply EX'; assumption|exact DM'| |exact NR|exact SC| |exact ES'].
      * apply skip_key_spec. exact ONLY'.
      * apply sref_pos; [exact (proj1 (rt_spec k' key' SEL'))|exact Ei].
    + intros _. rewrite ER.
      assert (EA' := EA). unfold attempt in EA'. rewrite GET in EA'. cbn [raise_as bindV] in EA'.
      destruct (Nat.eqb_spec (List.length dfs0) 0) as [L0|_]; [destruct dfs0; [contradiction|discriminate]|].
      destruct (perform_cases code c ig rn oref g dfs0 r W EA') as [(-> & _)|(K & dfs' & data' & mn' & MD' & DC' & FM & P)]; [destruct Hin|].
      destruct (P key [m] Hin) as (n' & k' & f' & matched & m' & Hc & L & EM & VK). injection EM as <-.
      assert (IC' := in_combine_l _ _ _ _ Hc). destruct (key_calc c n k f n' k' f' W IC IC') as [-> ->]; [congruence|].
      assert (DD : data' = data).
      { assert (dfs' = dfs). { clear -MD MD'. unfold masked_data in *. destruct (c_mask c) as [[mds gm]|]; [|congruence].
          destruct MD as (r1 & m1 & A1 & B1 & _ & ->), MD' as (r2 & m2 & A2 & B2 & _ & ->). congruence. }
        subst dfs'. exact (data_columns_fun c dfs data' data DC' DC). }
      subst data'.
      assert (matched = out) as ->.
      { assert (X : c_match c data (c_tref c) n' = Ok matched /\ matched <> []).
        { clear -Hc FM. induction FM as [|e mm l ms He FM IH]; [destruct Hc|]. destruct Hc as [Hc|Hc]; [injection Hc as -> ->; exact He|auto]. }
        rewrite (MT n' k f' IC) in X. destruct X as [X1 X2]. congruence. }
      destruct (validate_key_cases code c ig rn oref g f' out key m VK) as (dt & EX' & CASES). rewrite EO, (EX kk H1 H2) in EX'. injection EX' as <-.
      destruct CASES as [(L0 & _ & t & Et & Es)|(d1 & s & ED & NR & SD & CALC)].
      * cbn [frame_len] in L0. destruct (frows d); [|discriminate]. cbn [scaled_outcome]. exact (FT _ t Et Es).
      * injection ED as <-.
        assert (WIDE : forall tr, In tr (frows d) -> List.length (snd tr) = List.length (rt key)).
        { intros [t0 r0] I0. exact (complete_widths joined (rt key) d t0 r0 CR I0). }
        assert (S0 : exists rows', s = mkFrame (map fst key) rows' /\ scaled_to c g key (rt key) (frows d) rows').
        { unfold scaled_data in SD. unfold scaled_to. destruct (c_scale c) as [scale|] eqn:SC.
          - destruct SD as (i & sc & Ei & Es & ->). rewrite DM in Ei, Es. cbn [fcols] in Ei. apply sref_pos in Ei; [|exact ND].
            destruct (SH scale g SC _ _ _ Es) as (SC1 & SC2). cbn [fcols frows] in SC1, SC2.
            assert (WS : forall tr, In tr (frows sc) -> List.length (snd tr) = List.length (rt key)).
            { clear -SC2 WIDE. induction SC2 as [|x y l l' [_ H] SC2 IH]; intros tr I; [destruct I|]. destruct I as [<-|I]; [rewrite H; apply WIDE; left; reflexivity|].
              apply IH; [|exact I]. intros; apply WIDE; right; assumption. }
            assert (XR : rt key = if existsb (String.eqb (c_sref c)) (map fst key) then key else key ++ [(c_sref c, col)]) by (unfold rt, columns_read; rewrite SC; reflexivity).
            exists (map (fun tr => (fst tr, firstn (List.length key) (snd tr))) (frows sc)). split; [|exists i, sc; auto].
            destruct (existsb (String.eqb (c_sref c)) (map fst key)) eqn:EB.
            + destruct sc as [cs rs]. cbn [fcols frows] in *. rewrite SC1, XR. f_equal. rewrite <- (map_id rs) at 1. apply map_ext_in. intros [t0 r0] I0. cbn [fst snd]. f_equal.
              symmetry. apply firstn_all2. rewrite XR in WS. specialize (WS _ I0). cbn [snd] in WS. lia.
            + rewrite (drop_shape (c_sref c) (map fst key) sc).
              * f_equal. rewrite map_length. reflexivity.
              * rewrite SC1, XR, map_app. reflexivity.
              * intros I0. assert (X : existsb (String.eqb (c_sref c)) (map fst key) = true) by (apply existsb_exists; exists (c_sref c); split; [exact I0|apply String.eqb_refl]). congruence.
              * intros tr I0. rewrite (WS tr I0), XR, app_length, map_length. cbn. lia.
          - exists (frows d). split; [|reflexivity]. rewrite SD, DM. unfold rt, columns_read. rewrite SC. reflexivity. }
        destruct S0 as (rows' & -> & ST).
        assert (INP : (if rn then rename_columns key (mkFrame (map fst key) rows') else mkFrame (map fst key) rows') = mkFrame (if rn then numbered k else map fst key) rows').
        { destruct rn; [|reflexivity]. rewrite (rename_ok key (mkFrame (map fst key) rows') NK eq_refl), LK. reflexivity. }
        rewrite INP in CALC. unfold scaled_outcome. destruct (frows d) as [|r1 rs]; [contradiction|]. exists rows'. split; [exact ST|].
        destruct CALC as [->|(_ & (e & ->) & t & Et & Es)]; [reflexivity|]. exact (FT _ t Et Es).
  - destruct (FAIL x eq_refl) as [-> FW]. symmetry in ATT.
    destruct OS as [(kk & EO & H1 & H2)|[EO EF]].
    + destruct (jobs_error c rn oref g _ _ x WD ATT) as (n' & k' & f' & matched & key' & I' & SEL' & VK).
      { intros a b h mm Hm. destruct (PM _ _ Hm) as [Hi ->]. split; [exact (proj1 (proj2 W) a b h Hi)|rewrite EO; discriminate]. }
      destruct (PM _ _ I') as [IC' ->]. destruct (rows_spec k' key' SEL') as (d' & _ & ER' & DM' & EX').
      destruct (rt_spec k' key' SEL') as (ND' & _ & _ & SIN' & _).
      destruct (validate_key_split c F rn oref g k' f' out key' d' (map fst (rt key')) (REG n' k' f' IC')) as [(o & VO)|(VE & SK & NR & scale & i & e & SC & Ei & ESc)];
        [rewrite EO; apply EX'; assumption|exact DM'|exact SIN'|congruence|].
      assert (x = VError SCALING_FAILED) by congruence. subst x. split; [intros _; exact FW|]. intros NO. exfalso. apply NO.
      exists n', k', f', key'. split; [split; [exact IC'|split; [exact SEL'|apply skip_key_spec; exact SK]]|].
      exists scale, i, e. split; [exact SC|]. split; [apply sref_pos; assumption|]. rewrite ER'. split; [exact NR|exact ESc].
    + assert (HX : x = VError NO_TEMP_MATCHED_DATA).
      { destruct (c_calcs c) as [|[[a b] h] rest] eqn:EC; [destruct IC|].
        assert (X : attempt code c true rn oref g = VErr (VError NO_TEMP_MATCHED_DATA)).
        { apply (attempt_no_match code c true rn oref g data a b h rest MI EC); [rewrite <- EO; apply (MT a b h); left; reflexivity|].
          intros [[a' b'] h'] He. exists out. apply (MT a' b' h'). right. exact He. }
        rewrite X in EA. injection EA as <-. reflexivity. }
      subst x. split.
      * intros (n' & k' & f' & key' & (IC' & SEL' & _) & scale & i & e & SC & Ei & NR & _). exfalso. apply NR. exact (EMPTY EF k' key' SEL').
      * intros _. rewrite (EMPTY EF k key SEL). exact FW.
Qed.
End Point.
End Scale.
