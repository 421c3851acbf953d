(* Proofs about complete validation runs: from the matched set to the reported metrics. *)
From Verif Require Import RunSpec BaseProofs SortProofs NamesProofs TemporalProofs MatchersProofs ValidationProofs ValidationProofs2 ValidationInputProps RunProofs.
From Verif Require Import TemporalModel TemporalSpec.

Section Run.
Context {G V : Type}.
Variable code : Z -> V.
Notation metrics := (list (field * fval V)).
Notation config := (@config G V).

Lemma field_get_cons (m : metrics) k0 x k : field_get ((k0, x) :: m) k =
  if field_eqb k0 k then match x with Arr (v :: _) => Ok v | Arr [] => Err EIndex | Scal _ => Err EType end else field_get m k.
Proof. unfold field_get. cbn [find fst]. destruct (field_eqb k0 k); reflexivity. Qed.
Lemma with_status_get v (m m' : metrics) : with_status v m m' -> In (FName "status") (map fst m) ->
  map fst m' = map fst m /\ field_get m' (FName "status") = Ok v /\ forall k, ~ status_field k -> field_get m' k = field_get m k.
Proof.
  intros W. assert (A : map fst m' = map fst m /\ forall k, ~ status_field k -> field_get m' k = field_get m k).
  { induction W as [|[k0 x] [k1 x'] m m' (E & S & NS) W IH]; [split; reflexivity|]. cbn [fst snd] in *. subst k1. destruct IH as [E H].
    split; [cbn; congruence|]. intros k Hk. rewrite !field_get_cons. destruct (field_eqb k0 k) eqn:EK; [|apply H, Hk].
    apply field_eqb_spec in EK. subst k0. rewrite (NS Hk). reflexivity. }
  intros I. split; [apply A|]. split; [|apply A]. clear A.
  induction W as [|[k0 x] [k1 x'] m m' (E & S & NS) W IH]; [destruct I|]. cbn [fst snd] in *. subst k1. rewrite field_get_cons.
  destruct (field_eqb k0 (FName "status")) eqn:EK.
  - apply field_eqb_spec in EK. subst k0. destruct (S (or_introl eq_refl)) as (a & r & _ & ->). reflexivity.
  - apply IH. destruct I as [I|I]; [cbn [fst] in I; subst k0; discriminate EK|exact I].
Qed.
Lemma set_name_get v (m m' : metrics) : set_status_name v m = Ok m' ->
  map fst m' = map fst m /\ field_get m' (FName "status") = Ok v /\ forall k, ~ status_field k -> field_get m' k = field_get m k.
Proof.
  revert m'. induction m as [|[k0 x] m IH]; intros m' H; [discriminate|]. cbn [set_status_name] in H. destruct (field_eqb k0 (FName "status")) eqn:EK.
  - destruct (set_first v x) as [x'|] eqn:E; [|discriminate]. cbn in H. injection H as <-. destruct (set_first_ok v x x' E) as (a & r & -> & ->).
    split; [reflexivity|]. split; [rewrite field_get_cons, EK; reflexivity|]. intros k Hk. rewrite !field_get_cons.
    destruct (field_eqb k0 k) eqn:E2; [|reflexivity]. exfalso. apply Hk. apply field_eqb_spec in EK, E2. left. congruence.
  - destruct (set_status_name v m) as [m1|]; [|discriminate]. cbn in H. injection H as <-. destruct (IH m1 eq_refl) as (A & B & C).
    split; [cbn; congruence|]. split; [rewrite field_get_cons, EK; exact B|]. intros k Hk. rewrite !field_get_cons. destruct (field_eqb k0 k); [reflexivity|apply C, Hk].
Qed.

Lemma validate_key_total (c : config) (F : nat -> list field) rn oref g k f matched key data : regular (F k) f -> c_scale c = None ->
  extract c true matched key = Ok data -> exists o, validate_key code c true rn oref g f matched key = VOk o.
Proof.
  intros (N & HS & HT & HE & HF) SC EX. unfold validate_key. rewrite EX. cbn [liftR bindV].
  destruct (skip_key c oref key); [eauto|].
  assert (D : forall s, exists o, bindV (liftR (f (empty_frame key) g)) (fun m => liftR (mapR Some (set_status_name (code s) m))) = VOk o).
  { intros s. destruct (HE (empty_frame key) g eq_refl) as (m & Em). rewrite Em. cbn [liftR bindV].
    destruct (fills_set_name (F k) (code s) m (HF _ _ _ Em) HS) as (m' & -> & _). cbn. eauto. }
  destruct data as [d|]; [|apply D]. destruct (Nat.eqb (List.length (frows d)) 0); [apply D|]. rewrite SC. cbn [bindV].
  destruct (f (if rn then rename_columns key (drop_multiindex d) else drop_multiindex d) g); [eauto|apply D].
Qed.
Lemma jobs_total (c : config) rn oref g cm res0 : wf_dict (c_ds c) ->
  (forall n k f matched, In (((n, k), f), matched) cm -> (1 <= k)%nat /\ matched <> [] /\
     forall key, selection (c_ds c) k key -> exists o, validate_key code c true rn oref g f matched key = VOk o) ->
  exists r, jobs_loop code c true rn oref g cm res0 = VOk r.
Proof.
  intros W H. destruct (foldV_exists (fun _ : list (list dscol * list metrics) => True) (fun res em =>
        let '(((n, k), calc), matched) := em in
        if Nat.eqb (List.length matched) 0 then VErr (VError NO_TEMP_MATCHED_DATA) else
        bindV (liftR (get_result_combinations (c_ds c) k)) (fun names =>
        foldV (fun res result =>
            bindV (validate_key code c true rn oref g calc matched result) (fun o =>
            VOk (match o with None => res | Some m => add_result res result [m] end))) res names)) cm res0 Logic.I) as (r & E & _); [|exists r; exact E].
  intros [[[n k] f] matched] s Hin _. destruct (H n k f matched Hin) as (K & NE & HV). destruct matched as [|m0 ms]; [contradiction|]. cbn [List.length Nat.eqb].
  destruct (names_of_spec c k W K) as (En & _ & I). rewrite En. cbn [liftR bindV].
  apply foldV_exists; [exact Logic.I|]. intros key s' Hk _. apply I in Hk. destruct (HV key Hk) as (o & ->). cbn. eauto.
Qed.
Lemma data_columns_fun (c : config) dfs d1 d2 : data_columns c dfs d1 -> data_columns c dfs d2 -> d1 = d2.
Proof.
  intros A. revert d2. induction A as [|e [n d] l l' (E & cs & C & S) A IH]; intros d2 B; inversion B as [|? [n' d'] ? l2 (E' & cs' & C' & S') B']; subst; [reflexivity|].
  cbn [fst snd] in *. subst n n'. rewrite (IH l2 B'). f_equal. f_equal. assert (cs' = cs) by congruence. subst cs'. congruence.
Qed.
Lemma selection_names ds k key : selection ds k key -> NoDup (map fst key) /\ incl (map fst key) (map fst ds).
Proof.
  intros (_ & S & I). split.
  - revert S. generalize (map fst key). clear. induction l as [|x l IH]; intros S; constructor; inversion S as [|? ? S1 S2]; subst.
    + intros C. rewrite Forall_forall in S2. exact (str_lt_irrefl x (S2 x C)).
    + apply IH, S1.
  - intros n H. apply in_map_iff in H as ([n' col] & <- & H). destruct (I n' col H) as (cols & A & _). apply (in_map fst) in A. exact A.
Qed.
Lemma key_calc (c : config) n k f n' k' f' : wf_config c -> In ((n, k), f) (c_calcs c) -> In ((n', k'), f') (c_calcs c) -> k = k' -> n = n' /\ f = f'.
Proof.
  intros (_ & _ & N) I I' <-. revert N I I'. generalize (c_calcs c). clear. induction l as [|[[a b] h] l IH]; intros N I I'; [destruct I|].
  cbn [map fst snd] in N. inversion N as [|? ? N1 N2]; subst. destruct I as [I|I], I' as [I'|I'].
  - split; congruence.
  - exfalso. apply N1. injection I as -> -> ->. apply (in_map (fun e => snd (fst e))) in I'. exact I'.
  - exfalso. apply N1. injection I' as -> -> ->. apply (in_map (fun e => snd (fst e))) in I. exact I.
  - apply IH; assumption.
Qed.

Section Point.
Variables (c : config) (F : nat -> list field) (g : G) (dfs data : df_dict) (out : list (list string * frame)) (joined : frame) (rn oref : bool).
Hypothesis W : wf_config c.
Hypothesis REG : forall n k f, In ((n, k), f) (c_calcs c) -> regular (F k) f.
Hypothesis NM : c_mask c = None.
Hypothesis NSc : c_scale c = None.
Hypothesis GET : c_get c g = Ok dfs.
Hypothesis NE : dfs <> [].
Hypothesis D : delivered (c_ds c) dfs.
Hypothesis DC : data_columns c dfs data.
Hypothesis MT : forall n k f, In ((n, k), f) (c_calcs c) -> c_match c data (c_tref c) n = Ok out.
Hypothesis OS : one_set out (c_tref c) (map fst data) joined.
Hypothesis CP : forall n cols col, In (n, cols) (c_ds c) -> In col cols -> In (enc (n, col)) (fcols joined).

Lemma point_key ig n k f key : reported c oref n k f key ->
  exists d, complete_rows joined key d /\ forall m, gpi_metrics code c ig rn oref g key m ->
    outcome code f (if rn then numbered k else map fst key) key g (frows d) m.
Proof.
  intros (IC & SEL & ONLY). assert (WD := proj1 W).
  destruct (selection_names _ _ _ SEL) as [NK IK].
  assert (NAMES : forall nm, In nm (map fst data) <-> In nm (map fst (c_ds c))).
  { intros nm. rewrite (data_names c dfs data DC). apply D. }
  assert (LK : List.length key = k) by apply SEL.
  (* the data of every combination *)
  assert (EXT : forall k' key', selection (c_ds c) k' key' -> forall kk, hd_error kk = Some (c_tref c) -> Permutation kk (map fst data) ->
     exists d, extract c true [(kk, joined)] key' = Ok (Some d) /\ complete_rows joined key' d).
  { intros k' key' SEL' kk H1 H2. unfold extract. rewrite NSc. cbn [bindR]. apply get_data_single; [exact H1| |].
    - intros L. destruct (selection_names _ _ _ SEL') as [NK' IK']. etransitivity; [exact H2|]. symmetry.
      apply NoDup_Permutation_bis; [exact NK'| |intros x Hx; apply NAMES, IK', Hx].
      apply Permutation_length in H2. rewrite (map_length fst key'). lia.
    - intros [nm col] Hx. destruct SEL' as (_ & _ & S'). destruct (S' nm col Hx) as (cols & A & B). exact (CP nm cols col A B). }
  assert (exists d, complete_rows joined key d) as (d & CR).
  { destruct OS as [(kk & _ & H1 & H2)|[_ E0]].
    - destruct (EXT k key SEL kk H1 H2) as (d & _ & CR). exists d. exact CR.
    - assert (exists ps, Forall2 (fun x i => col_pos (enc x) (fcols joined) = Some i) key ps) as (ps & P).
      { destruct SEL as (_ & _ & S'). clear -S' CP. induction key as [|[nm col] key IH]; [exists []; constructor|].
        destruct IH as (ps & P); [intros; apply S'; right; assumption|]. destruct (S' nm col (or_introl eq_refl)) as (cols & A & B).
        destruct (proj1 (col_pos_in _ _) (CP nm cols col A B)) as (i & Hi). exists (i :: ps). constructor; assumption. }
      eexists (mkFrame (map enc key) _). split; [reflexivity|]. exists ps. split; [exact P|reflexivity]. }
  exists d. split; [exact CR|]. intros m (r & HV & Hin).
  assert (MI : matching_input c g data).
  { exists dfs, dfs. split; [exact GET|]. split; [exact NE|]. split; [unfold masked_data; rewrite NM; reflexivity|exact DC]. }
  assert (FT : forall s t, f (mkFrame (map fst key) []) g = Ok t -> set_status_name (code s) t = Ok m -> failed_with code f key g s m).
  { intros s t Et Es. destruct (set_name_get (code s) t m Es) as (A & B & C). exists t. auto. }
  unfold validate_gpi in HV. destruct (attempt code c ig rn oref g) as [r0|x] eqn:EA.
  - injection HV as ->. unfold attempt in EA. rewrite GET in EA. cbn [raise_as bindV] in EA.
    destruct (Nat.eqb_spec (List.length dfs) 0) as [L0|_]; [destruct dfs; [contradiction|discriminate]|].
    destruct (perform_cases code c ig rn oref g dfs r W EA) as [(_ & mds & gm & ref & masked & E1 & _)|(K & dfs' & data' & mn & MD & DC' & FM & P)]; [congruence|].
    unfold masked_data in MD. rewrite NM in MD. subst dfs'. rewrite <- (data_columns_fun c dfs data data' DC DC') in *.
    destruct (P key [m] Hin) as (n' & k' & f' & matched & m' & Hc & L & EM & VK). injection EM as <-.
    assert (IC' := in_combine_l _ _ _ _ Hc). destruct (key_calc c n k f n' k' f' W IC IC') as [-> ->]; [congruence|].
    assert (matched = out /\ out <> []) as [-> ON].
    { assert (X : c_match c data (c_tref c) n' = Ok matched /\ matched <> []).
      { clear -Hc FM. induction FM as [|e mm l ms He FM IH]; [destruct Hc|]. destruct Hc as [Hc|Hc]; [injection Hc as -> ->; exact He|auto]. }
      rewrite (MT n' k f' IC) in X. destruct X as [X1 X2]. injection X1 as <-. auto. }
    destruct OS as [(kk & EO & H1 & H2)|[EO _]]; [|contradiction].
    destruct (EXT k key SEL kk H1 H2) as (d' & EX & CR').
    assert (d' = d). { apply extraction in CR, CR'. congruence. } subst d'.
    destruct (validate_key_cases code c ig rn oref g f' out key m VK) as (dt & EX' & CASES). rewrite EO, EX in EX'. injection EX' as <-.
    destruct CASES as [(L0 & _ & t & Et & Es)|(d1 & s & ED & NR & SD & CALC)].
    + cbn [frame_len] in L0. destruct (frows d); [|discriminate]. cbn [outcome]. exact (FT _ t Et Es).
    + injection ED as <-. unfold scaled_data in SD. rewrite NSc in SD. subst s.
      assert (DM : drop_multiindex d = mkFrame (map fst key) (frows d)).
      { unfold drop_multiindex, set_columns. f_equal. rewrite (proj1 CR), map_map. apply map_ext. intros p. apply untup_enc. }
      rewrite DM in CALC.
      assert (INP : (if rn then rename_columns key (mkFrame (map fst key) (frows d)) else mkFrame (map fst key) (frows d)) =
                    mkFrame (if rn then numbered k else map fst key) (frows d)).
      { destruct rn; [|reflexivity]. rewrite (rename_ok key (mkFrame (map fst key) (frows d)) NK eq_refl), LK. reflexivity. }
      rewrite INP in CALC. destruct (frows d) as [|r1 rs]; [contradiction|]. unfold outcome.
      destruct CALC as [->|(_ & (e & ->) & t & Et & Es)]; [reflexivity|]. exact (FT _ t Et Es).
  - destruct ig; [|discriminate]. 
    destruct OS as [(kk & EO & H1 & H2)|[EO EF]].
    + exfalso. rewrite (matching_reached code c true rn oref g data MI) in EA.
      assert (SQ : exists mn, seqR (map (fun e => c_match c data (c_tref c) (fst (fst e))) (c_calcs c)) = Ok mn /\ forall e mm, In (e, mm) (combine (c_calcs c) mn) -> In e (c_calcs c) /\ mm = out).
      { clear -MT. revert MT. generalize (c_calcs c). induction l as [|[[a b] h] l IH]; intros MT; [exists []; split; [reflexivity|intros ? ? []]|].
        cbn [map seqR fst]. rewrite (MT a b h (or_introl eq_refl)). cbn [bindR]. destruct IH as (mn & E & P); [intros x y z Hz; apply (MT x y z); right; exact Hz|].
        rewrite E. cbn. exists (out :: mn). split; [reflexivity|]. intros e mm [[= <- <-]|H]; [split; [left; reflexivity|reflexivity]|]. destruct (P e mm H) as [A B]. split; [right; exact A|exact B]. }
      destruct SQ as (mn & ES & PM). rewrite ES in EA. cbn [raise_as bindV] in EA.
      destruct (jobs_total c rn oref g (combine (c_calcs c) mn) [] WD) as (r1 & E1); [|congruence].
      intros a b h matched Hc. destruct (PM _ _ Hc) as [Hi ->]. split; [exact (proj1 (proj2 W) a b h Hi)|]. split; [rewrite EO; discriminate|].
      intros key' SEL'. destruct (EXT b key' SEL' kk H1 H2) as (d' & EX & _). rewrite EO.
      exact (validate_key_total c F rn oref g b h [(kk, joined)] key' (Some d') (REG a b h Hi) NSc EX).
    + assert (HX : x = VError NO_TEMP_MATCHED_DATA).
      { destruct (c_calcs c) as [|[[a b] h] rest] eqn:EC; [destruct IC|].
        assert (X : attempt code c true rn oref g = VErr (VError NO_TEMP_MATCHED_DATA)).
        { apply (attempt_no_match code c true rn oref g data a b h rest MI EC); [rewrite <- EO; apply (MT a b h); left; reflexivity|].
          intros [[a' b'] h'] He. exists out. apply (MT a' b' h'). right. exact He. }
        rewrite X in EA. injection EA as <-. reflexivity. }
      subst x.
      assert (HG : validate_gpi code c true rn oref g = VOk r) by (unfold validate_gpi; rewrite EA; exact HV).
      destruct (gpi_failed code c rn oref g _ r W EA HG) as [_ P]. destruct (P key [m] Hin) as (t & m' & EM & (n' & k' & f' & IC' & L & Et) & WS). injection EM as <-.
      destruct (key_calc c n k f n' k' f' W IC IC') as [-> ->]; [congruence|].
      assert (frows d = []) as ->. { destruct CR as (_ & ps & _ & ->). rewrite EF. reflexivity. }
      cbn [outcome]. destruct (REG n' k f' IC) as (_ & HS & _ & _ & HF). destruct (HF _ _ _ Et) as [HF1 _].
      destruct (with_status_get (code (return_code (VError NO_TEMP_MATCHED_DATA))) t m WS) as (A & B & C); [rewrite HF1; exact HS|]. exists t. auto.
Qed.
End Point.
End Run.

(* ------------------------------------------------------- the two matchers *)
Lemma whole_row tref w t L rows : NoDup (map fst L) -> (forall n f, In (n, f) L -> usable f /\ NoDup (fcols f)) -> Forall2 (row_in tref w t) L rows ->
  ((forall c, In c (List.concat rows) -> c <> None) <->
   forall n f col, In (n, f) L -> In col (fcols f) -> exists v, observed L tref w t (n, col) v /\ v <> None).
Proof.
  intros N U F. split.
  - intros H n f col I C.
    assert (exists r, In r rows /\ row_in tref w t (n, f) r) as (r & Ir & R).
    { clear -F I. induction F as [|e r L rows R F IH]; [destruct I|]. destruct I as [->|I]; [exists r; split; [left; reflexivity|exact R]|].
      destruct (IH I) as (r' & A & B). exists r'. split; [right; exact A|exact B]. }
    destruct (In_nth_error _ _ C) as (i & Ei).
    assert (L1 := row_in_length tref w t (n, f) r (proj1 (proj1 (U n f I))) R). cbn [snd] in L1.
    destruct (nth_error r i) as [v|] eqn:Ev; [|apply nth_error_None in Ev; assert (X : nth_error (fcols f) i <> None) by congruence; apply nth_error_Some in X; lia].
    exists v. split; [exists f, r, i; cbn [fst snd]; auto|]. apply H. apply in_concat. exists r. split; [exact Ir|]. eapply nth_error_In, Ev.
  - intros H v Hv. apply in_concat in Hv as (r & Ir & Iv).
    assert (exists n f, In (n, f) L /\ row_in tref w t (n, f) r) as (n & f & I & R).
    { clear -F Ir. induction F as [|[n f] r' L rows R F IH]; [destruct Ir|]. destruct Ir as [->|Ir]; [exists n, f; split; [left; reflexivity|exact R]|].
      destruct (IH Ir) as (n' & f' & A & B). exists n', f'. split; [right; exact A|exact B]. }
    destruct (In_nth_error _ _ Iv) as (i & Ei).
    assert (L1 := row_in_length tref w t (n, f) r (proj1 (proj1 (U n f I))) R). cbn [snd] in L1.
    destruct (nth_error (fcols f) i) as [col|] eqn:Ec; [|apply nth_error_None in Ec; assert (X : nth_error r i <> None) by congruence; apply nth_error_Some in X; lia].
    destruct (H n f col I (nth_error_In _ _ Ec)) as (u & O & NU).
    assert (O' : observed L tref w t (n, col) v) by (exists f, r, i; cbn [fst snd]; auto).
    rewrite (observed_unique L tref w t (n, col) v u N (fun a b Iab => proj2 (U a b Iab)) O' O). exact NU.
Qed.
Lemma observed_perm L L' tref w t x v : (forall e, In e L <-> In e L') -> observed L tref w t x v -> observed L' tref w t x v.
Proof. intros P (f & r & i & I & A). exists f, r, i. split; [apply P, I|exact A]. Qed.
Lemma compared_perm L L' tref w key t r : (forall e, In e L <-> In e L') -> compared L tref w key t r -> compared L' tref w key t r.
Proof.
  intros P ((ref & I & H) & F & N). split; [exists ref; split; [apply P, I|exact H]|]. split; [|exact N].
  clear -F P. induction F; constructor; [eapply observed_perm; eassumption|assumption].
Qed.
Lemma compared_cell L tref w t key r whole : key <> [] -> compared L tref w key t r -> NoDup (map fst L) -> (forall n f, In (n, f) L -> usable f /\ NoDup (fcols f)) ->
  Forall2 (row_in tref w t) L whole -> exists c, In c (List.concat whole) /\ c <> None.
Proof.
  intros NE (_ & F & NN) N U FW. destruct key as [|x key]; [contradiction|]. inversion F as [|? v ? r' O F']; subst.
  exists v. split; [|apply NN; left; reflexivity]. destruct O as (f & row & i & I & _ & V1 & R).
  apply in_concat. exists row. split; [|eapply nth_error_In, V1].
  clear -FW I R. induction FW as [|e r L rows Re F IH]; [destruct I|]. destruct I as [->|I]; [left; eapply row_in_unique; [exact Re|exact R]|right; apply IH, I].
Qed.

Section Both.
Context {G V : Type}.
Variable code : Z -> V.
Variables (c : @config G V) (F : nat -> list field) (g : G) (dfs : df_dict) (rn oref : bool).
Hypothesis W : wf_config c.
Hypothesis REG : forall n k f, In ((n, k), f) (c_calcs c) -> regular (F k) f.
Hypothesis ALL : forall n k f, In ((n, k), f) (c_calcs c) -> n = List.length (c_ds c).
Hypothesis NM : c_mask c = None.
Hypothesis NSc : c_scale c = None.
Hypothesis TR : In (c_tref c) (map fst (c_ds c)).
Hypothesis GET : c_get c g = Ok dfs.
Hypothesis D : delivered (c_ds c) dfs.

(* with a predicate K on the times at which other datasets may be missing *)
Lemma both w (KR : row -> Prop) (K : Z -> Prop) ig n k f key :
  (forall data ref, NoDup (map fst data) -> In (c_tref c, ref) data -> (forall k f, In (k, f) data -> usable f) -> List.length data = List.length (c_ds c) ->
    exists out joined, c_match c data (c_tref c) (List.length (c_ds c)) = Ok out /\ one_set out (c_tref c) (map fst data) joined /\
      NoDup (findex joined) /\ (chronological (findex ref) -> StronglySorted Z.lt (findex joined)) /\
      fcols joined = flat_map columns_named ((c_tref c, ref) :: others_of data (c_tref c)) /\
      forall t r, In (t, r) (frows joined) <->
        (exists rows, Forall2 (row_in (c_tref c) w t) ((c_tref c, ref) :: others_of data (c_tref c)) rows /\ r = List.concat rows) /\ KR r) ->
  (forall data L t rows r, data_columns c dfs data -> (forall e, In e L <-> In e data) -> NoDup (map fst L) -> Forall2 (row_in (c_tref c) w t) L rows ->
     compared L (c_tref c) w key t r -> (KR (List.concat rows) <-> K t)) ->
  reported c oref n k f key ->
  exists rows, NoDup (map fst rows) /\
    (forall ref, In (c_tref c, ref) dfs -> chronological (findex ref) -> StronglySorted Z.lt (map fst rows)) /\
    (forall t r, In (t, r) rows <-> compared dfs (c_tref c) w key t r /\ K t) /\
    forall m, gpi_metrics code c ig rn oref g key m -> outcome code f (if rn then numbered k else map fst key) key g rows m.
Proof.
  intros MATCH KK REP. assert (WD := proj1 W).
  destruct (columns_exist c dfs WD D) as (data & DC).
  assert (ND := data_nodup c dfs data D DC).
  assert (UD := data_usable c dfs data WD D DC).
  assert (DN := data_names c dfs data DC).
  destruct D as (ND0 & NS & U0).
  assert (IT : In (c_tref c) (map fst dfs)) by (apply NS, TR).
  assert (ITd : In (c_tref c) (map fst data)) by (rewrite DN; exact IT).
  apply in_map_iff in ITd as ([tr0 ref] & ET & IR). cbn in ET. subst tr0.
  assert (LD : List.length data = List.length (c_ds c)).
  { assert (P : Permutation (map fst data) (map fst (c_ds c))) by (apply NoDup_Permutation; [exact ND|exact (proj1 WD)|intros x; rewrite DN; apply NS]).
    apply Permutation_length in P. rewrite !map_length in P. exact P. }
  destruct (MATCH data ref ND IR (fun a b Iab => proj1 (UD a b Iab)) LD) as (out & joined & EM & OS & NF & SF & CF & RF).
  set (L := (c_tref c, ref) :: others_of data (c_tref c)) in *.
  assert (PL : Permutation L data) by (apply others_perm; assumption).
  assert (IL : forall e, In e L <-> In e data) by (intros e; split; apply Permutation_in; [exact PL|symmetry; exact PL]).
  assert (NL : NoDup (map fst L)) by (eapply Permutation_NoDup; [symmetry; apply Permutation_map; exact PL|exact ND]).
  assert (UL : forall n f, In (n, f) L -> usable f /\ NoDup (fcols f)) by (intros a b Iab; apply IL in Iab; exact (UD a b Iab)).
  assert (NE : dfs <> []) by (intros ->; destruct IT).
  assert (CP : forall n cols col, In (n, cols) (c_ds c) -> In col cols -> In (enc (n, col)) (fcols joined)).
  { intros nm cols col A B. rewrite CF. apply in_flat_map.
    assert (In nm (map fst data)) by (rewrite DN; apply NS; apply (in_map fst) in A; exact A).
    apply in_map_iff in H as ([nm' d] & E & Id). cbn in E. subst nm'. exists (nm, d). split; [apply IL, Id|].
    destruct (data_of c dfs data DC nm d Id) as (f0 & cs & If & Ics & Se).
    assert (cs = cols) by (eapply nodup_key; [exact (proj1 WD)|exact Ics|exact A]). subst cs.
    destruct (select_usable f0 cols d Se (proj1 (U0 nm f0 If))) as (_ & Ec & _). unfold columns_named, enc. cbn [fst snd]. rewrite Ec. apply in_map. exact B. }
  destruct (point_key code c F g dfs data out joined rn oref W REG NM NSc GET NE (conj ND0 (conj NS U0)) DC
    (fun a b h Hh => eq_ind_r (fun x => c_match c data (c_tref c) x = Ok out) EM (ALL a b h Hh)) OS CP ig n k f key REP) as (d & CR & OUT).
  exists (frows d).
  assert (SUB : exists p (l : list (Z * row)), frows d = filter p l /\ map fst l = findex joined).
  { destruct CR as (_ & ps & _ & E). eexists. eexists. split; [exact E|]. rewrite map_map. reflexivity. }
  destruct SUB as (p & l & El & Ef).
  split; [|split; [|split; [|exact OUT]]].
  - rewrite El. rewrite <- Ef in NF. clear -NF. induction l as [|x l IH]; cbn; [constructor|]. cbn in NF. inversion NF as [|? ? N1 N2]; subst.
    destruct (p x); [|apply IH, N2]. cbn. constructor; [|apply IH, N2]. intros C. apply N1. apply in_map_iff in C as (y & E & C). apply filter_In in C as [C _].
    rewrite <- E. apply in_map, C.
  - intros ref0 I0 C0. rewrite El. apply sorted_index_filter. rewrite Ef. apply SF.
    destruct (data_of c dfs data DC _ _ IR) as (f0 & cs & If & Ics & Se). assert (f0 = ref0) by exact (nodup_key dfs _ f0 ref0 ND0 If I0). subst f0.
    rewrite (proj2 (proj2 (select_usable ref0 cs ref Se (proj1 (U0 _ _ I0))))). exact C0.
  - intros t r.
    assert (REFIN : In (c_tref c) (map fst L)) by (left; reflexivity).
    rewrite (set_rows (c_tref c) w L joined (fun _ => KR) key d NL UL REFIN CF RF CR t r).
    destruct REP as (_ & SEL & _).
    rewrite <- (compared_data c dfs data WD (conj ND0 (conj NS U0)) DC (c_tref c) w k key t r SEL).
    split.
    + intros [CO H]. split; [apply (compared_perm L data _ _ _ _ _ IL CO)|].
      destruct (rows_exist (c_tref c) w t L) as (rows & FR).
      { intros [a b] Iab. apply (UL a b Iab). }
      { intros [a b] Iab Ea. cbn in Ea. subst a. destruct CO as ((ref' & I' & HT) & _). cbn. rewrite (nodup_key L _ b ref' NL Iab I'). exact HT. }
      apply (KK data L t rows r DC IL NL FR CO). apply H, FR.
    + intros [CO H]. assert (CO' : compared L (c_tref c) w key t r) by (apply (compared_perm data L); [intros e; symmetry; apply IL|exact CO]).
      split; [exact CO'|]. intros rows FR. apply (KK data L t rows r DC IL NL FR CO'). exact H.
Qed.
End Both.
