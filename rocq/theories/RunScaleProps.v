(* C95: what a validation run with scaling and masking computes. *)
From Verif Require Import RunScaleSpec BaseProofs SortProofs NamesProofs TemporalProofs MatchersProofs ValidationProofs ValidationProofs2 ValidationInputProps MaskProofs MaskProps ResultsProofs RunProofs RunProofs2 RunScaleProofs RunScaleProofs2.
From Verif Require Import TemporalModel TemporalSpec.

Lemma dict_set_in {V} (d : list (string * V)) k v k' v' : NoDup (map fst d) -> In k (map fst d) ->
  (In (k', v') (dict_set String.eqb d k v) <-> (k' = k /\ v' = v) \/ (k' <> k /\ In (k', v') d)).
Proof.
  intros N I. induction d as [|[a b] d IH]; [destruct I|]. cbn [map fst] in N, I. apply NoDup_cons_iff in N as [N1 N2]. cbn [dict_set].
  destruct (String.eqb_spec a k) as [->|NE].
  - cbn [In]. split.
    + intros [[= -> ->]|H]; [left; auto|]. right. split; [|right; exact H]. intros ->. apply N1. apply (in_map fst) in H. exact H.
    + intros [[-> ->]|[NE [[= E _]|H]]]; [left; reflexivity|congruence|right; exact H].
  - cbn [In]. destruct I as [I|I]; [congruence|]. rewrite (IH N2 I). split.
    + intros [[= -> ->]|[H|[H1 H2]]]; [right; split; [exact NE|left; reflexivity]|left; exact H|right; auto].
    + intros [H|[H1 [H2|H2]]]; [right; left; exact H|left; exact H2|right; right; auto].
Qed.

Section Masking.
Context {G V : Type}.
Variable c : @config G V.

(* masking with the default matcher: masking columns of distinct datasets, a temporal reference without repeated times and missing values *)
Definition sound_masking (store : cell -> cell) (oob w : Z) (g : G) (dfs : df_dict) (mds : ds_dict) (masks : list (string * frame)) : Prop :=
  exists gm rcs ref, c_mask c = Some (mds, gm) /\ (forall d r n, c_match c d r n = combinatory_matcher store oob w d r n) /\
    wf_dict mds /\ In ("_reference"%string, rcs) mds /\ rcs <> [] /\ incl rcs (fcols ref) /\
    gm g = Ok masks /\ NoDup (map fst masks) /\ ~ In "_reference"%string (map fst masks) /\
    (forall k f, In (k, f) masks -> usable f /\ NoDup (fcols f)) /\
    In (c_tref c, ref) dfs /\ NoDup (findex ref) /\ (forall t r v, In (t, r) (frows ref) -> In v r -> v <> None).

(* After masking, the compared observations are those without a masking value. *)
Theorem C95_masked_observations store oob w g dfs0 dfs mds masks :
  delivered (c_ds c) dfs0 -> sound_masking store oob w g dfs0 mds masks -> masked_data c g dfs0 dfs ->
  delivered (c_ds c) dfs /\
  forall w' key t r, compared dfs (c_tref c) w' key t r <-> compared dfs0 (c_tref c) w' key t r /\ ~ masked_at mds masks w t.
Proof.
  intros D (gm & rcs & ref & MK & HM & WM & ER & NR & IR & EG & NM & NRf & US & IRef & NT & CV) MD.
  unfold masked_data in MD. rewrite MK in MD. destruct MD as (ref' & masked & EG' & EM & NE & ->).
  destruct D as (ND & NS & U).
  assert (ref' = ref) by (apply dict_get_in in EG'; [exact (nodup_key dfs0 _ ref' ref ND EG' IRef)|exact ND]). subst ref'.
  destruct (U _ _ IRef) as ((WR & MR) & NC & IC).
  destruct (C34_complete_reference_partial G V c store oob w mds gm ref g rcs masks masked HM WM ER NR IR EG NM NRf WR NC US NT CV EM) as (keep & EK & K).
  destruct (mask_dataset_rows c mds gm ref g masked EM) as (FC & _).
  assert (IN : In (c_tref c) (map fst dfs0)) by (apply (in_map fst) in IRef; exact IRef).
  assert (KEYS : map fst (dict_set String.eqb dfs0 (c_tref c) masked) = map fst dfs0).
  { rewrite dict_set_keys. destruct (existsb (String.eqb (c_tref c)) (map fst dfs0)) eqn:X; [reflexivity|]. exfalso.
    assert (Y : existsb (String.eqb (c_tref c)) (map fst dfs0) = true) by (apply existsb_exists; exists (c_tref c); split; [exact IN|apply String.eqb_refl]). congruence. }
  assert (FST : forall t r, In (t, r) (frows ref) <-> first_row ref t r).
  { intros t r. unfold first_row. split; [|intros H; apply find_some in H as [H _]; exact H].
    unfold findex in NT. clear -NT. induction (frows ref) as [|[t' r'] l IH]; [intros []|]. cbn in *. apply NoDup_cons_iff in NT as [N1 N2].
    intros [E|I]; [injection E as -> ->; rewrite Z.eqb_refl; reflexivity|]. destruct (Z.eqb_spec t' t) as [->|N]; [|apply IH; assumption].
    exfalso. apply N1, in_map_iff. exists (t, r). auto. }
  assert (NTm : NoDup (findex masked)).
  { unfold findex in *. rewrite EK. clear -NT. induction (frows ref) as [|x l IH]; cbn in *; [constructor|]. apply NoDup_cons_iff in NT as [N1 N2].
    destruct (keep x); [|apply IH, N2]. cbn. constructor; [|apply IH, N2]. intros C. apply N1. apply in_map_iff in C as (y & E & C). apply filter_In in C as [C _]. rewrite <- E. apply in_map, C. }
  assert (FSTm : forall t r, first_row masked t r <-> first_row ref t r /\ ~ masked_at mds masks w t).
  { intros t r. rewrite <- FST. split.
    - intros H. unfold first_row in H. apply find_some in H as [H _]. rewrite EK in H. apply filter_In in H as [H1 H2]. split; [exact H1|]. apply (K t r H1). exact H2.
    - intros [H1 H2]. unfold first_row. assert (I : In (t, r) (frows masked)) by (rewrite EK; apply filter_In; split; [exact H1|apply (K t r H1); exact H2]).
      unfold findex in NTm. clear -NTm I. induction (frows masked) as [|[t' r'] l IH]; [destruct I|]. cbn in *. apply NoDup_cons_iff in NTm as [N1 N2].
      destruct I as [E|I]; [injection E as -> ->; rewrite Z.eqb_refl; reflexivity|]. destruct (Z.eqb_spec t' t) as [->|N]; [|apply IH; assumption].
      exfalso. apply N1, in_map_iff. exists (t, r). auto. }
  assert (DSI := fun k f => dict_set_in dfs0 (c_tref c) masked k f ND IN).
  split.
  - split; [rewrite KEYS; exact ND|]. split; [intros d; rewrite KEYS; apply NS|]. intros d f I. apply DSI in I as [[-> ->]|[_ I]]; [|exact (U d f I)].
    split; [split|].
    + intros t r I. rewrite FC. apply (WR t r). rewrite EK in I. apply filter_In in I as [I _]. exact I.
    + assert (DD : forall l : list (Z * row), NoDup (map fst l) -> dedup_first fst l = l).
      { clear. intros l N. unfold dedup_first. enough (X : forall seen, (forall x, In x (map fst l) -> ~ In x seen) -> dedup_aux fst seen l = l) by (apply X; intros x _ []).
        induction l as [|x l IH]; intros seen H; [reflexivity|]. cbn in N |- *. apply NoDup_cons_iff in N as [N1 N2].
        destruct (existsb (Z.eqb (fst x)) seen) eqn:E.
        - exfalso. apply existsb_exists in E as (y & Iy & Ey). apply Z.eqb_eq in Ey. subst y. apply (H (fst x)); [left; reflexivity|exact Iy].
        - f_equal. apply IH; [exact N2|]. intros y Hy [C|C]; [subst y; contradiction|apply (H y); [right; exact Hy|exact C]]. }
      unfold findex in *. cbn [frows] in *. rewrite (DD _ NT) in MR. rewrite (DD _ NTm), EK.
      destruct MR as [S|S]; [left|right].
      * apply sorted_index_filter. exact S.
      * clear -S. induction (frows ref) as [|x l IH]; cbn in *; [constructor|]. inversion S as [|? ? S1 S2]; subst. destruct (keep x); [|apply IH, S1]. cbn. constructor; [apply IH, S1|].
        apply Forall_forall. intros y Hy. rewrite Forall_forall in S2. apply S2. apply in_map_iff in Hy as (z & <- & Hz). apply filter_In in Hz as [Hz _]. apply in_map, Hz.
    + rewrite FC. split; [exact NC|]. intros cols Ic. apply IC, Ic.
  - intros w' key t r.
    assert (HT : (exists rf, In (c_tref c, rf) (dict_set String.eqb dfs0 (c_tref c) masked) /\ has_time rf t) <-> (exists rf, In (c_tref c, rf) dfs0 /\ has_time rf t) /\ ~ masked_at mds masks w t).
    { split.
      - intros (rf & I & (r0 & Ir)). apply DSI in I as [[_ ->]|[C _]]; [|contradiction]. rewrite EK in Ir. apply filter_In in Ir as [I1 I2]. split; [exists ref; split; [exact IRef|exists r0; exact I1]|apply (K t r0 I1); exact I2].
      - intros [(rf & I & (r0 & Ir)) NMk]. rewrite (nodup_key dfs0 _ rf ref ND I IRef) in Ir. exists masked. split; [apply DSI; left; auto|]. exists r0. rewrite EK. apply filter_In. split; [exact Ir|]. apply (K t r0 Ir). exact NMk. }
    assert (OB : ~ masked_at mds masks w t -> forall x v, observed (dict_set String.eqb dfs0 (c_tref c) masked) (c_tref c) w' t x v <-> observed dfs0 (c_tref c) w' t x v).
    { intros NMk x v. split.
      - intros (f & row & i & I & A & B & C). apply DSI in I as [[E ->]|[N I]].
        + exists ref, row, i. rewrite E, String.eqb_refl in *. rewrite FC in A. split; [exact IRef|]. split; [exact A|]. split; [exact B|]. apply FSTm, C.
        + exists f, row, i. auto.
      - intros (f & row & i & I & A & B & C). destruct (String.eqb_spec (fst x) (c_tref c)) as [E|N].
        + rewrite E in I. rewrite (nodup_key dfs0 _ f ref ND I IRef) in *. exists masked, row, i. rewrite FC. split; [apply DSI; left; auto|]. split; [exact A|]. split; [exact B|].
          rewrite E, String.eqb_refl. apply FSTm. auto.
        + exists f, row, i. split; [apply DSI; right; auto|]. split; [exact A|]. split; [exact B|]. apply String.eqb_neq in N. rewrite N. exact C. }
    unfold compared. rewrite HT. split.
    + intros ((H1 & NMk) & F & N). split; [|exact NMk]. split; [exact H1|]. split; [|exact N]. clear -F OB NMk. induction F; constructor; [apply OB; assumption|assumption].
    + intros ((H1 & F & N) & NMk). split; [auto|]. split; [|exact N]. clear -F OB NMk. induction F; constructor; [apply OB; assumption|assumption].
Qed.
End Masking.

Section Props.
Context {G V : Type}.
Variable code : Z -> V.
Notation config := (@config G V).

(* A run with the default matcher, possibly with masking and scaling.  dfs are the data after masking.  R gives the rows of each
   combination: the times at which the combination and the scaling reference have values.  If the scaling of some combination fails,
   every combination of the grid point has the status "scaling failed"; otherwise the metrics are those of the scaled rows. *)
Theorem C95_scaled_point (c : config) F col store oob w g dfs0 dfs ignore rename only_ref :
  scaled_run c F col -> (forall d r m, c_match c d r m = combinatory_matcher store oob w d r m) ->
  c_get c g = Ok dfs0 -> masked_data c g dfs0 dfs -> delivered (c_ds c) dfs ->
  exists R : list dscol -> list (Z * row),
    (forall n k f key, reported c only_ref n k f key ->
       NoDup (map fst (R key)) /\
       (forall ref, In (c_tref c, ref) dfs -> chronological (findex ref) -> StronglySorted Z.lt (map fst (R key))) /\
       (forall t r, In (t, r) (R key) <-> compared dfs (c_tref c) w (columns_read c col key) t r)) /\
    forall n k f key m, reported c only_ref n k f key -> gpi_metrics code c ignore rename only_ref g key m ->
      (some_scaling_error c only_ref g col R -> failed_with code f key g SCALING_FAILED m) /\
      (~ some_scaling_error c only_ref g col R ->
         scaled_outcome code c f (if rename then numbered k else map fst key) key (columns_read c col key) g (R key) m).
Proof.
  intros RUN MT GET MD D. assert (W := proj1 RUN).
  destruct (both_scaled code c F col g dfs0 dfs rename only_ref RUN GET MD D w
    (fun r => exists x, In x r /\ x <> None) (fun _ => True) ignore) as (R & A & B).
  - intros data ref ND IR U L. rewrite <- L, MT. exact (combinatory_one store oob w data (c_tref c) ref ND IR U).
  - intros key data L t rows r NE DC IL NL FR CO. split; [intros _; exact Logic.I|intros _].
    apply (compared_cell L (c_tref c) w t key r rows NE CO NL); [|exact FR].
    intros a b I. apply IL in I. exact (data_usable c dfs data (proj1 W) D DC a b I).
  - exists R. split; [|exact B]. intros n k f key REP. destruct (A n k f key REP) as (A1 & A2 & A3). split; [exact A1|]. split; [exact A2|]. intros t r. rewrite A3. tauto.
Qed.
(* With the combined matcher, times are left out at which any configured column of any dataset has no value. *)
Theorem C95_scaled_common (c : config) F col store oob hour window g dfs0 dfs ignore rename only_ref :
  scaled_run c F col -> (forall d r m, c_match c d r m = combined_matcher store oob hour window d r (Some m)) ->
  c_get c g = Ok dfs0 -> masked_data c g dfs0 dfs -> delivered (c_ds c) dfs ->
  let w := match window with Some w => w | None => hour end in
  exists R : list dscol -> list (Z * row),
    (forall n k f key, reported c only_ref n k f key ->
       NoDup (map fst (R key)) /\
       (forall ref, In (c_tref c, ref) dfs -> chronological (findex ref) -> StronglySorted Z.lt (map fst (R key))) /\
       (forall t r, In (t, r) (R key) <-> compared dfs (c_tref c) w (columns_read c col key) t r /\ all_observed (c_ds c) dfs (c_tref c) w t)) /\
    forall n k f key m, reported c only_ref n k f key -> gpi_metrics code c ignore rename only_ref g key m ->
      (some_scaling_error c only_ref g col R -> failed_with code f key g SCALING_FAILED m) /\
      (~ some_scaling_error c only_ref g col R ->
         scaled_outcome code c f (if rename then numbered k else map fst key) key (columns_read c col key) g (R key) m).
Proof.
  intros RUN MT GET MD D w. assert (W := proj1 RUN).
  apply (both_scaled code c F col g dfs0 dfs rename only_ref RUN GET MD D w
    (fun r => forall x, In x r -> x <> None) (all_observed (c_ds c) dfs (c_tref c) w) ignore).
  - intros data ref ND IR U L. rewrite <- L, MT. exact (combined_one store oob hour window data (c_tref c) ref ND IR U).
  - intros key data L t rows r _ DC IL NL FR CO.
    assert (UD := data_usable c dfs data (proj1 W) D DC).
    assert (UL : forall a b, In (a, b) L -> usable b /\ NoDup (fcols b)) by (intros a b I; apply IL in I; exact (UD a b I)).
    rewrite (whole_row (c_tref c) w t L rows NL UL FR). unfold all_observed. split.
    + intros H d cols cl A B. destruct D as (ND0 & NSd & U0).
      assert (In d (map fst data)) as X by (rewrite (data_names c dfs data DC); apply NSd; apply (in_map fst) in A; exact A).
      apply in_map_iff in X as ([d' fr] & Ed & X). cbn in Ed. subst d'.
      destruct (data_of c dfs data DC d fr X) as (f0 & cs & If & Ics & Se).
      assert (cs = cols) by exact (nodup_key (c_ds c) _ cs cols (proj1 (proj1 W)) Ics A). subst cs.
      destruct (select_usable f0 cols fr Se (proj1 (U0 d f0 If))) as (_ & Ec & _).
      destruct (H d fr cl (proj2 (IL _) X)) as (v & O & NV); [rewrite Ec; exact B|]. exists v. split; [|exact NV].
      apply (observed_data c dfs data (proj1 W) (conj ND0 (conj NSd U0)) DC (c_tref c) w t d cl cols v A B). apply (observed_perm L data); assumption.
    + intros H d fr cl A B. apply IL in A. destruct (data_of c dfs data DC d fr A) as (f0 & cs & If & Ics & Se).
      destruct (select_usable f0 cs fr Se (proj1 (proj2 (proj2 D) d f0 If))) as (_ & Ec & _). rewrite Ec in B.
      destruct (H d cs cl Ics B) as (v & O & NV). exists v. split; [|exact NV].
      apply (observed_perm data L); [intros e; symmetry; apply IL|]. apply (observed_data c dfs data (proj1 W) D DC (c_tref c) w t d cl cs v Ics B). exact O.
Qed.

(* The arrays returned by a run with masking and scaling: one entry per grid point, the field of the metrics of the scaled rows of
   its observations that are not masked. *)
Theorem C95_run (c : config) F col store oob w mds rename only_ref gpis :
  scaled_run c F col -> (forall d r m, c_match c d r m = combinatory_matcher store oob w d r m) -> gpis <> [] ->
  (forall g, In g gpis -> exists dfs0 dfs masks, c_get c g = Ok dfs0 /\ delivered (c_ds c) dfs0 /\ sound_masking c store oob w g dfs0 mds masks /\ masked_data c g dfs0 dfs) ->
  exists out, calc code c true rename only_ref gpis = VOk out /\
    (forall key, In key (map fst out) <-> exists n k f, reported c only_ref n k f key) /\
    forall key fields x arr n k f, In (key, fields) out -> In (x, arr) fields -> reported c only_ref n k f key ->
      Forall2 (fun g v => exists dfs0 masks R m gm, c_get c g = Ok dfs0 /\ c_mask c = Some (mds, gm) /\ gm g = Ok masks /\
        (forall n k f key, reported c only_ref n k f key -> NoDup (map fst (R key)) /\
           forall t r, In (t, r) (R key) <-> compared dfs0 (c_tref c) w (columns_read c col key) t r /\ ~ masked_at mds masks w t) /\
        (some_scaling_error c only_ref g col R -> failed_with code f key g SCALING_FAILED m) /\
        (~ some_scaling_error c only_ref g col R ->
           scaled_outcome code c f (if rename then numbered k else map fst key) key (columns_read c col key) g (R key) m) /\
        field_get m x = Ok v) gpis arr.
Proof.
  intros RUN MT NE HG. assert (RUN' := RUN). destruct RUN' as (W & SH & SR & TR & C).
  destruct (calc_total code c F rename only_ref gpis W (fun a b h I => proj2 (C a b h I))) as (out & E & _).
  exists out. split; [exact E|].
  destruct (calc_ok code c true rename only_ref gpis out W) as (_ & KEYS & ARR); [|exact NE|exact E|].
  { intros g Hg mds' gm dfs ref masked MK EG ER EM. destruct (HG g Hg) as (dfs0 & dfs1 & masks & EG' & _ & _ & MD).
    unfold masked_data in MD. rewrite MK in MD. destruct MD as (ref' & masked' & A & B & N & _). congruence. }
  split; [exact KEYS|]. intros key fields x arr n k f I1 I2 REP. specialize (ARR key fields x arr I1 I2).
  revert HG. clear E NE I2. induction ARR as [|g v gs vs (m & GM & FG) ARR IH]; intros HG; [constructor|]. constructor; [|apply IH; intros g' Hg'; apply HG; right; exact Hg'].
  destruct (HG g (or_introl eq_refl)) as (dfs0 & dfs & masks & GET & D0 & SM & MD).
  destruct (C95_masked_observations c store oob w g dfs0 dfs mds masks D0 SM MD) as (D & CMP).
  destruct (C95_scaled_point c F col store oob w g dfs0 dfs true rename only_ref RUN MT GET MD D) as (R & RS & RO).
  destruct SM as (gm & rcs & ref & MK & _ & _ & _ & _ & _ & EGM & _).
  exists dfs0, masks, R, m, gm. split; [exact GET|]. split; [exact MK|]. split; [exact EGM|]. split.
  - intros n' k' f' key' REP'. destruct (RS n' k' f' key' REP') as (A1 & _ & A3). split; [exact A1|]. intros t r. rewrite A3, CMP. reflexivity.
  - destruct (RO n k f key m REP GM) as (B1 & B2). split; [exact B1|]. split; [exact B2|exact FG].
Qed.
End Props.

(* ------------------------------------------------------- an example *)
(* three datasets; "a" is the temporal reference, "d" the scaling reference; the scaling method shifts all columns to the mean of
   the scaling reference and fails if there is one row only; masking values at 29 and 50 *)
From Verif Require Import RunProps.
Section Example.
Open Scope string_scope.
Definition sc_dfs : df_dict :=
  [("a", mkFrame ["x"] [(10, [Some 1%Q]); (20, [Some 2%Q]); (30, [Some 3%Q]); (40, [Some 4%Q])]);
   ("b", mkFrame ["u"; "y"] [(11, [None; Some 5%Q]); (19, [None; Some 6%Q]); (30, [None; Some 7%Q]); (41, [None; Some 8%Q])]);
   ("d", mkFrame ["z"] [(10, [Some 4%Q]); (30, [Some 9%Q]); (40, [Some 6%Q])])].
Definition q_mean (l : list cell) : Q := Qred (fold_right (fun v s => Qplus (match v with Some q => q | None => 0%Q end) s) 0%Q l / inject_Z (Z.of_nat (List.length l)))%Q.
Definition col_of (d : frame) (j : nat) : list cell := map (fun tr => nth j (snd tr) None) (frows d).
Definition sc_shift (lim : nat) (d : frame) (i : nat) (_ : nat) : res frame :=
  if Nat.leb (List.length (frows d)) lim then Err EValue else
  Ok (mkFrame (fcols d) (map (fun tr => (fst tr, map (fun jv => option_map (fun q => Qred (q - q_mean (col_of d (fst jv)) + q_mean (col_of d i))%Q) (snd jv))
     (combine (seq 0 (List.length (snd tr))) (snd tr)))) (frows d))).
Definition sc_cfg (lim : nat) : @config nat Q :=
  mkCfg [("a", ["x"]); ("b", ["y"]); ("d", ["z"])] "a" "a" "d" (fun _ => Ok sc_dfs) (combinatory_matcher (fun c => c) 0 2) (Some (sc_shift lim)) [((3%nat, 2%nat), run_calc)]
    (Some ([("_reference", ["x"]); ("m", ["f"])], fun _ => Ok [("m", mkFrame ["f"] [(29, [Some 1%Q]); (50, [Some 1%Q])])])).
(* the pair (a, b) is compared where d has values too, at 10 and 40 (30 is masked): a - 2.5 + 5 and b - 6.5 + 5 *)
Example C95_ex : calc inject_Z (sc_cfg 1) true true false [0]%nat =
  VOk [([("a", "x"); ("b", "y")], [(FName "n", [2]%Q); (FName "sum", [(109 # 2)%Q]); (FName "status", [0]%Q)]);
       ([("a", "x"); ("d", "z")], [(FName "n", [2]%Q); (FName "sum", [53]%Q); (FName "status", [0]%Q)]);
       ([("b", "y"); ("d", "z")], [(FName "n", [2]%Q); (FName "sum", [53]%Q); (FName "status", [0]%Q)])].
Proof. vm_compute. reflexivity. Qed.
(* a scaling error affects every combination of the grid point *)
Example C95_ex_error : calc inject_Z (sc_cfg 2) true true false [0]%nat =
  VOk [([("a", "x"); ("b", "y")], [(FName "n", [0]%Q); (FName "sum", [0]%Q); (FName "status", [5]%Q)]);
       ([("a", "x"); ("d", "z")], [(FName "n", [0]%Q); (FName "sum", [0]%Q); (FName "status", [5]%Q)]);
       ([("b", "y"); ("d", "z")], [(FName "n", [0]%Q); (FName "sum", [0]%Q); (FName "status", [5]%Q)])].
Proof. vm_compute. reflexivity. Qed.
Example C95_hypotheses : scaled_run (sc_cfg 1) (fun _ => [FName "n"; FName "sum"; FName "status"]) "z" /\ delivered (c_ds (sc_cfg 1)) sc_dfs /\
  sound_masking (sc_cfg 1) (fun c => c) 0 2 0%nat sc_dfs [("_reference", ["x"]); ("m", ["f"])] [("m", mkFrame ["f"] [(29, [Some 1%Q]); (50, [Some 1%Q])])] /\
  exists dfs, masked_data (sc_cfg 1) 0%nat sc_dfs dfs /\ exists f, In ("a", f) dfs /\ findex f = [10; 20; 40].
Proof.
  split; [|split; [|split]].
  - split; [|split; [|split; [|split]]].
    + split; [|split].
      * split; [repeat constructor; cbn; intuition discriminate|]. intros d cols [E|[E|[E|[]]]]; injection E as <- <-; repeat constructor; intros [].
      * intros n k f [E|[]]. injection E as <- <- <-. lia.
      * repeat constructor; cbn; tauto.
    + intros scale g [= <-] d i sc. unfold sc_shift. destruct (Nat.leb _ _); [discriminate|]. intros [= <-]. cbn [fcols frows]. split; [reflexivity|].
      set (h := fun tr : Z * row => (fst tr, map (fun jv => option_map (fun q => Qred (q - q_mean (col_of d (fst jv)) + q_mean (col_of d i))%Q) (snd jv)) (combine (seq 0 (List.length (snd tr))) (snd tr)))).
      induction (frows d) as [|x l IH]; cbn [map]; constructor; [|exact IH]. split; [reflexivity|]. unfold h. cbn [snd].
      rewrite map_length, combine_length, seq_length. apply Nat.min_id.
    + reflexivity.
    + left. reflexivity.
    + intros n k f [E|[]]. injection E as <- <- <-. split; [reflexivity|]. split; [|split; [|split; [|split]]].
      * repeat constructor; cbn; intuition discriminate.
      * cbn. auto.
      * cbn. intros l H. intuition discriminate.
      * intros d g _. eexists. reflexivity.
      * intros d g mm E. injection E as <-. split; [reflexivity|]. cbn. intros k x H. intuition (match goal with H : (_, _) = (_, _) |- _ => injection H as <- <- end; eauto).
  - split; [repeat constructor; cbn; intuition discriminate|]. split; [intros d; cbn; tauto|].
    assert (U : forall d f, In (d, f) sc_dfs -> usable f).
    { intros d f [E|[E|[E|[]]]]; injection E as <- <-; (split; [intros t r H; cbn in H; intuition (match goal with H : (_, _) = (_, _) |- _ => injection H as <- <- end; reflexivity)|]);
      left; cbv - [Z.lt]; repeat constructor. }
    intros d f I. split; [exact (U d f I)|]. destruct I as [E|[E|[E|[]]]]; injection E as <- <-; (split; [repeat constructor; cbn; intuition discriminate|]);
      intros cols [E|[E|[E|[]]]]; try discriminate E; injection E as <-; intros x [<-|[]]; cbn; auto.
  - do 3 eexists. split; [reflexivity|]. split; [reflexivity|]. split; [|split; [left; reflexivity|split; [discriminate|]]].
    + split; [repeat constructor; cbn; intuition discriminate|]. intros d cols [E|[E|[]]]; injection E as <- <-; repeat constructor; intros [].
    + split; [|split; [reflexivity|split; [repeat constructor; intros []|split; [cbn; intuition discriminate|split; [|split; [left; reflexivity|split]]]]]].
      * intros x H. exact H.
      * intros k f [E|[]]. injection E as <- <-. split; [|repeat constructor; intros []]. split; [intros t r [E|[E|[]]]; injection E as <- <-; reflexivity|]. left. cbv - [Z.lt]. repeat constructor.
      * cbn. repeat constructor; cbn; intuition discriminate.
      * intros t r v H Iv. cbn in H. intuition (match goal with H : (_, _) = (_, _) |- _ => injection H as <- <- end); cbn in Iv; intuition (subst; discriminate).
  - eexists. split.
    + do 2 eexists. split; [reflexivity|]. split; [vm_compute; reflexivity|]. split; [discriminate|reflexivity].
    + eexists. split; [left; reflexivity|reflexivity].
Qed.
End Example.
Print Assumptions C95_masked_observations.
Print Assumptions C95_scaled_point.
Print Assumptions C95_scaled_common.
Print Assumptions C95_run.
