(* C89: which observations a validation run compares. *)
From Verif Require Import RunSpec BaseProofs MatchersProofs ValidationProofs ValidationProofs2 RunProofs RunProofs2.
From Verif Require Import TemporalModel TemporalSpec.

Section Props.
Context {G V : Type}.
Variable code : Z -> V.
Notation config := (@config G V).

(* a run over all datasets at once, without masking and scaling, with calculators that fill their fields *)
Definition plain_run (c : config) (F : nat -> list field) : Prop :=
  wf_config c /\ c_mask c = None /\ c_scale c = None /\ In (c_tref c) (map fst (c_ds c)) /\
  (forall n k f, In ((n, k), f) (c_calcs c) -> n = List.length (c_ds c) /\ regular (F k) f).

(* With the default matcher, the metrics of a combination are those of the rows at the observation times
   of the temporal reference at which the reference and the nearest observations of all datasets of the
   combination have values; other datasets have no influence. *)
Theorem C89_nearest_observations (c : config) F store oob w g dfs ignore rename only_ref n k f key :
  plain_run c F -> (forall d r m, c_match c d r m = combinatory_matcher store oob w d r m) ->
  c_get c g = Ok dfs -> delivered (c_ds c) dfs -> reported c only_ref n k f key ->
  exists rows, NoDup (map fst rows) /\
    (forall ref, In (c_tref c, ref) dfs -> chronological (findex ref) -> StronglySorted Z.lt (map fst rows)) /\
    (forall t r, In (t, r) rows <-> compared dfs (c_tref c) w key t r) /\
    forall m, gpi_metrics code c ignore rename only_ref g key m ->
      outcome code f (if rename then numbered k else map fst key) key g rows m.
Proof.
  intros (W & NM & NS & TR & C) MT GET D REP.
  assert (K1 : (1 <= k)%nat) by (destruct REP as (I & _); exact (proj1 (proj2 W) n k f I)).
  assert (NE : key <> []) by (destruct REP as (_ & (L & _) & _); intros ->; cbn in L; lia).
  destruct (both code c F g dfs rename only_ref W (fun a b h I => proj2 (C a b h I)) (fun a b h I => proj1 (C a b h I)) NM NS TR GET D w
    (fun r => exists x, In x r /\ x <> None) (fun _ => True) ignore n k f key) as (rows & A & B & E & O); [| |exact REP|].
  - intros data ref ND IR U L. rewrite <- L, MT. exact (combinatory_one store oob w data (c_tref c) ref ND IR U).
  - intros data L t rows r DC IL NL FR CO. split; [intros _; exact Logic.I|intros _].
    apply (compared_cell L (c_tref c) w t key r rows NE CO NL); [|exact FR].
    intros a b I. apply IL in I. exact (data_usable c dfs data (proj1 W) D DC a b I).
  - exists rows. split; [exact A|]. split; [exact B|]. split; [|exact O]. intros t r. rewrite E. tauto.
Qed.

(* With the combined matcher, times are left out at which any configured column of any dataset has no value. *)
Theorem C89_common_observations (c : config) F store oob hour window g dfs ignore rename only_ref n k f key :
  plain_run c F -> (forall d r m, c_match c d r m = combined_matcher store oob hour window d r (Some m)) ->
  c_get c g = Ok dfs -> delivered (c_ds c) dfs -> reported c only_ref n k f key ->
  let w := match window with Some w => w | None => hour end in
  exists rows, NoDup (map fst rows) /\
    (forall ref, In (c_tref c, ref) dfs -> chronological (findex ref) -> StronglySorted Z.lt (map fst rows)) /\
    (forall t r, In (t, r) rows <-> compared dfs (c_tref c) w key t r /\ all_observed (c_ds c) dfs (c_tref c) w t) /\
    forall m, gpi_metrics code c ignore rename only_ref g key m ->
      outcome code f (if rename then numbered k else map fst key) key g rows m.
Proof.
  intros (W & NM & NS & TR & C) MT GET D REP w.
  apply (both code c F g dfs rename only_ref W (fun a b h I => proj2 (C a b h I)) (fun a b h I => proj1 (C a b h I)) NM NS TR GET D w
    (fun r => forall x, In x r -> x <> None) (all_observed (c_ds c) dfs (c_tref c) w) ignore n k f key); [| |exact REP].
  - intros data ref ND IR U L. rewrite <- L, MT. exact (combined_one store oob hour window data (c_tref c) ref ND IR U).
  - intros data L t rows r DC IL NL FR CO.
    assert (UD := data_usable c dfs data (proj1 W) D DC).
    assert (UL : forall a b, In (a, b) L -> usable b /\ NoDup (fcols b)) by (intros a b I; apply IL in I; exact (UD a b I)).
    rewrite (whole_row (c_tref c) w t L rows NL UL FR). unfold all_observed. split.
    + intros H d cols col A B. destruct D as (ND0 & NSd & U0).
      assert (In d (map fst data)) as X by (rewrite (data_names c dfs data DC); apply NSd; apply (in_map fst) in A; exact A).
      apply in_map_iff in X as ([d' fr] & Ed & X). cbn in Ed. subst d'.
      destruct (data_of c dfs data DC d fr X) as (f0 & cs & If & Ics & Se).
      assert (cs = cols) by (eapply nodup_key; [exact (proj1 (proj1 W))|exact Ics|exact A]). subst cs.
      destruct (select_usable f0 cols fr Se (proj1 (U0 d f0 If))) as (_ & Ec & _).
      destruct (H d fr col (proj2 (IL _) X)) as (v & O & NV); [rewrite Ec; exact B|]. exists v. split; [|exact NV].
      apply (observed_data c dfs data (proj1 W) (conj ND0 (conj NSd U0)) DC (c_tref c) w t d col cols v A B). apply (observed_perm L data); assumption.
    + intros H d fr col A B. apply IL in A. destruct (data_of c dfs data DC d fr A) as (f0 & cs & If & Ics & Se).
      destruct (select_usable f0 cs fr Se (proj1 (proj2 (proj2 D) d f0 If))) as (_ & Ec & _). rewrite Ec in B.
      destruct (H d cs col Ics B) as (v & O & NV). exists v. split; [|exact NV].
      apply (observed_perm data L); [intros e; symmetry; apply IL|]. apply (observed_data c dfs data (proj1 W) D DC (c_tref c) w t d col cs v Ics B). exact O.
Qed.

(* the arrays returned by a run: one entry per grid point, the field of the metrics of its compared observations *)
Theorem C89_run (c : config) F store oob w rename only_ref gpis :
  plain_run c F -> (forall d r m, c_match c d r m = combinatory_matcher store oob w d r m) -> gpis <> [] ->
  (forall g, In g gpis -> exists dfs, c_get c g = Ok dfs /\ delivered (c_ds c) dfs) ->
  exists out, calc code c true rename only_ref gpis = VOk out /\
    (forall key, In key (map fst out) <-> exists n k f, reported c only_ref n k f key) /\
    forall key fields x arr n k f, In (key, fields) out -> In (x, arr) fields -> reported c only_ref n k f key ->
      Forall2 (fun g v => exists dfs rows m, c_get c g = Ok dfs /\ NoDup (map fst rows) /\
        (forall t r, In (t, r) rows <-> compared dfs (c_tref c) w key t r) /\
        outcome code f (if rename then numbered k else map fst key) key g rows m /\ field_get m x = Ok v) gpis arr.
Proof.
  intros PR MT NE HG. assert (PR' := PR). destruct PR' as (W & NM & NS & TR & C).
  destruct (calc_total code c F rename only_ref gpis W (fun a b h I => proj2 (C a b h I))) as (out & E & _).
  exists out. split; [exact E|].
  destruct (calc_ok code c true rename only_ref gpis out W) as (_ & KEYS & ARR); [|exact NE|exact E|].
  { intros g Hg mds gm dfs ref masked X. congruence. }
  split; [exact KEYS|]. intros key fields x arr n k f I1 I2 REP. specialize (ARR key fields x arr I1 I2).
  revert HG. clear E NE I2. induction ARR as [|g v gs vs (m & GM & FG) ARR IH]; intros HG; [constructor|]. constructor; [|apply IH; intros g' Hg'; apply HG; right; exact Hg'].
  destruct (HG g (or_introl eq_refl)) as (dfs & GET & D).
  destruct (C89_nearest_observations c F store oob w g dfs true rename only_ref n k f key PR MT GET D REP) as (rows & N & _ & R & O).
  exists dfs, rows, m. split; [exact GET|]. split; [exact N|]. split; [exact R|]. split; [apply O, GM|exact FG].
Qed.
End Props.

(* ------------------------------------------------------- an example *)
(* three datasets; "a" is the temporal reference, "b" has two columns of which one is compared, the
   calculator returns the number and the sum of products of the rows *)
Section Example.
Open Scope string_scope.
Definition run_dfs : df_dict :=
  [("a", mkFrame ["x"] [(10, [Some 1%Q]); (20, [Some 2%Q]); (30, [Some 3%Q]); (40, [None])]);
   ("b", mkFrame ["u"; "y"] [(11, [None; Some 5%Q]); (19, [None; Some 6%Q]); (21, [None; Some 7%Q]); (41, [None; Some 8%Q])]);
   ("d", mkFrame ["z"] [(10, [Some 4%Q]); (30, [Some 9%Q])])].
Definition run_sum (d : frame) : Q := Qred (fold_right (fun tr s => Qplus (fold_right (fun v p => Qmult (match v with Some q => q | None => 0%Q end) p) 1%Q (snd tr)) s) 0%Q (frows d)).
Definition run_calc (d : frame) (_ : nat) : res (list (field * fval Q)) :=
  Ok [(FName "n", Arr [inject_Z (Z.of_nat (List.length (frows d)))]); (FName "sum", Arr [run_sum d]); (FName "status", Arr [0%Q])].
Definition run_cfg : @config nat Q :=
  mkCfg [("a", ["x"]); ("b", ["y"]); ("d", ["z"])] "a" "a" "a" (fun _ => Ok run_dfs) (combinatory_matcher (fun c => c) 0 2) None [((3%nat, 2%nat), run_calc)] None.
Example C89_ex : calc inject_Z run_cfg true true false [0; 1]%nat =
  VOk [([("a", "x"); ("b", "y")], [(FName "n", [2; 2]%Q); (FName "sum", [19; 19]%Q); (FName "status", [0; 0]%Q)]);
       ([("a", "x"); ("d", "z")], [(FName "n", [2; 2]%Q); (FName "sum", [31; 31]%Q); (FName "status", [0; 0]%Q)]);
       ([("b", "y"); ("d", "z")], [(FName "n", [1; 1]%Q); (FName "sum", [20; 20]%Q); (FName "status", [0; 0]%Q)])].
Proof. vm_compute. reflexivity. Qed.
Definition run_cfg2 : @config nat Q :=
  mkCfg [("a", ["x"]); ("b", ["y"]); ("d", ["z"])] "a" "a" "a" (fun _ => Ok run_dfs) (fun d r m => combined_matcher (fun c => c) 0 1 (Some 2) d r (Some m)) None [((3%nat, 2%nat), run_calc)] None.
Example C89_ex2 : calc inject_Z run_cfg2 true true false [0]%nat =
  VOk [([("a", "x"); ("b", "y")], [(FName "n", [1]%Q); (FName "sum", [5]%Q); (FName "status", [0]%Q)]);
       ([("a", "x"); ("d", "z")], [(FName "n", [1]%Q); (FName "sum", [4]%Q); (FName "status", [0]%Q)]);
       ([("b", "y"); ("d", "z")], [(FName "n", [1]%Q); (FName "sum", [20]%Q); (FName "status", [0]%Q)])].
Proof. vm_compute. reflexivity. Qed.
Example C89_hypotheses : plain_run run_cfg (fun _ => [FName "n"; FName "sum"; FName "status"]) /\ plain_run run_cfg2 (fun _ => [FName "n"; FName "sum"; FName "status"]) /\
  delivered (c_ds run_cfg) run_dfs /\ reported run_cfg false 3 2 run_calc [("b", "y"); ("d", "z")].
Proof.
  assert (WC : forall m, wf_config (mkCfg [("a", ["x"]); ("b", ["y"]); ("d", ["z"])] "a" "a" "a" (fun _ : nat => Ok run_dfs) m None [((3%nat, 2%nat), run_calc)] None)).
  { intros m. split; [|split].
    - split; [repeat constructor; cbn; intuition discriminate|]. intros d cols [E|[E|[E|[]]]]; injection E as <- <-; repeat constructor; intros [].
    - intros n k f [E|[]]. injection E as <- <- <-. lia.
    - repeat constructor; cbn; tauto. }
  assert (PR : forall m, plain_run (mkCfg [("a", ["x"]); ("b", ["y"]); ("d", ["z"])] "a" "a" "a" (fun _ : nat => Ok run_dfs) m None [((3%nat, 2%nat), run_calc)] None) (fun _ => [FName "n"; FName "sum"; FName "status"])).
  { intros m. split; [apply WC|]. split; [reflexivity|]. split; [reflexivity|]. split; [left; reflexivity|].
    intros n k f [E|[]]. injection E as <- <- <-. split; [reflexivity|]. split; [|split; [|split; [|split]]].
    - repeat constructor; cbn; intuition discriminate.
    - cbn. auto.
    - cbn. intros l H. intuition discriminate.
    - intros d g _. eexists. reflexivity.
    - intros d g mm E. injection E as <-. split; [reflexivity|]. cbn. intros k x H. intuition (match goal with H : (_, _) = (_, _) |- _ => injection H as <- <- end; eauto). }
  split; [apply PR|]. split; [apply PR|]. split.
  - split; [repeat constructor; cbn; intuition discriminate|]. split; [intros d; cbn; tauto|].
    assert (U : forall d f, In (d, f) run_dfs -> usable f).
    { intros d f [E|[E|[E|[]]]]; injection E as <- <-; (split; [intros t r H; cbn in H; intuition (match goal with H : (_, _) = (_, _) |- _ => injection H as <- <- end; reflexivity)|]);
      left; cbv - [Z.lt]; repeat constructor. }
    intros d f I. split; [exact (U d f I)|]. destruct I as [E|[E|[E|[]]]]; injection E as <- <-; (split; [repeat constructor; cbn; intuition discriminate|]);
      intros cols [E|[E|[E|[]]]]; try discriminate E; injection E as <-; intros x [<-|[]]; cbn; auto.
  - split; [left; reflexivity|]. split; [|discriminate]. split; [reflexivity|]. split; [repeat constructor; discriminate|].
    intros d col [E|[E|[]]]; injection E as <- <-; eexists; (split; [cbn; eauto|left; reflexivity]).
Qed.
(* the rows of the pair (b, d): only at time 10 both have values *)
Example C89_compared : compared run_dfs "a" 2 [("b", "y"); ("d", "z")] 10 [Some 5%Q; Some 4%Q].
Proof.
  split; [eexists; split; [left; reflexivity|]; eexists; left; reflexivity|]. split; [|intros v [<-|[<-|[]]]; discriminate].
  constructor; [|constructor; [|constructor]].
  - exists (snd (nth 1 run_dfs ("", mkFrame [] []))), [None; Some 5%Q], 1%nat. cbn [nth run_dfs snd fst]. split; [right; left; reflexivity|].
    split; [reflexivity|]. split; [reflexivity|]. cbn [String.eqb Ascii.eqb Bool.eqb]. left. exists 11. split; [reflexivity|]. split; [lia|].
    intros s r H. cbn in H. repeat (destruct H as [H|H]; [injection H as <- <-; lia|]). contradiction.
  - exists (snd (nth 2 run_dfs ("", mkFrame [] []))), [Some 4%Q], 0%nat. cbn [nth run_dfs snd fst]. split; [right; right; left; reflexivity|].
    split; [reflexivity|]. split; [reflexivity|]. cbn [String.eqb Ascii.eqb Bool.eqb]. left. exists 10. split; [reflexivity|]. split; [lia|].
    intros s r H. cbn in H. repeat (destruct H as [H|H]; [injection H as <- <-; lia|]). contradiction.
Qed.
End Example.
Print Assumptions C89_nearest_observations.
Print Assumptions C89_common_observations.
Print Assumptions C89_run.
