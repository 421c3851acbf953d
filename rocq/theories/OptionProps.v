(* Property theorems C119: the options handle_errors and only_with_reference. *)
From Verif Require Import ValidationSpec BaseProofs SortProofs NamesProofs ValidationProofs ValidationProofs2 RunProps RunScaleProps IndepProps.
From Verif Require Import MatchersModel TemporalModel TemporalSpec.
Open Scope Z_scope.

Section Props.
Context {G V : Type}.
Variable code : Z -> V.
Notation config := (@config G V).
Notation metrics := (list (field * fval V)).
Notation results := (list (list dscol * list metrics)).

Lemma foldV_sim {A S T} (R : S -> T -> Prop) (f : S -> A -> vres S) (h : T -> A -> vres T) l : forall s t r,
  (forall a s t s', In a l -> R s t -> f s a = VOk s' -> exists t', h t a = VOk t' /\ R s' t') ->
  R s t -> foldV f s l = VOk r -> exists r', foldV h t l = VOk r' /\ R r r'.
Proof.
  induction l as [|a l IH]; intros s t r H RS E; cbn [foldV] in *.
  - exists t. split; [reflexivity|]. injection E as <-. exact RS.
  - destruct (f s a) as [s'|] eqn:EF; cbn [bindV] in E; [|discriminate]. destruct (H a s t s' (or_introl eq_refl) RS EF) as (t' & ET & RT). rewrite ET. cbn [bindV].
    apply (IH s' t' r); [intros a0 s0 t0 s0' I; apply H; right; exact I|exact RT|exact E].
Qed.

(* ------------------------------------------------------- handle_errors *)
Lemma validate_key_ignore (c : config) rename only_ref g f matched key o :
  validate_key code c false rename only_ref g f matched key = VOk o -> validate_key code c true rename only_ref g f matched key = VOk o.
Proof.
  unfold validate_key. intros H. apply bindV_ok in H as (data & E & H). rewrite E. cbn [bindV]. destruct (skip_key c only_ref key); [exact H|].
  destruct data as [data|]; [|discriminate]. destruct (Nat.eqb (List.length (frows data)) 0); [discriminate|]. cbv zeta in *.
  apply bindV_ok in H as (d & ED & H). rewrite ED. cbn [bindV]. destruct (f _ g); [exact H|discriminate].
Qed.
Lemma perform_ignore (c : config) rename only_ref g dfs r :
  perform_validation code c false rename only_ref g dfs = VOk r -> perform_validation code c true rename only_ref g dfs = VOk r.
Proof.
  unfold perform_validation. intros H. apply bindV_ok in H as (o & EO & H). rewrite EO. cbn [bindV]. destruct o as [dfs1|]; [|exact H].
  apply bindV_ok in H as (data & ED & H). rewrite ED. cbn [bindV]. apply bindV_ok in H as (mn & EM & H). rewrite EM. cbn [bindV].
  match type of H with foldV ?f ?s ?l = _ => match goal with |- foldV ?h _ _ = _ => destruct (foldV_sim eq f h l s s r) as (r' & E & <-); [|reflexivity|exact H|exact E] end end.
  intros [[[n k] f] matched] s t s' _ <- EF. cbn beta iota in *. destruct (Nat.eqb (List.length matched) 0); [discriminate|].
  apply bindV_ok in EF as (names & EN & EF). rewrite EN. cbn [bindV].
  match type of EF with foldV ?a ?b ?l = _ => match goal with |- exists t', foldV ?h _ _ = _ /\ _ => destruct (foldV_sim eq a h l b b s') as (r' & E & <-); [|reflexivity|exact EF|exists s'; split; [exact E|reflexivity]] end end.
  intros key s0 t0 s1 _ <- EK. apply bindV_ok in EK as (o & EO' & EK). rewrite (validate_key_ignore _ _ _ _ _ _ _ _ EO'). cbn [bindV]. exists s1. split; [exact EK|reflexivity].
Qed.

(* If a validation that raises errors goes through, one that ignores errors has the same results. *)
Theorem C119_handle_errors :
  forall (c : config) rename only_ref gpis out,
    calc code c false rename only_ref gpis = VOk out -> calc code c true rename only_ref gpis = VOk out.
Proof.
  intros c rename only_ref gpis out H. unfold calc in *. apply bindV_ok in H as (res & E & H).
  match type of E with foldV ?f ?s ?l = _ => match goal with |- bindV (foldV ?h _ _) _ = _ => destruct (foldV_sim eq f h l s s res) as (r' & E' & <-); [|reflexivity|exact E|rewrite E'; exact H] end end.
  intros g s t s' _ <- EG. apply bindV_ok in EG as (r & EV & EG). unfold validate_gpi in EV |- *.
  destruct (attempt code c false rename only_ref g) as [r0|] eqn:EA; [|discriminate]. assert (r0 = r) by congruence. subst r0.
  assert (X : attempt code c true rename only_ref g = VOk r).
  { unfold attempt in *. apply bindV_ok in EA as (dfs & ED & EA). rewrite ED. cbn [bindV]. destruct (Nat.eqb (List.length dfs) 0); [discriminate|]. apply perform_ignore, EA. }
  rewrite X. cbn [bindV]. exists s'. split; [exact EG|reflexivity].
Qed.

(* ------------------------------------------------------- only_with_reference *)
Definition with_reference (c : config) (key : list dscol) : bool := existsb (String.eqb (c_ref c)) (map fst key).
Definition select {A} (c : config) (r : list (list dscol * A)) : list (list dscol * A) := filter (fun e => with_reference c (fst e)) r.

Lemma select_append {A} (c : config) (d : list (list dscol * list A)) k v :
  select c (dict_append combo_eqb d k v) = if with_reference c k then dict_append combo_eqb (select c d) k v else select c d.
Proof.
  unfold select. induction d as [|[k' l] d IH]; cbn [dict_append filter fst].
  - destruct (with_reference c k); reflexivity.
  - destruct (combo_eqb k' k) eqn:E; cbn [filter fst].
    + apply combo_eqb_spec in E. subst k'. destruct (with_reference c k) eqn:W; [|reflexivity]. cbn [dict_append]. assert (X : combo_eqb k k = true) by (apply combo_eqb_spec; reflexivity). rewrite X. reflexivity.
    + rewrite IH. destruct (with_reference c k') eqn:W', (with_reference c k) eqn:W; try reflexivity. cbn [dict_append]. rewrite E. reflexivity.
Qed.
Lemma validate_key_ref (c : config) ignore rename g f matched key o :
  validate_key code c ignore rename false g f matched key = VOk o ->
  validate_key code c ignore rename true g f matched key = VOk (if with_reference c key then o else None).
Proof.
  unfold validate_key. intros H. apply bindV_ok in H as (data & E & H). rewrite E. cbn [bindV].
  unfold skip_key in *. cbn [andb] in *. fold (with_reference c key). destruct (with_reference c key); cbn [negb]; [exact H|reflexivity].
Qed.
Lemma perform_ref (c : config) ignore rename g dfs r :
  perform_validation code c ignore rename false g dfs = VOk r -> perform_validation code c ignore rename true g dfs = VOk (select c r).
Proof.
  unfold perform_validation. intros H. apply bindV_ok in H as (o & EO & H). rewrite EO. cbn [bindV]. destruct o as [dfs1|]; [|injection H as <-; reflexivity].
  apply bindV_ok in H as (data & ED & H). rewrite ED. cbn [bindV]. apply bindV_ok in H as (mn & EM & H). rewrite EM. cbn [bindV].
  match type of H with foldV ?f ?s ?l = _ => match goal with |- foldV ?h _ _ = _ => destruct (foldV_sim (fun a b => b = select c a) f h l s s r) as (r' & E & ->); [|reflexivity|exact H|exact E] end end.
  intros [[[n k] f] matched] s t s' _ -> EF. cbn beta iota in *. destruct (Nat.eqb (List.length matched) 0); [discriminate|].
  apply bindV_ok in EF as (names & EN & EF). rewrite EN. cbn [bindV].
  match type of EF with foldV ?a ?b ?l = _ => match goal with |- exists t', foldV ?h _ _ = _ /\ _ => destruct (foldV_sim (fun x y => y = select c x) a h l b (select c b) s') as (r' & E & ->); [|reflexivity|exact EF|exists (select c s'); split; [exact E|reflexivity]] end end.
  intros key s0 t0 s1 _ -> EK. apply bindV_ok in EK as (o & EO' & EK). rewrite (validate_key_ref _ _ _ _ _ _ _ _ EO'). cbn [bindV].
  eexists. split; [reflexivity|]. injection EK as <-. destruct o as [m|]; [|destruct (with_reference c key); reflexivity].
  unfold add_result. rewrite select_append. destruct (with_reference c key); reflexivity.
Qed.
Lemma attempt_ref (c : config) ignore rename g r :
  attempt code c ignore rename false g = VOk r -> attempt code c ignore rename true g = VOk (select c r).
Proof.
  unfold attempt. intros EA. apply bindV_ok in EA as (dfs & ED & EA). rewrite ED. cbn [bindV]. destruct (Nat.eqb (List.length dfs) 0); [discriminate|]. apply perform_ref, EA.
Qed.
Lemma dummy_ref (c : config) g r :
  dummy_validation_result c false g = VOk r -> dummy_validation_result c true g = VOk (select c r).
Proof.
  unfold dummy_validation_result. intros H.
  match type of H with foldV ?f ?s ?l = _ => match goal with |- foldV ?h _ _ = _ => destruct (foldV_sim (fun a b => b = select c a) f h l s s r) as (r' & E & ->); [|reflexivity|exact H|exact E] end end.
  intros [[n k] f] s t s' _ -> EF. cbn beta iota in *. apply bindV_ok in EF as (names & EN & EF). rewrite EN. cbn [bindV].
  match type of EF with foldV ?a ?b ?l = _ => match goal with |- exists t', foldV ?h _ _ = _ /\ _ => destruct (foldV_sim (fun x y => y = select c x) a h l b (select c b) s') as (r' & E & ->); [|reflexivity|exact EF|exists (select c s'); split; [exact E|reflexivity]] end end.
  intros key s0 t0 s1 _ -> EK. unfold skip_key in *. cbn [andb] in *. fold (with_reference c key). apply bindV_ok in EK as (m & EM & EK). injection EK as <-.
  exists (select c (add_result s0 key [m])). split; [|reflexivity]. unfold add_result. rewrite select_append. destruct (with_reference c key); cbn [negb]; [rewrite EM; reflexivity|reflexivity].
Qed.
Lemma mapV_select {A B} (c : config) (f : list dscol * A -> vres (list dscol * B)) l : forall r, (forall e b, f e = VOk b -> fst b = fst e) -> mapV f l = VOk r -> mapV f (select c l) = VOk (select c r).
Proof.
  unfold select. induction l as [|e l IH]; intros r H E; cbn [mapV] in E.
  - injection E as <-. reflexivity.
  - apply bindV_ok in E as (b & EB & E). apply bindV_ok in E as (bs & EBS & E). injection E as <-. cbn [filter]. rewrite (H e b EB). destruct (with_reference c (fst e)); [|apply IH; assumption].
    cbn [mapV]. rewrite EB. cbn [bindV]. rewrite (IH bs H EBS). reflexivity.
Qed.

(* a grid point at which leaving out the combinations without the reference avoids no error *)
Definition same_failure (c : config) (ignore rename : bool) (g : G) : Prop :=
  forall x, attempt code c ignore rename false g = VErr x -> exists y, attempt code c ignore rename true g = VErr y /\ return_code y = return_code x.
Lemma gpi_ref (c : config) ignore rename g r : same_failure c ignore rename g ->
  validate_gpi code c ignore rename false g = VOk r -> validate_gpi code c ignore rename true g = VOk (select c r).
Proof.
  unfold validate_gpi. intros SF H. destruct (attempt code c ignore rename false g) as [r0|x] eqn:EA.
  - injection H as ->. rewrite (attempt_ref _ _ _ _ _ EA). reflexivity.
  - destruct ignore; [|discriminate]. destruct (SF x EA) as (y & EY & EC). rewrite EY. apply bindV_ok in H as (d & ED & H). rewrite (dummy_ref _ _ _ ED). cbn [bindV]. rewrite EC.
    unfold set_codes in *. apply mapV_select; [|exact H]. intros e b EB. destruct (snd e) as [|m ms]; [discriminate|]. apply bindV_ok in EB as (m' & _ & EB). injection EB as <-. reflexivity.
Qed.
Lemma fold_select (c : config) (r : results) : forall s, select c (fold_left (fun res e => add_result res (fst e) (snd e)) r s) = fold_left (fun res e => add_result res (fst e) (snd e)) (select c r) (select c s).
Proof.
  induction r as [|[k v] r IH]; intros s; [reflexivity|]. cbn [fold_left fst snd]. rewrite IH. replace (select c ((k, v) :: r)) with (if with_reference c k then (k, v) :: select c r else select c r) by (unfold select; cbn [filter fst]; reflexivity).
  assert (X : select c (add_result s k v) = if with_reference c k then add_result (select c s) k v else select c s) by (unfold add_result; apply select_append).
  rewrite X. destruct (with_reference c k); reflexivity.
Qed.

(* With only_with_reference=True the results are those of the combinations with the reference, with the same values, unless
   there are grid points at which only a combination without the reference fails. *)
Theorem C119_only_with_reference :
  forall (c : config) ignore rename gpis out,
    (forall g, In g gpis -> same_failure c ignore rename g) ->
    calc code c ignore rename false gpis = VOk out ->
    calc code c ignore rename true gpis = VOk (filter (fun e => with_reference c (fst e)) out).
Proof.
  intros c ignore rename gpis out SF H. unfold calc in *. apply bindV_ok in H as (res & E & H).
  match type of E with foldV ?f ?s ?l = _ => match goal with |- bindV (foldV ?h _ _) _ = _ => destruct (foldV_sim (fun a b => b = select c a) f h l s s res) as (r' & E' & ->); [|reflexivity|exact E|rewrite E'; cbn [bindV]] end end.
  - intros g s t s' I -> EG. apply bindV_ok in EG as (r & EV & EG). rewrite (gpi_ref _ _ _ _ _ (SF g I) EV). cbn [bindV]. eexists. split; [reflexivity|]. injection EG as <-. symmetry. apply fold_select.
  - apply (mapV_select c); [|exact H]. intros e b EB. apply bindV_ok in EB as (d & _ & EB). injection EB as <-. reflexivity.
Qed.
(* with errors raised the condition is met whenever the validation goes through *)
Theorem C119_only_with_reference_raise :
  forall (c : config) rename gpis out, calc code c false rename false gpis = VOk out ->
    calc code c false rename true gpis = VOk (filter (fun e => with_reference c (fst e)) out).
Proof.
  intros c rename gpis out H. apply C119_only_with_reference; [|exact H]. intros g I x EX. exfalso. unfold calc in H. apply bindV_ok in H as (res & E & _).
  assert (X : forall l s r, In g l -> foldV (fun res g => bindV (validate_gpi code c false rename false g) (fun r => VOk (fold_left (fun res e => add_result res (fst e) (snd e)) r res))) s l = VOk r -> False).
  { induction l as [|a l IH]; intros s r IL F; [destruct IL|]. cbn [foldV] in F. destruct IL as [->|IL].
    - unfold validate_gpi in F. rewrite EX in F. discriminate.
    - apply bindV_ok in F as (s' & _ & F). exact (IH s' r IL F). }
  exact (X gpis [] res I E).
Qed.
End Props.

(* ------------------------------------------------------- examples *)
Section Example.
Open Scope string_scope.
Example C119_ex :
  (exists out, calc inject_Z run_cfg false true false [0]%nat = VOk out /\ map fst out = [[("a", "x"); ("b", "y")]; [("a", "x"); ("d", "z")]; [("b", "y"); ("d", "z")]] /\
     map fst (filter (fun e => with_reference run_cfg (fst e)) out) = [[("a", "x"); ("b", "y")]; [("a", "x"); ("d", "z")]]).
Proof. eexists. split; [vm_compute; reflexivity|]. split; reflexivity. Qed.

(* A combination without the reference that cannot be scaled: only_with_reference decides about the metrics of the others. *)
Definition few_cfg : @config nat Q :=
  mkCfg [("a", ["x"]); ("b", ["y"]); ("d", ["z"])] "a" "a" "a"
    (fun _ => Ok [("a", mkFrame ["x"] [(10, [Some 1%Q]); (20, [Some 2%Q]); (30, [Some 3%Q]); (40, [Some 4%Q])]);
                  ("b", mkFrame ["y"] [(10, [Some 4%Q]); (20, [Some 6%Q]); (30, [Some 5%Q])]);
                  ("d", mkFrame ["z"] [(30, [Some 7%Q]); (40, [Some 8%Q])])])
    (combinatory_matcher (fun c => c) 0 2) (Some (sc_shift 1)) [((3%nat, 2%nat), run_calc)] None.
Theorem C119_only_with_reference_refuted :
  pair_fields (calc inject_Z few_cfg true true true [0]%nat) = Some [(FName "n", [3]%Q); (FName "sum", [13]%Q); (FName "status", [0]%Q)] /\
  pair_fields (calc inject_Z few_cfg true true false [0]%nat) = Some [(FName "n", [0]%Q); (FName "sum", [0]%Q); (FName "status", [inject_Z SCALING_FAILED])].
Proof. split; vm_compute; reflexivity. Qed.
End Example.

Print Assumptions C119_handle_errors.
Print Assumptions C119_only_with_reference.
Print Assumptions C119_only_with_reference_raise.
Print Assumptions C119_only_with_reference_refuted.
