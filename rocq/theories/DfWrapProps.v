(* C99: the metrics of a data frame: one value per pair of columns, found under the names of the columns, whatever the
   order of the columns. *)
From Verif Require Import Base NamesModel DfMetricsModel DfMetricsSpec DfMetricsProofs DfMetricsProps MetricsModel MetricsSpec MetricsProofs MetricsProofs2 TcolModel TcolProps DfWrapModel DfWrapProofs DfWrapProofs2.
From Coq Require Import Reals Qreals Ascii String Lra FunctionalExtensionality.
Open Scope nat_scope.

(* names that can be fields: identifiers that do not begin with an underscore, without the word "and" between underscores *)
Definition usable_name (s : string) : Prop :=
  is_identifier s = true /\ starts_underscore s = false /\ ~ In "and"%string (words s).

(* One field a_and_b for every pair of columns (the first before the second), holding the metric of the rows in which
   both have a value, and no other field; no name twice. *)
Theorem C99_fields metric f nr : well_formed f nr -> 2 <= DfMetricsModel.ncols f -> (forall c, In c f -> usable_name (fst c)) ->
  exists fields, wrapped (on_arrays metric) true f = Ok fields /\ NoDup (map fst fields) /\
    forall e, In e fields <-> exists i j, i < j < List.length f /\
      e = ((nth i (map fst f) "" ++ "_and_" ++ nth j (map fst f) "")%string, value_of f nr (on_arrays metric) 0 [i; j]).
Proof.
  intros WF K U. assert (UN : forall i, i < DfMetricsModel.ncols f -> usable_name (name f i)).
  { intros i H. unfold name. change (""%string) with (fst (""%string, @nil cell)). rewrite map_nth. apply U, nth_In, H. }
  pose proof (wrapped_names metric f nr WF K (fun i H => conj (proj1 (UN i H)) (proj1 (proj2 (UN i H)))) (fun i H => proj2 (proj2 (UN i H)))) as ND.
  exists (map (field metric f nr) (combs2 (DfMetricsModel.ncols f))). split; [|split].
  - apply wrapped_ok; [exact WF|exact K| |exact ND]. intros i H. destruct (UN i H) as (A & B & _). split; assumption.
  - rewrite map_map. exact ND.
  - intros e. apply in_fields.
Qed.
Print Assumptions C99_fields.

(* the metrics wrapped as symmetric; betainc: the p-value, ddof: degrees of freedom *)
Definition wrapped_as_symmetric : list (pairs -> option R) :=
  [msd; (fun d => rmsd d 0); (fun d => nrmsd d 0); (fun d => ubrmsd d 0); mse_corr; mse_var; mse_bias; sp_pearsonr; (fun d => Some (RSS d))].
Lemma sp_swap d : sp_pearsonr (swap d) = sp_pearsonr d.
Proof.
  unfold sp_pearsonr. rewrite xs_swap, ys_swap. destruct (np_mean (ys d)) as [my|]; cbn [obind]; [|destruct (np_mean (xs d)); reflexivity]. destruct (np_mean (xs d)) as [mx|]; cbn [obind]; [|reflexivity].
  f_equal. rewrite Rmult_comm. f_equal. unfold swap. rewrite map_map. f_equal. apply map_ext. intros p. cbn [fst snd]. ring.
Qed.
Theorem C99_symmetric_metrics m d : In m wrapped_as_symmetric -> m (swap d) = m d.
Proof.
  cbn [In wrapped_as_symmetric]. intros H. repeat destruct H as [<-|H]; [apply msd_swap|apply rmsd_swap|apply nrmsd_swap|apply ubrmsd_swap|apply mse_corr_swap|apply mse_var_swap|apply mse_bias_swap|apply sp_swap|f_equal; apply RSS_swap|destruct H].
Qed.
Print Assumptions C99_symmetric_metrics.
Theorem C99_symmetric_decomposition d : mse_decomposition (swap d) = mse_decomposition d.
Proof. exact (decomposition_swap d). Qed.
Print Assumptions C99_symmetric_decomposition.

(* for such a metric the value of a pair does not depend on the order of the columns *)
Lemma combine_swap : forall x y : list R, combine y x = swap (combine x y).
Proof. induction x as [|a x IH]; intros [|b y]; cbn; try reflexivity. f_equal. apply IH. Qed.
Lemma complete_sym f nr i j : complete_rows f nr [j; i] = complete_rows f nr [i; j].
Proof. unfold complete_rows. apply filter_ext. intros r. unfold complete_row. cbn [forallb]. rewrite !andb_true_r. apply andb_comm. Qed.
Theorem C99_order_of_columns m f nr i j : (forall d, m (swap d) = m d) -> value_of f nr (on_arrays m) 0 [j; i] = value_of f nr (on_arrays m) 0 [i; j].
Proof.
  intros S. unfold value_of. rewrite complete_sym. destruct (complete_rows f nr [i; j]) as [|r0 rs] eqn:E; [reflexivity|].
  assert (A : forall a b, complete_rows f nr [a; b] = r0 :: rs -> on_arrays m (complete_cases f nr [a; b]) = Ok [m (combine (map Q2R (vals (map (fun r => nth r (nth a (map snd f) []) None) (r0 :: rs)))) (map Q2R (vals (map (fun r => nth r (nth b (map snd f) []) None) (r0 :: rs)))))]).
  { intros a b Q. unfold complete_cases. rewrite Q. reflexivity. }
  rewrite (A i j E), (A j i (eq_trans (complete_sym f nr i j) E)). rewrite combine_swap, S. reflexivity.
Qed.
Print Assumptions C99_order_of_columns.

(* what fails: the efficiency of Nash and Sutcliffe is wrapped as symmetric, and of its two values only the one with the
   earlier column as observations is returned: the order of the columns decides which *)
Definition nse_frame : frame := [("a", [Some 0; Some 1]); ("b", [Some 0; Some 2])]%Q%string.
Theorem C99_nash_sutcliffe_refuted :
  wrapped (on_arrays nash_sutcliffe) true nse_frame = Ok [("a_and_b"%string, Some (Some (-1)%R))] /\
  wrapped (on_arrays nash_sutcliffe) true (rev nse_frame) = Ok [("b_and_a"%string, Some (Some (1 / 2)%R))].
Proof.
  assert (W : forall f, well_formed f 2 -> List.length f = 2 -> (forall i, i < 2 -> is_identifier (name f i) = true /\ starts_underscore (name f i) = false) ->
              wrapped (on_arrays nash_sutcliffe) true f = Ok [field nash_sutcliffe f 2 [0; 1]]).
  { intros f WF L ID. rewrite (wrapped_ok nash_sutcliffe f 2 WF); unfold DfMetricsModel.ncols; rewrite L; [reflexivity|lia|exact ID|]. constructor; [intros []|constructor]. }
  assert (V : forall a b c d : R, ((a - (a + b) / 2) ^ 2 + (b - (a + b) / 2) ^ 2 <> 0)%R ->
              nash_sutcliffe [(a, c); (b, d)] = Some (1 - ((a - c) ^ 2 + (b - d) ^ 2) / ((a - (a + b) / 2) ^ 2 + (b - (a + b) / 2) ^ 2))%R).
  { intros a b c d H. unfold nash_sutcliffe, np_mean. cbn [xs map fst snd rsum fold_right rlen List.length INR]. rewrite fdiv_some by (unfold rlen; cbn; lra). cbn [obind]. unfold rlen. cbn [List.length INR rsum map fst snd].
    replace (a + (b + 0))%R with (a + b)%R by ring. replace (1 + 1)%R with 2%R by ring. rewrite fdiv_some; [cbn [omap]; do 3 f_equal; ring|]. replace ((a - (a + b) / 2) ^ 2 + ((b - (a + b) / 2) ^ 2 + 0))%R with ((a - (a + b) / 2) ^ 2 + (b - (a + b) / 2) ^ 2)%R by ring. exact H. }
  assert (Q0 : Q2R 0 = 0%R) by (unfold Q2R; cbn; lra). assert (Q1 : Q2R 1 = 1%R) by (unfold Q2R; cbn; lra). assert (Q2 : Q2R 2 = 2%R) by (unfold Q2R; cbn; lra).
  split.
  - rewrite W.
    + change (field nash_sutcliffe nse_frame 2 [0; 1]) with ("a_and_b"%string, Some (nash_sutcliffe [(Q2R 0, Q2R 0); (Q2R 1, Q2R 2)])). rewrite Q0, Q1, Q2, V by lra. do 5 f_equal. field.
    + split; [vm_compute; repeat constructor; cbn; intuition congruence|]. intros c [<-|[<-|[]]]; reflexivity.
    + reflexivity.
    + intros [|[|i]] H; [split; reflexivity|split; reflexivity|lia].
  - rewrite W.
    + change (field nash_sutcliffe (rev nse_frame) 2 [0; 1]) with ("b_and_a"%string, Some (nash_sutcliffe [(Q2R 0, Q2R 0); (Q2R 2, Q2R 1)])). rewrite Q0, Q1, Q2, V by lra. do 5 f_equal. field.
    + split; [vm_compute; repeat constructor; cbn; intuition congruence|]. intros c [<-|[<-|[]]]; reflexivity.
    + reflexivity.
    + intros [|[|i]] H; [split; reflexivity|split; reflexivity|lia].
Qed.
Print Assumptions C99_nash_sutcliffe_refuted.

(* the number of values is found out with the first two columns: a metric that needs two observations (pearson_r) raises
   for the whole frame if they have none in common, although in another order of the columns it works *)
Definition needs_two (metric : pairs -> option R) (args : list (list cell)) : res (list (option R)) :=
  match args with [x; _] => if Nat.ltb (List.length x) 2 then Err EValue else on_arrays metric args | _ => Err EType end.
Definition col_a : string * list cell := ("a", [Some 1; Some 2; None; None])%Q%string.
Definition col_b : string * list cell := ("b", [None; None; Some 3; Some 5])%Q%string.
Definition col_c : string * list cell := ("c", [Some 1; Some 3; Some 2; Some 7])%Q%string.
Theorem C99_first_columns_refuted metric :
  wrapped (needs_two metric) true [col_a; col_b; col_c] = Err EValue /\
  exists ac cb, wrapped (needs_two metric) true [col_a; col_c; col_b] = Ok [("a_and_c", Some ac); ("a_and_b", None); ("c_and_b", Some cb)]%string.
Proof. split; [reflexivity|]. eexists. eexists. reflexivity. Qed.
Print Assumptions C99_first_columns_refuted.

(* names: a single unusual column name, or names whose combinations coincide, and there is no result at all *)
Theorem C99_names_refuted metric :
  wrapped (on_arrays metric) true [("sm-1", [Some 0; Some 1]); ("b", [Some 0; Some 2])]%Q%string = Err EValue /\
  wrapped (on_arrays metric) true [("a", [Some 0; Some 1]); ("b_and_c", [Some 0; Some 2]); ("a_and_b", [Some 1; Some 2]); ("c", [Some 4; Some 2])]%Q%string = Err EValue /\
  wrapped (on_arrays metric) true [("x", [Some 0; Some 1]); ("and_b", [Some 0; Some 2]); ("x_and", [Some 1; Some 2]); ("b", [Some 4; Some 2])]%Q%string = Err EValue.
Proof. repeat split; reflexivity. Qed.
Print Assumptions C99_names_refuted.

(* Triple collocation: with the columns in another order p the same estimates, in this order; the reference is the
   column that was the reference before. *)
Definition order3 (p : nat -> nat) : Prop := forall j, j < 3 -> exists! i, i < 3 /\ p i = j.
Definition reorder {A} (p : nat -> nat) (d : A) (l : list A) : list A := map (fun i => nth (p i) l d) [0; 1; 2].
Lemma order3_cases p : (forall i, i < 3 -> p i < 3) -> order3 p ->
  exists a b c, p 0 = a /\ p 1 = b /\ p 2 = c /\ In [a; b; c] [[0; 1; 2]; [0; 2; 1]; [1; 0; 2]; [1; 2; 0]; [2; 0; 1]; [2; 1; 0]].
Proof.
  intros B O. exists (p 0), (p 1), (p 2). repeat split. pose proof (B 0 ltac:(lia)). pose proof (B 1 ltac:(lia)). pose proof (B 2 ltac:(lia)).
  assert (D : forall i j, i < 3 -> j < 3 -> p i = p j -> i = j).
  { intros i j I J E. destruct (O (p i) (B i I)) as (k & _ & U). rewrite <- (U i (conj I eq_refl)). apply U. auto. }
  assert (N1 : p 0 <> p 1) by (intros E; specialize (D 0 1 ltac:(lia) ltac:(lia) E); lia). assert (N2 : p 0 <> p 2) by (intros E; specialize (D 0 2 ltac:(lia) ltac:(lia) E); lia). assert (N3 : p 1 <> p 2) by (intros E; specialize (D 1 2 ltac:(lia) ltac:(lia) E); lia).
  destruct (p 0) as [|[|[|]]]; try lia; destruct (p 1) as [|[|[|]]]; try lia; destruct (p 2) as [|[|[|]]]; try lia; cbn; tauto.
Qed.
Theorem C99_triple_order rows p ref : (forall i, i < 3 -> p i < 3) -> order3 p -> ref < 3 ->
  exists snr err beta, tcol_metrics rows (p ref) = Ok (snr, err, beta) /\
    tcol_metrics (map (fun r j => r (p j)) rows) ref = Ok (reorder p None snr, reorder p None err, reorder p None beta).
Proof.
  intros B O RR. pose proof (order3_cases p B O) as P. pose proof (B ref RR) as R'.
  assert (SYM : forall a b, cov1 rows a b = cov1 rows b a).
  { intros a b. unfold cov1. cbv zeta. f_equal. f_equal. apply map_ext. intros r. ring. }
  assert (CV : forall rows, cov1 (map (fun r j => r (p j)) rows) = fun i j => cov1 rows (p i) (p j)).
  { clear. intros rows. unfold cov1, rlen. cbv zeta. rewrite map_length. apply FunctionalExtensionality.functional_extensionality. intros i. apply FunctionalExtensionality.functional_extensionality. intros j. rewrite !map_map. reflexivity. }
  assert (NT : forall (h : nat -> option R) i, i < 3 -> nth (p i) (map h [0; 1; 2]) None = h (p i)).
  { intros h i H. specialize (B i H). destruct (p i) as [|[|[|]]]; [reflexivity|reflexivity|reflexivity|lia]. }
  assert (NN : forall i, i < 3 -> nth (p i) [None; None; None] None = (None : option R)) by (intros i H; exact (NT (fun _ => None) i H)).
  unfold tcol_metrics. destruct rows as [|r0 [|r1 rows]].
  - change (np_cov (map (fun (r : nat -> R) j => r (p j)) [])) with (@None matrix). cbn [np_cov]. rewrite (proj2 (Nat.ltb_lt _ _) RR), (proj2 (Nat.ltb_lt _ _) R'). do 3 eexists. split; [reflexivity|]. f_equal. f_equal; [f_equal|].
    + unfold reorder. cbn [map]. rewrite !NN by lia. reflexivity.
    + unfold reorder. cbn [map]. rewrite !NN by lia. reflexivity.
    + unfold reorder. apply map_ext_in. intros i I1. rewrite (NT (fun i => if Nat.eqb i (p ref) then Some 1%R else None) i) by (cbn in I1; lia). destruct (Nat.eqb_spec i ref) as [->|N]; [rewrite Nat.eqb_refl; reflexivity|]. destruct (Nat.eqb_spec (p i) (p ref)) as [E|]; [|reflexivity].
      exfalso. apply N. destruct (O (p ref) R') as (k & _ & U). rewrite <- (U ref (conj RR eq_refl)). symmetry. apply U. split; [cbn in I1; lia|exact E].
  - change (np_cov (map (fun (r : nat -> R) j => r (p j)) [r0])) with (@None matrix). cbn [np_cov]. rewrite (proj2 (Nat.ltb_lt _ _) RR), (proj2 (Nat.ltb_lt _ _) R'). do 3 eexists. split; [reflexivity|]. f_equal. f_equal; [f_equal|].
    + unfold reorder. cbn [map]. rewrite !NN by lia. reflexivity.
    + unfold reorder. cbn [map]. rewrite !NN by lia. reflexivity.
    + unfold reorder. apply map_ext_in. intros i I1. rewrite (NT (fun i => if Nat.eqb i (p ref) then Some 1%R else None) i) by (cbn in I1; lia). destruct (Nat.eqb_spec i ref) as [->|N]; [rewrite Nat.eqb_refl; reflexivity|]. destruct (Nat.eqb_spec (p i) (p ref)) as [E|]; [|reflexivity].
      exfalso. apply N. destruct (O (p ref) R') as (k & _ & U). rewrite <- (U ref (conj RR eq_refl)). symmetry. apply U. split; [cbn in I1; lia|exact E].
  - set (rs := r0 :: r1 :: rows) in *.
    assert (N1 : np_cov rs = Some (cov1 rs)) by reflexivity. assert (N2 : np_cov (map (fun r j => r (p j)) rs) = Some (cov1 (map (fun r j => r (p j)) rs))) by reflexivity. rewrite N1, N2, CV. clearbody rs.
    unfold tcol_metrics_from_cov. rewrite (proj2 (Nat.ltb_lt _ _) RR), (proj2 (Nat.ltb_lt _ _) R'). do 3 eexists. split; [reflexivity|].
    assert (S1 : forall i, i < 3 -> tc_snr (fun i j => cov1 rs (p i) (p j)) i = tc_snr (cov1 rs) (p i)) by (intros i H; apply (snr_order p P (cov1 rs) SYM i H)).
    assert (S2 : forall i, i < 3 -> tc_err_std (fun i j => cov1 rs (p i) (p j)) ref i = tc_err_std (cov1 rs) (p ref) (p i)).
    { intros i H. unfold tc_err_std. rewrite (err_order p P (cov1 rs) SYM i H), (beta_order p P (cov1 rs) ref i RR H). reflexivity. }
    assert (S3 : forall i, i < 3 -> tc_beta (fun i j => cov1 rs (p i) (p j)) ref i = tc_beta (cov1 rs) (p ref) (p i)) by (intros i H; apply (beta_order p P (cov1 rs) ref i RR H)).
    f_equal. f_equal; [f_equal|]; unfold reorder; apply map_ext_in; intros i I1; assert (H : i < 3) by (cbn in I1; lia).
    + rewrite (NT (tc_snr (cov1 rs)) i H). apply S1, H.
    + rewrite (NT (tc_err_std (cov1 rs) (p ref)) i H). apply S2, H.
    + rewrite (NT (tc_beta (cov1 rs) (p ref)) i H). apply S3, H.
Qed.
Print Assumptions C99_triple_order.

(* the deprecated tcol_snr ignores the reference: the scaling factor of the requested reference is 2, not 1 *)
Definition snr_frame : frame := [("a", [Some 0; Some 2]); ("b", [Some 0; Some 1]); ("c", [Some 0; Some 3])]%Q%string.
Theorem C99_tcol_snr_refuted : exists snr err beta snr' err' beta' t t',
  tcol_snr snr_frame 1 = Ok [snr; err; beta] /\ In t beta /\ In ("b"%string, Some 2%R) t /\
  df_tcol_metrics snr_frame (Some 1) = Ok [snr'; err'; beta'] /\ In t' beta' /\ In ("b"%string, Some 1%R) t'.
Proof.
  assert (WF : well_formed snr_frame 2).
  { split; [vm_compute; repeat constructor; cbn; intuition congruence|]. intros c [<-|[<-|[<-|[]]]]; reflexivity. }
  assert (NM : forall c, In c snr_frame -> Forall (fun x => x <> None) (snd c)) by (intros c [<-|[<-|[<-|[]]]]; repeat constructor; discriminate).
  unfold tcol_snr. rewrite (C52_reference_partial snr_frame 2 0 WF) by (first [exact NM|vm_compute; lia]). rewrite (C52_reference_partial snr_frame 2 1 WF) by (first [exact NM|vm_compute; lia]). cbn [map].
  do 6 eexists. exists (triple_result snr_frame [0; 1; 2] 0 2), (triple_result snr_frame [0; 1; 2] 1 2). split; [reflexivity|]. split; [left; reflexivity|]. split; [|split; [reflexivity|split; [left; reflexivity|]]].
  - set (rows := map2 (fun a bc => fun i : nat => match i with O => a | 1 => fst bc | _ => snd bc end) (map Q2R [0; 2]%Q) (combine (map Q2R [0; 1]%Q) (map Q2R [0; 3]%Q))).
    assert (NF : tc_beta (cov1 rows) 0 1 = Some (2 / 1)%R).
    { refine (proj2 (C51_noise_free rows (fun r => r 1) (fun j => match j with O => 2 | 1 => 1 | _ => 3 end)%R (fun _ => 0%R) 0 1 _ _ _ _ _ _)).
      - cbn; lia.
      - intros r j I1 Hj. unfold rows in I1. cbn in I1. assert (Q0 : Q2R 0 = 0%R) by (unfold Q2R; cbn; lra). assert (Q1 : Q2R 1 = 1%R) by (unfold Q2R; cbn; lra). assert (Q2 : Q2R 2 = 2%R) by (unfold Q2R; cbn; lra). assert (Q3 : Q2R 3 = 3%R) by (unfold Q2R; cbn; lra).
        destruct I1 as [<-|[<-|[]]]; destruct j as [|[|[|j]]]; try lia; rewrite ?Q0, ?Q1, ?Q2, ?Q3; cbn; lra.
      - intros [|[|j]] _; lra.
      - unfold rows, rmean, rlen. cbn. unfold Q2R. cbn. lra.
      - lia.
      - lia. }
    assert (TR : triple_result snr_frame [0; 1; 2] 0 2 = combine ["a"; "b"; "c"]%string (map (tc_beta (cov1 rows) 0) [0; 1; 2])) by reflexivity.
    rewrite TR. cbn [map combine]. rewrite NF. right. left. do 2 f_equal. field.
  - pose proof (C52_reference_beta snr_frame 0 1 2 1 ltac:(lia)) as E. apply nth_error_In in E. exact E.
Qed.
Print Assumptions C99_tcol_snr_refuted.

(* ---- concrete ---- *)
Definition ex_frame : frame := [("sm_ascat", [Some 1; Some 2; None]); ("sm_era", [Some 2; None; Some 5]); ("insitu", [None; Some 7; Some 3])]%Q%string.
Example C99_ex_names : well_formed ex_frame 3 /\ 2 <= DfMetricsModel.ncols ex_frame /\ (forall c, In c ex_frame -> usable_name (fst c)).
Proof.
  split; [split; [vm_compute; repeat constructor; cbn; intuition congruence|intros c [<-|[<-|[<-|[]]]]; reflexivity]|]. split; [vm_compute; lia|].
  intros c [<-|[<-|[<-|[]]]]; (split; [reflexivity|split; [reflexivity|vm_compute; intros E; repeat (destruct E as [E|E]; [discriminate E|]); exact E]]).
Qed.
Example C99_ex_fields metric : exists u v w, wrapped (on_arrays metric) true ex_frame =
  Ok [("sm_ascat_and_sm_era", Some u); ("sm_ascat_and_insitu", Some v); ("sm_era_and_insitu", Some w)]%string.
Proof. do 3 eexists. reflexivity. Qed.
Example C99_ex_order : order3 (fun i => match i with 0 => 2 | 1 => 0 | _ => 1 end).
Proof. intros [|[|[|]]] H; [exists 1|exists 2|exists 0|lia]; (split; [split; [lia|reflexivity]|intros [|[|[|]]] [H1 H2]; (reflexivity || discriminate || lia)]). Qed.
