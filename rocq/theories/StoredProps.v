(* Property theorem C40: CDF scaling with stored parameters. *)
From Verif Require Import BaseProofs StoredProofs.
Open Scope Z_scope.

(* the table of a column, fitted on a frame: the fit of the column of that name against the
   reference column *)
Definition fitted (o : scaler_opts) (data : columns) (ref name : string) (t : cdf_table) : Prop :=
  exists c r, In c data /\ fst c = name /\ In r data /\ fst r = ref /\ cdf_fit (matcher_opts o) (snd c) (snd r) = Ok t.

(* the frame [out] is [data] with the columns other than [ref] scaled by tables fitted on [first] *)
Definition scaled_by (o : scaler_opts) (first data out : columns) (ref : string) : Prop :=
  Forall2 (fun c d : string * list cell => fst d = fst c /\
    (fst c = ref /\ snd d = snd c \/
     fst c <> ref /\ exists t, fitted o first ref (fst c) t /\ snd d = cdf_predict t (snd c))) data out.

(* the first scaling of a point: parameters fitted on the data themselves *)
Theorem C40_first_scaling :
  forall o st data ri gpi ref out, NoDup (map fst data) -> gp_get st gpi = None -> py_index data ri = Ok ref ->
    snd (stored_scale o st data ri gpi) = Ok out -> scaled_by o data data out (fst ref).
Proof.
  intros o st data ri gpi ref out N G R H. destruct (scale_ok_stored _ _ _ _ _ _ H) as (p & _ & S1 & [X|[_ C]]); [congruence|].
  pose proof (scale_columns_inv _ _ _ _ _ R S1) as F. destruct (calc_parameters_get _ _ _ _ _ N R C) as [_ K].
  refine (Forall2_weaken _ _ _ _ _ F). intros c d [E1 E2]. split; [exact E1|].
  destruct E2 as [E2|(E2 & t & T1 & T2)]; [left; exact E2|right]. split; [exact E2|]. exists t. split; [|exact T2].
  destruct (K _ _ T1) as (c' & C1 & C2 & C3 & C4). exists c', ref. repeat split; try assumption. exact (py_index_in _ _ _ R).
Qed.

(* a later scaling of the point, after any calls for any points, uses the tables of the first
   successful one; the reference column has the same name in both frames *)
Theorem C40_parameters_are_fixed :
  forall o st c0 calls data ri ref ref0 out0 out,
    NoDup (map fst (sc_data c0)) -> gp_get st (sc_gpi c0) = None -> py_index (sc_data c0) (sc_ref c0) = Ok ref0 ->
    snd (stored_scale o st (sc_data c0) (sc_ref c0) (sc_gpi c0)) = Ok out0 ->
    py_index data ri = Ok ref -> fst ref = fst ref0 ->
    snd (stored_scale o (fst (scale_run o st (c0 :: calls))) data ri (sc_gpi c0)) = Ok out ->
    scaled_by o (sc_data c0) data out (fst ref).
Proof.
  intros o st c0 calls data ri ref ref0 out0 out N G R0 H0 R ER H.
  destruct (scale_ok_stored _ _ _ _ _ _ H0) as (p & P & _ & [X|[_ C]]); [congruence|].
  assert (P2 : gp_get (fst (scale_run o st (c0 :: calls))) (sc_gpi c0) = Some p).
  { cbn [scale_run]. destruct (stored_scale o st (sc_data c0) (sc_ref c0) (sc_gpi c0)) as [st1 x]. cbn [fst] in P.
    pose proof (stored_fixed o calls st1 _ _ P) as Q. destruct (scale_run o st1 calls). exact Q. }
  rewrite (scale_with_stored _ _ _ _ _ _ P2) in H. cbn [snd] in H. pose proof (scale_columns_inv _ _ _ _ _ R H) as F.
  destruct (calc_parameters_get _ _ _ _ _ N R0 C) as [_ K]. rewrite <- ER in K.
  refine (Forall2_weaken _ _ _ _ _ F). intros c d [E1 E2]. split; [exact E1|].
  destruct E2 as [E2|(E2 & t & T1 & T2)]; [left; exact E2|right]. split; [exact E2|]. exists t. split; [|exact T2].
  destruct (K _ _ T1) as (c' & C1 & C2 & C3 & C4). exists c', ref0. repeat split; try assumption; [exact (py_index_in _ _ _ R0)|symmetry; exact ER].
Qed.

(* scaling the same data again gives the same result, whatever happens in between *)
Theorem C40_repeatable :
  forall o st c calls out, snd (stored_scale o st (sc_data c) (sc_ref c) (sc_gpi c)) = Ok out ->
    snd (stored_scale o (fst (scale_run o st (c :: calls))) (sc_data c) (sc_ref c) (sc_gpi c)) = Ok out.
Proof.
  intros o st c calls out H. destruct (scale_ok_stored _ _ _ _ _ _ H) as (p & P & S1 & _).
  assert (P2 : gp_get (fst (scale_run o st (c :: calls))) (sc_gpi c) = Some p).
  { cbn [scale_run]. destruct (stored_scale o st (sc_data c) (sc_ref c) (sc_gpi c)) as [st1 x]. cbn [fst] in P.
    pose proof (stored_fixed o calls st1 _ _ P) as Q. destruct (scale_run o st1 calls). exact Q. }
  rewrite (scale_with_stored _ _ _ _ _ _ P2). exact S1.
Qed.

(* points are independent: the outcomes for a point are those of the calls for this point alone *)
Theorem C40_points_independent :
  forall o st calls g,
    outcomes_at g calls (snd (scale_run o st calls)) = snd (scale_run o st (filter (fun c => sc_gpi c =? g) calls)).
Proof. intros. apply run_local. reflexivity. Qed.

(* a failed fit stores nothing *)
Theorem C40_failure_stores_nothing :
  forall o st data ri gpi e, gp_get st gpi = None -> calc_parameters o data ri = Err e ->
    stored_scale o st data ri gpi = (st, Err e).
Proof. intros o st data ri gpi e G C. unfold stored_scale, get_parameters. rewrite G, C. reflexivity. Qed.

(* a frame with a column that had not been there when the parameters were stored cannot be scaled *)
Theorem C40_new_column_fails :
  forall o st p data ri gpi ref c, gp_get st gpi = Some p -> py_index data ri = Ok ref -> In c data -> fst c <> fst ref ->
    str_get p (param_key (fst c) (fst ref)) = None -> exists e, stored_scale o st data ri gpi = (st, Err e).
Proof.
  intros o st p data ri gpi ref c G R Hc Hn K. rewrite (scale_with_stored _ _ _ _ _ _ G). unfold scale_columns. rewrite R. cbn [bindR].
  destruct (seqR _) as [out|e] eqn:E; [|exists e; reflexivity]. exfalso. apply seqR_inv in E. destruct (Forall2_In_l _ _ _ E c Hc) as (d & _ & X). cbn beta in X.
  destruct (String.eqb_spec (fst c) (fst ref)); [contradiction|]. rewrite K in X. discriminate.
Qed.

Section Ex40.
Open Scope string_scope.
Definition ex_o := mkScaler [0%Q; 50%Q; 100%Q] None false false.
Definition q (l : list Z) : list cell := map (fun z => Some (inject_Z z)) l.
Definition ex_d1 : columns := [("a", q [1; 2; 3; 4]); ("r", q [10; 20; 30; 40]); ("b", [Some 5%Q; None; Some 6%Q; Some 9%Q])].
Definition ex_d2 : columns := [("a", q [2; 6]); ("r", q [0; 0])].
Definition reduced (x : res columns) : res columns := mapR (map (fun c => (fst c, map (option_map Qred) (snd c)))) x.
Example C40_ex : map reduced (snd (scale_run ex_o [] [mkScaleCall ex_d1 1 7; mkScaleCall ex_d2 1 8; mkScaleCall ex_d2 1 7; mkScaleCall ex_d1 1 7])) =
  [Ok [("a", q [10; 20; 30; 40]); ("r", q [10; 20; 30; 40]); ("b", [Some 10%Q; None; Some 25%Q; Some 40%Q])];
   Ok [("a", q [0; 0]); ("r", q [0; 0])];
   Ok [("a", q [20; 60]); ("r", q [0; 0])];
   Ok [("a", q [10; 20; 30; 40]); ("r", q [10; 20; 30; 40]); ("b", [Some 10%Q; None; Some 25%Q; Some 40%Q])]].
Proof. vm_compute. reflexivity. Qed.
(* Parameter names do not determine the pair of columns: the parameters of "a" against "b_r" are
   used for "a_b" against "r". *)
Theorem C40_name_clash_refuted :
  exists o c1 c2 out1 out2, sc_gpi c1 = sc_gpi c2 /\
    map fst (sc_data c1) = ["b_r"; "a"] /\ map fst (sc_data c2) = ["r"; "a_b"] /\
    snd (scale_run o [] [c1; c2]) = [Ok out1; Ok out2] /\ ~ scaled_by o (sc_data c1) (sc_data c2) out2 "r" /\
    reduced (Ok out2) = Ok [("r", q [1; 2; 3]); ("a_b", q [100; 200; 300])].
Proof.
  exists ex_o, (mkScaleCall [("b_r", q [100; 200; 300]); ("a", q [1; 2; 3])] 0 7), (mkScaleCall [("r", q [1; 2; 3]); ("a_b", q [1; 2; 3])] 0 7).
  eexists. eexists. split; [reflexivity|]. split; [reflexivity|]. split; [reflexivity|]. split; [vm_compute; reflexivity|]. split; [|vm_compute; reflexivity].
  intros F. inversion F as [|c d l m _ F2 E1 E2]; subst. inversion F2 as [|c2 d2 l2 m2 [_ X] F3 E1 E2]; subst. cbn [fst sc_data] in X.
  destruct X as [[X _]|[_ (t & (c & r & Hc & Nc & _) & _)]]; [discriminate X|].
  destruct Hc as [<-|[<-|[]]]; discriminate Nc.
Qed.
End Ex40.
Print Assumptions C40_first_scaling.
Print Assumptions C40_parameters_are_fixed.
Print Assumptions C40_repeatable.
Print Assumptions C40_points_independent.
Print Assumptions C40_failure_stores_nothing.
Print Assumptions C40_new_column_fails.
Print Assumptions C40_name_clash_refuted.
