(* CDF matching of a source with an integer data type (C22). *)
From Verif Require Import CdfSpec CdfProofs CdfFitProofs CdfIntModel.
From Coq Require Import Lqa Lia.
Open Scope Q_scope.

Lemma quot_zero v : 0 <= v -> v < 1 -> Z.quot (Qnum v) (Zpos (Qden v)) = 0%Z.
Proof. intros A B. destruct v as [n d]. unfold Qle, Qlt in *. cbn in *. apply Z.quot_small. lia. Qed.
Lemma nd_hd_min l v : non_decreasing l -> In v l -> hd 0 l <= v.
Proof. intros S. destruct S as [|a x S F]; [intros []|]. rewrite Forall_forall in F. intros [<-|H]; cbn; [lra|apply F; exact H]. Qed.
Lemma lin_interp_zero r : forall a x, snd a == 0 -> (forall p, In p r -> snd p == 0) -> lin_interp a r x == 0.
Proof.
  assert (SZ : forall (a b : Q * Q) y, snd a == 0 -> snd b == 0 -> seg a b y == 0).
  { intros a b y A B. unfold seg. rewrite A, B. unfold Qdiv. ring. }
  induction r as [|b r IH]; intros a x A H; [exact A|]. cbn [lin_interp].
  destruct r as [|c r]; [apply SZ; [exact A|apply H; left; reflexivity]|].
  destruct (Qle_bool x (fst b)); [apply SZ; [exact A|apply H; left; reflexivity]|].
  apply IH; [apply H; left; reflexivity|]. intros p Hp. apply H. right. exact Hp.
Qed.
Lemma fit_reference_range o X Y t lo hi : sane_opts o -> c_linear_edges o = false -> cdf_fit o X Y = Ok t ->
  (forall v, In v (fit_reference o X Y) -> lo <= v /\ v < hi) -> forall v, In v (present (y_perc t)) -> lo <= v /\ v < hi.
Proof.
  intros So El E R. rewrite fit_unfold in E. cbn zeta in E. set (xu := fit_source o X Y) in *. set (yu := fit_reference o X Y) in *.
  destruct (calc_spec o (Nat.min (List.length xu) (List.length yu)) So) as (ps & k & Ec & PL & _). rewrite Ec in E. cbn [bindR] in E. rewrite El, andb_false_r in E.
  destruct (percentile_values (q_sort xu) ps) as [xp|]; [|discriminate]. cbn [bindR] in E.
  assert (NY : yu <> []).
  { intros E0. rewrite E0 in E. change (q_sort []) with (@nil Q) in E. rewrite pv_nil in E. discriminate. }
  assert (Ny : q_sort yu <> []) by (intros E0; apply q_sort_nil in E0; congruence).
  destruct (percentile_values_list _ ps Ny (q_sort_sorted yu) PL) as (out & Eo & Lo & ND & H0 & H1 & _). rewrite Eo in E. cbn [bindR fst snd] in E. injection E as <-. cbn [y_perc].
  rewrite <- vals_present, vals_pad. intros v Hv.
  assert (A : In (hd 0 (q_sort yu)) yu) by (apply q_sort_in, hd_In; exact Ny). assert (B : In (last (q_sort yu) 0) yu) by (apply q_sort_in, last_In; exact Ny).
  pose proof (nd_hd_min _ _ ND Hv). pose proof (nd_last_max _ _ ND Hv). destruct (R _ A), (R _ B). split; lra.
Qed.

(* a reference with values from 0 to below 1, like soil moisture in m3/m3, and a source stored as
   integers: all values are scaled to 0 (or, if the truncated percentiles repeat, to the platform's
   integer for NaN) *)
Theorem C22_integer_source_zero : forall filler o X Y f X', sane_opts o -> c_linear_edges o = false ->
  cdf_fit o (map (fun z => Some (inject_Z z)) X) Y = Ok f -> ~ In None (y_perc f) ->
  (forall v, In v (fit_reference o (map (fun z => Some (inject_Z z)) X) Y) -> 0 <= v /\ v < 1) ->
  exists t, cdf_fit_int filler o X Y = Ok t /\
   ((forall p, In p (cdf_predict_int filler t X') -> p = Some (inject_Z 0)) \/
    (forall p, In p (cdf_predict_int filler t X') -> p = Some (inject_Z filler))).
Proof.
  intros filler o X Y f X' So El E NN R. unfold cdf_fit_int. rewrite E. cbn [mapR bindR]. eexists. split; [reflexivity|].
  assert (YZ : vals (map (int_cell filler) (y_perc f)) = map (fun _ => inject_Z 0) (y_perc f)).
  { pose proof (fit_reference_range o _ Y f 0 1 So El E R) as RR. clear E. induction (y_perc f) as [|c l IH]; [reflexivity|].
    cbn [map vals]. destruct c as [v|]; [|exfalso; apply NN; left; reflexivity].
    assert (V : 0 <= v /\ v < 1) by (apply RR; left; reflexivity). cbn [int_cell vals]. rewrite (quot_zero v) by tauto.
    change (vals (Some (inject_Z 0) :: map (int_cell filler) l)) with (inject_Z 0 :: vals (map (int_cell filler) l)). f_equal. apply IH.
    - intros H. apply NN. right. exact H.
    - intros w Hw. apply RR. cbn. right. exact Hw. }
  unfold cdf_predict_int, cdf_predict. cbn [x_perc y_perc].
  assert (NONE : forall p (l : list cell), In p (map (int_cell filler) (map (fun _ => None) l)) -> p = Some (inject_Z filler)).
  { intros p l H. rewrite map_map in H. apply in_map_iff in H as (? & <- & _). reflexivity. }
  destruct (existsb notna _); [|right; intros p H; exact (NONE p _ H)].
  destruct (vals (map (int_cell filler) (x_perc f))) as [|x0 xs]; [right; intros p H; exact (NONE p _ H)|]. rewrite YZ.
  destruct (map (fun _ : cell => inject_Z 0) (y_perc f)) as [|y0 ys] eqn:EYS; [right; intros p H; exact (NONE p _ H)|].
  assert (ZS : forall y, In y (y0 :: ys) -> y == 0) by (rewrite <- EYS; intros y H; apply in_map_iff in H as (? & <- & _); reflexivity).
  unfold spline. destruct (Nat.eqb _ _ && strictly_incb _) eqn:SB; [|right; intros p H; exact (NONE p _ H)].
  destruct (combine (x0 :: xs) (y0 :: ys)) as [|a [|b r]] eqn:EC; [right; intros p H; exact (NONE p _ H)|right; intros p H; exact (NONE p _ H)|].
  left. intros p H. rewrite !map_map in H. apply in_map_iff in H as (z & <- & _). cbn [option_map].
  assert (CZ : forall q, In q (a :: b :: r) -> snd q == 0).
  { rewrite <- EC. intros [q1 q2] Hq. apply in_combine_r in Hq. exact (ZS _ Hq). }
  assert (LZ : lin_interp a (b :: r) (inject_Z z) == 0) by (apply lin_interp_zero; [apply CZ; left; reflexivity|intros q Hq; apply CZ; right; exact Hq]).
  unfold int_cell. rewrite quot_zero; [reflexivity| |]; rewrite LZ; lra.
Qed.
Print Assumptions C22_integer_source_zero.
(* per cent values, scaled to a reference in m3/m3 *)
Section ExInt.
Definition src_int : list Z := [10; 20; 30; 40; 50]%Z.
Definition ref_frac : list cell := map Some [1 # 10; 1 # 5; 3 # 10; 2 # 5; 1 # 2].
Definition o_int : cdf_opts := mkCdf 4 None None false true.
Example C22_ex_integer : sane_opts o_int /\ c_linear_edges o_int = false /\
  (exists f, cdf_fit o_int (map (fun z => Some (inject_Z z)) src_int) ref_frac = Ok f /\ ~ In None (y_perc f) /\
     map (option_map Qred) (cdf_predict f (map (fun z => Some (inject_Z z)) src_int)) = ref_frac) /\
  (exists t, cdf_fit_int (-1) o_int src_int ref_frac = Ok t /\ cdf_predict_int (-1) t src_int = map (fun _ => Some (inject_Z 0)) src_int).
Proof.
  split; [vm_compute; repeat constructor|]. split; [reflexivity|]. split.
  - eexists. split; [vm_compute; reflexivity|]. split; [cbn; intuition discriminate|vm_compute; reflexivity].
  - eexists. split; [vm_compute; reflexivity|]. vm_compute. reflexivity.
Qed.
(* the same numbers as floats reach the reference exactly, as integers they do not *)
Theorem C22_integer_source_refuted : exists o X Y f t filler,
  cdf_fit o (map (fun z => Some (inject_Z z)) X) Y = Ok f /\ cdf_fit_int filler o X Y = Ok t /\
  (forall v, In v (fit_reference o (map (fun z => Some (inject_Z z)) X) Y) -> 1 # 10 <= v) /\
  forall p, In p (cdf_predict_int filler t X) -> p = Some (inject_Z 0).
Proof.
  exists o_int, src_int, ref_frac. eexists. eexists. exists (-1)%Z. split; [vm_compute; reflexivity|]. split; [vm_compute; reflexivity|]. split.
  - intros v H. vm_compute in H. repeat (destruct H as [<-|H]; [vm_compute; discriminate|]). destruct H.
  - intros p H. vm_compute in H. repeat (destruct H as [<-|H]; [reflexivity|]). destruct H.
Qed.
End ExInt.
Print Assumptions C22_integer_source_refuted.
