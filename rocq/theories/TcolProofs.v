(* Triple and extended collocation. *)
From Coq Require Import Reals List Lra Lia Psatz.
From Verif Require Import Base.
From Verif Require Import RStats RStatsProofs MetricsModel MetricsSpec MetricsProofs TcolModel TcolSpec.
Open Scope R_scope.

Lemma lt3 i : (i < 3)%nat -> i = 0%nat \/ i = 1%nat \/ i = 2%nat.
Proof. lia. Qed.

Section Model.
Variable C : matrix.
Variable s : R.
Variable b e : nat -> R.
Hypothesis EM : error_model 3 C s b e.
Hypothesis S0 : s <> 0.
Hypothesis B0 : forall i, (i < 3)%nat -> b i <> 0.

Lemma C_offd i j : (i < 3)%nat -> (j < 3)%nat -> i <> j -> C i j = b i * b j * s.
Proof. intros. apply EM; assumption. Qed.
Lemma C_diag i : (i < 3)%nat -> C i i = b i * b i * s + e i.
Proof. intros. apply EM; assumption. Qed.

Lemma prod_ne x y : x <> 0 -> y <> 0 -> x * y <> 0.
Proof. intros A B D. apply Rmult_integral in D. tauto. Qed.

Lemma tc_beta_model ref i : (ref < 3)%nat -> (i < 3)%nat -> tc_beta C ref i = Some (b ref / b i).
Proof.
  intros Hr Hi. unfold tc_beta. pose proof (B0 0 ltac:(lia)) as N0. pose proof (B0 1 ltac:(lia)) as N1. pose proof (B0 2 ltac:(lia)) as N2.
  destruct (lt3 ref Hr) as [->|[->| ->]], (lt3 i Hi) as [->|[->| ->]]; cbn [Nat.eqb third filter negb hd];
    try (f_equal; field; assumption);
    (rewrite !C_offd by lia; rewrite fdiv_some by (repeat apply prod_ne; assumption); f_equal; field; repeat split; assumption).
Qed.

Lemma tc_err_var_model i : (i < 3)%nat -> tc_err_var C i = Some (e i).
Proof.
  intros Hi. unfold tc_err_var. pose proof (B0 0 ltac:(lia)) as N0. pose proof (B0 1 ltac:(lia)) as N1. pose proof (B0 2 ltac:(lia)) as N2.
  destruct (lt3 i Hi) as [->|[->| ->]]; unfold cyc; cbn [plus nth];
    first [rewrite (C_diag 0) by lia|rewrite (C_diag 1) by lia|rewrite (C_diag 2) by lia]; rewrite !C_offd by lia; rewrite fdiv_some by (repeat apply prod_ne; assumption); cbn [omap]; f_equal; field; repeat split; assumption.
Qed.

Lemma tc_ratio_model i : (i < 3)%nat ->
  fdiv (C i i * C (cyc (i + 1)) (cyc (i + 2))) (C i (cyc (i + 1)) * C i (cyc (i + 2))) = Some (1 + e i / (b i * b i * s)).
Proof.
  intros Hi. pose proof (B0 0 ltac:(lia)) as N0. pose proof (B0 1 ltac:(lia)) as N1. pose proof (B0 2 ltac:(lia)) as N2.
  destruct (lt3 i Hi) as [->|[->| ->]]; unfold cyc; cbn [plus nth];
    first [rewrite (C_diag 0) by lia|rewrite (C_diag 1) by lia|rewrite (C_diag 2) by lia]; rewrite !C_offd by lia; rewrite fdiv_some by (repeat apply prod_ne; assumption); f_equal; field; repeat split; assumption.
Qed.

Lemma snr_value i : 0 < s -> 0 < e i -> (i < 3)%nat -> let q := e i / (b i * b i * s) in 0 < q /\ 1 / q = b i * b i * s / e i /\ 0 < b i * b i * s / e i.
Proof.
  intros SP EP Hi q. assert (BB : 0 < b i * b i) by (pose proof (B0 i Hi); nra). assert (BS : 0 < b i * b i * s) by nra.
  assert (QP : 0 < q) by (unfold q; apply Rmult_lt_0_compat; [exact EP|apply Rinv_0_lt_compat, BS]).
  split; [exact QP|]. split; [unfold q; field; repeat split; try lra; apply B0, Hi|]. apply Rmult_lt_0_compat; [exact BS|apply Rinv_0_lt_compat, EP].
Qed.

Lemma tc_snr_model i : 0 < s -> 0 < e i -> (i < 3)%nat -> tc_snr C i = Some (dB (b i * b i * s / e i)).
Proof.
  intros SP EP Hi. unfold tc_snr. rewrite tc_ratio_model by exact Hi. cbn [obind].
  destruct (snr_value i SP EP Hi) as (QP & QI & VP). set (q := e i / (b i * b i * s)) in *.
  rewrite (Rabs_pos_eq (1 + q)) by lra. replace (1 + q - 1) with q by ring. rewrite (Rabs_pos_eq q) by lra.
  rewrite fdiv_some by lra. cbn [obind]. rewrite QI. unfold np_log10. destruct (Rlt_dec 0 _); [reflexivity|contradiction].
Qed.
Lemma old_snr_model i : 0 < s -> 0 < e i -> (i < 3)%nat -> old_snr C i = Some (dB (b i * b i * s / e i)).
Proof.
  intros SP EP Hi. unfold old_snr. rewrite tc_ratio_model by exact Hi. cbn [obind].
  destruct (snr_value i SP EP Hi) as (QP & QI & VP). set (q := e i / (b i * b i * s)) in *.
  replace (1 + q - 1) with q by ring. rewrite fdiv_some by lra. cbn [obind]. rewrite QI. unfold np_log10. destruct (Rlt_dec 0 _); [reflexivity|contradiction].
Qed.

Lemma tc_err_std_model ref i : 0 <= e i -> (ref < 3)%nat -> (i < 3)%nat -> tc_err_std C ref i = Some (sqrt (e i) * (b ref / b i)).
Proof.
  intros EP Hr Hi. unfold tc_err_std. rewrite tc_err_var_model by exact Hi. cbn [obind]. rewrite np_sqrt_some by exact EP. cbn [obind].
  rewrite tc_beta_model by assumption. reflexivity.
Qed.
End Model.

(* ---- rescaling the data ---- *)
Definition rescaled (g : nat -> R) (C : matrix) : matrix := fun i j => g i * g j * C i j.

Lemma fdiv_scale k a c : k <> 0 -> fdiv (k * a) (k * c) = fdiv a c.
Proof.
  intros K. unfold fdiv. destruct (Req_EM_T (k * c) 0) as [E|E], (Req_EM_T c 0) as [E'|E']; try reflexivity.
  - exfalso. apply Rmult_integral in E. tauto.
  - exfalso. apply E. rewrite E'. ring.
  - f_equal. field. tauto.
Qed.

Lemma snr_rescaled g C i : (forall j, (j < 3)%nat -> g j <> 0) -> (i < 3)%nat -> tc_snr (rescaled g C) i = tc_snr C i.
Proof.
  intros G Hi. unfold tc_snr. f_equal. pose proof (G 0%nat ltac:(lia)) as G0. pose proof (G 1%nat ltac:(lia)) as G1. pose proof (G 2%nat ltac:(lia)) as G2.
  unfold rescaled. set (j := cyc (i + 1)). set (k := cyc (i + 2)).
  replace (g i * g i * C i i * (g j * g k * C j k)) with ((g i * g i * g j * g k) * (C i i * C j k)) by ring.
  replace (g i * g j * C i j * (g i * g k * C i k)) with ((g i * g i * g j * g k) * (C i j * C i k)) by ring.
  apply fdiv_scale. destruct (lt3 i Hi) as [->|[->| ->]]; unfold j, k, cyc; cbn [plus nth]; repeat apply prod_ne; assumption.
Qed.

Lemma beta_rescaled g C ref i : (forall j, (j < 3)%nat -> g j <> 0) -> (ref < 3)%nat -> (i < 3)%nat ->
  tc_beta (rescaled g C) ref i = omap (fun v => g ref / g i * v) (tc_beta C ref i).
Proof.
  intros G Hr Hi. unfold tc_beta. pose proof (G i Hi) as GI. pose proof (G ref Hr) as GR.
  destruct (Nat.eqb_spec i ref) as [->|NE]; [cbn; f_equal; field; exact GR|]. unfold rescaled. set (k := third ref i).
  assert (GK : g k <> 0). { apply G. unfold k. destruct (lt3 i Hi) as [->|[->| ->]], (lt3 ref Hr) as [->|[->| ->]]; cbn; lia. }
  unfold fdiv. destruct (Req_EM_T (g i * g k * C i k) 0) as [E|E], (Req_EM_T (C i k) 0) as [E'|E']; cbn; try reflexivity.
  - exfalso. apply Rmult_integral in E as [E|E]; [apply Rmult_integral in E; tauto|contradiction].
  - exfalso. apply E. rewrite E'. ring.
  - f_equal. field. tauto.
Qed.

Lemma err_var_rescaled g C i : (forall j, (j < 3)%nat -> g j <> 0) -> (i < 3)%nat ->
  tc_err_var (rescaled g C) i = omap (fun v => g i * g i * v) (tc_err_var C i).
Proof.
  intros G Hi. unfold tc_err_var, rescaled. set (j := cyc (i + 1)). set (k := cyc (i + 2)).
  assert (GJ : g j <> 0) by (apply G; unfold j; destruct (lt3 i Hi) as [->|[->| ->]]; cbn; lia).
  assert (GK : g k <> 0) by (apply G; unfold k; destruct (lt3 i Hi) as [->|[->| ->]]; cbn; lia).
  unfold fdiv. destruct (Req_EM_T (g j * g k * C j k) 0) as [E|E], (Req_EM_T (C j k) 0) as [E'|E']; cbn; try reflexivity.
  - exfalso. apply Rmult_integral in E as [E|E]; [apply Rmult_integral in E; tauto|contradiction].
  - exfalso. apply E. rewrite E'. ring.
  - f_equal. field. tauto.
Qed.

(* ---- sample covariance ---- *)
Lemma cov1_cov rows j k : (2 <= List.length rows)%nat -> cov1 rows j k = cov (columns j k rows) * (rlen rows / (rlen rows - 1)).
Proof.
  intros L. assert (N : rlen rows - 1 <> 0) by (unfold rlen; apply le_INR in L; cbn in L; lra).
  assert (H : rows <> []) by (intros ->; cbn in L; lia). pose proof (rlen_ne rows H) as N0.
  assert (XC : xs (columns j k rows) = column j rows) by (unfold xs, columns, column; rewrite map_map; reflexivity).
  assert (YC : ys (columns j k rows) = column k rows) by (unfold ys, columns, column; rewrite map_map; reflexivity).
  unfold cov1, cov. rewrite XC, YC. fold (column j rows) (column k rows).
  unfold rmean at 3. unfold columns. rewrite map_map, !rlen_map. cbn [fst snd]. field. split; assumption.
Qed.

Lemma np_cov_some rows : (2 <= List.length rows)%nat -> np_cov rows = Some (cov1 rows).
Proof. intros L. destruct rows as [|a [|b r]]; cbn in L; try lia. reflexivity. Qed.

(* ---- least squares with the collocation design matrix ---- *)
Lemma rsum_indicator (f : nat -> R) c a len : rsum (map (fun i => if Nat.eqb i c then f i else 0) (seq a len)) =
  if andb (Nat.leb a c) (Nat.ltb c (a + len)) then f c else 0.
Proof.
  revert a. induction len as [|len IH]; intros a; cbn [seq map rsum].
  - destruct (Nat.leb_spec a c), (Nat.ltb_spec c (a + 0)); cbn; reflexivity || lia.
  - rewrite IH. destruct (Nat.eqb_spec a c) as [->|NE].
    + destruct (Nat.leb_spec (S c) c); [lia|]. destruct (Nat.leb_spec c c); [|lia]. destruct (Nat.ltb_spec c (c + S len)); [|lia]. cbn. ring.
    + destruct (Nat.leb_spec (S a) c), (Nat.leb_spec a c), (Nat.ltb_spec c (S a + len)), (Nat.ltb_spec c (a + S len)); cbn; try lia; ring.
Qed.

Lemma dot_unit nx a x : (a < nx)%nat -> dot nx (unit_line a) x = x a.
Proof.
  intros A. unfold dot, unit_line. rewrite (rsum_ext _ (fun i => if Nat.eqb i a then x i else 0)).
  - rewrite rsum_indicator. destruct (Nat.leb_spec 0 a); [|lia]. destruct (Nat.ltb_spec a (0 + nx)); [reflexivity|lia].
  - intros i _. destruct (Nat.eqb i a); ring.
Qed.
Lemma dot_top h i x : (i < h)%nat -> dot (2 * h) (top_line h i) x = x i + x (h + i)%nat.
Proof.
  intros I. unfold dot, top_line. rewrite (rsum_ext _ (fun c => (if Nat.eqb c i then x c else 0) + (if Nat.eqb c (h + i) then x c else 0))).
  - rewrite rsum_plus, !rsum_indicator. destruct (Nat.leb_spec 0 i); [|lia]. destruct (Nat.ltb_spec i (0 + 2 * h)); [|lia].
    destruct (Nat.leb_spec 0 (h + i)); [|lia]. destruct (Nat.ltb_spec (h + i) (0 + 2 * h)); [reflexivity|lia].
  - intros c _. destruct (Nat.eqb_spec c i), (Nat.eqb_spec c (h + i)); cbn; try lia; ring.
Qed.

(* the observations for position c *)
Definition obs_at (os : list obs) (c : nat) : list R := map snd (filter (fun o => Nat.eqb (fst o) c) os).

Lemma combine_app {A B} (a1 a2 : list A) (b1 b2 : list B) : List.length a1 = List.length b1 -> combine (a1 ++ a2) (b1 ++ b2) = combine a1 b1 ++ combine a2 b2.
Proof. revert b1. induction a1 as [|x a IH]; intros [|y b1] L; try discriminate L; [reflexivity|]. cbn. rewrite IH by (cbn in L; lia). reflexivity. Qed.
Lemma combine_map' {A B D} (f : A -> B) (g : A -> D) l : combine (map f l) (map g l) = map (fun x => (f x, g x)) l.
Proof. induction l as [|x l IH]; cbn; [reflexivity|]. rewrite IH. reflexivity. Qed.
Lemma list_as_map (l : list R) : l = map (fun i => nth i l 0) (seq 0 (List.length l)).
Proof.
  induction l as [|x l IH]; [reflexivity|]. cbn [List.length seq map nth]. f_equal. rewrite <- seq_shift, map_map. exact IH.
Qed.

Lemma normal_design h os tot x : List.length tot = h -> (forall o, In o os -> (fst o < h)%nat) ->
  normal_equations (design h os) (tot ++ map snd os) (2 * h) x ->
  forall c, (c < h)%nat -> x c + x (h + c)%nat = nth c tot 0 /\ rsum (map (fun v => x c - v) (obs_at os c)) = 0.
Proof.
  intros LT OB NE c Hc. unfold normal_equations, design in NE.
  rewrite combine_app in NE by (rewrite map_length, seq_length; symmetry; exact LT).
  assert (TOP : combine (map (top_line h) (seq 0 h)) tot = map (fun i => (top_line h i, nth i tot 0)) (seq 0 h)).
  { rewrite (list_as_map tot), LT at 1. rewrite combine_map'. reflexivity. }
  rewrite TOP, combine_map' in NE.
  assert (SUM : forall c', (c' < 2 * h)%nat ->
     rsum (map (fun i => top_line h i c' * (x i + x (h + i)%nat - nth i tot 0)) (seq 0 h)) +
     rsum (map (fun o => unit_line (fst o) c' * (x (fst o) - snd o)) os) = 0).
  { intros c' H'. specialize (NE c' H'). rewrite map_app, rsum_app, !map_map in NE. cbn [fst snd] in NE. refine (eq_trans _ NE). f_equal; apply rsum_ext.
    - intros i Hi. apply in_seq in Hi. rewrite dot_top by lia. reflexivity.
    - intros o Ho. rewrite dot_unit by (pose proof (OB o Ho); lia). reflexivity. }
  assert (OBS : forall c', (h <= c')%nat -> rsum (map (fun o => unit_line (fst o) c' * (x (fst o) - snd o)) os) = 0).
  { intros c' H'. rewrite (rsum_ext _ (fun _ => 0)); [rewrite rsum_const; ring|]. intros o Ho. unfold unit_line.
    pose proof (OB o Ho). destruct (Nat.eqb_spec c' (fst o)); [lia|]. ring. }
  assert (T1 : forall c', (c' < h)%nat -> rsum (map (fun i => top_line h i c' * (x i + x (h + i)%nat - nth i tot 0)) (seq 0 h)) = x c' + x (h + c')%nat - nth c' tot 0).
  { intros c' H'. rewrite (rsum_ext _ (fun i => if Nat.eqb i c' then x i + x (h + i)%nat - nth i tot 0 else 0)).
    - rewrite rsum_indicator. destruct (Nat.leb_spec 0 c'); [|lia]. destruct (Nat.ltb_spec c' (0 + h)); [reflexivity|lia].
    - intros i Hi. apply in_seq in Hi. unfold top_line. rewrite (Nat.eqb_sym c' i). destruct (Nat.eqb_spec i c'), (Nat.eqb_spec c' (h + i)); cbn; try lia; ring. }
  assert (T2 : rsum (map (fun i => top_line h i (h + c)%nat * (x i + x (h + i)%nat - nth i tot 0)) (seq 0 h)) = x c + x (h + c)%nat - nth c tot 0).
  { rewrite (rsum_ext _ (fun i => if Nat.eqb i c then x i + x (h + i)%nat - nth i tot 0 else 0)).
    - rewrite rsum_indicator. destruct (Nat.leb_spec 0 c); [|lia]. destruct (Nat.ltb_spec c (0 + h)); [reflexivity|lia].
    - intros i Hi. apply in_seq in Hi. unfold top_line. destruct (Nat.eqb_spec i c), (Nat.eqb_spec (h + c) (h + i)), (Nat.eqb_spec (h + c) i); cbn; try lia; ring. }
  pose proof (SUM (h + c)%nat ltac:(lia)) as E2. rewrite T2, OBS in E2 by lia.
  pose proof (SUM c ltac:(lia)) as E1. rewrite T1 in E1 by exact Hc.
  split; [lra|]. assert (OE : rsum (map (fun v => x c - v) (obs_at os c)) = rsum (map (fun o => unit_line (fst o) c * (x (fst o) - snd o)) os)).
  { unfold obs_at. rewrite map_map. clear. induction os as [|o os IH]; [reflexivity|]. cbn [filter map rsum]. unfold unit_line at 1. rewrite (Nat.eqb_sym c (fst o)).
    destruct (Nat.eqb_spec (fst o) c) as [<-|NE]; cbn [map rsum]; rewrite IH; ring. }
  rewrite OE. lra.
Qed.

Lemma design_solution h os tot x : List.length tot = h -> (forall o, In o os -> (fst o < h)%nat) ->
  normal_equations (design h os) (tot ++ map snd os) (2 * h) x ->
  forall c, (c < h)%nat -> obs_at os c <> [] -> x c = rmean (obs_at os c) /\ x (h + c)%nat = nth c tot 0 - rmean (obs_at os c).
Proof.
  intros LT OB NE c Hc HO. destruct (normal_design h os tot x LT OB NE c Hc) as [E1 E2].
  assert (XC : x c = rmean (obs_at os c)).
  { rewrite rsum_minus, map_id, rsum_const in E2. pose proof (rlen_ne _ HO) as N. unfold rmean. apply (Rmult_eq_reg_r (rlen (obs_at os c))); [|exact N].
    unfold Rdiv. rewrite Rmult_assoc, Rinv_l by exact N. lra. }
  split; [exact XC|]. rewrite <- XC. lra.
Qed.

Lemma design_full_rank h os : (forall c, (c < h)%nat -> exists o, In o os /\ fst o = c) -> full_rank (design h os) (2 * h).
Proof.
  intros H v V c Hc.
  assert (Z : forall i, (i < h)%nat -> v i = 0).
  { intros i Hi. destruct (H i Hi) as (o & Ho & <-). rewrite <- (dot_unit (2 * h) (fst o) v) by lia. apply V.
    unfold design. apply in_or_app. right. apply (in_map (fun o => unit_line (fst o))), Ho. }
  destruct (Nat.lt_ge_cases c h) as [L|G]; [apply Z, L|].
  assert (E : dot (2 * h) (top_line h (c - h)) v = 0).
  { apply V. unfold design. apply in_or_app. left. apply in_map, in_seq. lia. }
  rewrite dot_top in E by lia. rewrite Z in E by lia. replace (h + (c - h))%nat with c in E by lia. lra.
Qed.

(* ---- positions of the observations ---- *)
Lemma signal_obs_pos n C co c o : In o (signal_obs n C co c) -> fst o = c.
Proof. unfold signal_obs. intros H. apply in_map_iff in H as (ab & <- & _). reflexivity. Qed.
Lemma cross_obs_pos n C co i p o : In o (cross_obs n C co i p) -> fst o = (n + i)%nat.
Proof. unfold cross_obs. intros H. apply in_map_iff in H as (ab & <- & _). reflexivity. Qed.

Lemma all_obs_pos n C co o : In o (all_obs n C co) -> (fst o < n + List.length co)%nat.
Proof.
  unfold all_obs. intros H. apply in_app_or in H as [H|H]; apply in_flat_map in H as (c & Hc & Ho).
  - apply in_seq in Hc. apply signal_obs_pos in Ho. lia.
  - destruct c as [i p]. apply in_combine_l in Hc. apply in_seq in Hc. cbn [fst snd] in Ho. apply cross_obs_pos in Ho. lia.
Qed.

Lemma obs_at_app a b c : obs_at (a ++ b) c = obs_at a c ++ obs_at b c.
Proof. unfold obs_at. rewrite filter_app, map_app. reflexivity. Qed.
Lemma obs_at_other a c : (forall o, In o a -> fst o <> c) -> obs_at a c = [].
Proof.
  intros H. unfold obs_at. induction a as [|o a IH]; [reflexivity|]. cbn. pose proof (H o (or_introl eq_refl)) as N. apply Nat.eqb_neq in N. rewrite N.
  apply IH. intros; apply H; right; assumption.
Qed.
Lemma obs_at_same a c : (forall o, In o a -> fst o = c) -> obs_at a c = map snd a.
Proof.
  intros H. unfold obs_at. induction a as [|o a IH]; [reflexivity|]. cbn. rewrite (proj2 (Nat.eqb_eq _ _) (H o (or_introl eq_refl))). cbn. f_equal.
  apply IH. intros; apply H; right; assumption.
Qed.
Lemma obs_at_flat {A} (f : A -> list obs) (pos : A -> nat) l x c : NoDup (map pos l) -> In x l -> pos x = c ->
  (forall y o, In y l -> In o (f y) -> fst o = pos y) -> obs_at (flat_map f l) c = map snd (f x).
Proof.
  intros ND HI <- P. induction l as [|y l IH]; [contradiction|]. cbn [flat_map map] in *. rewrite obs_at_app. apply NoDup_cons_iff in ND as [N1 N2].
  destruct HI as [<-|HI].
  - rewrite obs_at_same by (intros o Ho; apply (P y); [left; reflexivity|exact Ho]). rewrite obs_at_other; [apply app_nil_r|].
    intros o Ho. apply in_flat_map in Ho as (z & Hz & Ho). rewrite (P z o (or_intror Hz) Ho). intros E. apply N1. rewrite <- E. apply in_map, Hz.
  - rewrite obs_at_other; [|intros o Ho; rewrite (P y o (or_introl eq_refl) Ho); intros E; apply N1; rewrite E; apply in_map, HI].
    apply IH; [exact N2|exact HI|]. intros z o Hz Ho. apply (P z); [right; exact Hz|exact Ho].
Qed.

Lemma obs_at_signal n C co c : (c < n)%nat -> obs_at (all_obs n C co) c = map snd (signal_obs n C co c).
Proof.
  intros Hc. unfold all_obs. rewrite obs_at_app.
  rewrite (obs_at_flat (signal_obs n C co) (fun c => c) (seq 0 n) c c); [|rewrite map_id; apply seq_NoDup|apply in_seq; lia|reflexivity|intros y o _ Ho; exact (signal_obs_pos _ _ _ _ _ Ho)].
  rewrite obs_at_other; [apply app_nil_r|]. intros o Ho. apply in_flat_map in Ho as ([i p] & _ & Ho). apply cross_obs_pos in Ho. lia.
Qed.

Lemma combine_seq_nodup {A} (l : list A) a : NoDup (map (fun ip => fst ip) (combine (seq a (List.length l)) l)).
Proof.
  assert (E : map (fun ip => fst ip) (combine (seq a (List.length l)) l) = seq a (List.length l)).
  { revert a. induction l as [|x l IH]; intros a; [reflexivity|]. cbn. f_equal. apply IH. }
  rewrite E. apply seq_NoDup.
Qed.
Lemma combine_seq_in {A} (l : list A) i x0 : (i < List.length l)%nat -> In (i, nth i l x0) (combine (seq 0 (List.length l)) l).
Proof.
  intros H. assert (E : (i, nth i l x0) = nth i (combine (seq 0 (List.length l)) l) (0%nat, x0)).
  { rewrite combine_nth by (apply seq_length). rewrite seq_nth by exact H. reflexivity. }
  rewrite E. apply nth_In. rewrite combine_length, seq_length, Nat.min_id. exact H.
Qed.

Lemma obs_at_cross n C co i : (i < List.length co)%nat ->
  obs_at (all_obs n C co) (n + i)%nat = map snd (cross_obs n C co i (nth i co (0, 0)%nat)).
Proof.
  intros Hi. unfold all_obs. rewrite obs_at_app.
  rewrite obs_at_other; [|intros o Ho; apply in_flat_map in Ho as (c & Hc & Ho); apply in_seq in Hc; apply signal_obs_pos in Ho; lia]. cbn [app].
  set (f := fun ip : nat * (nat * nat) => cross_obs n C co (fst ip) (snd ip)).
  rewrite (obs_at_flat f (fun ip => (n + fst ip)%nat) _ (i, nth i co (0, 0)%nat) (n + i)%nat); [reflexivity| |apply combine_seq_in, Hi|reflexivity|].
  - rewrite <- (map_map (fun ip => fst ip) (fun j => (n + j)%nat)). apply FinFun.Injective_map_NoDup; [intros a b; lia|apply combine_seq_nodup].
  - intros [j p] o _ Ho. exact (cross_obs_pos _ _ _ _ _ _ Ho).
Qed.

Lemma totals_length n C co : List.length (totals n C co) = (n + List.length co)%nat.
Proof. unfold totals. rewrite app_length, !map_length, seq_length. reflexivity. Qed.
Lemma totals_signal n C co c : (c < n)%nat -> nth c (totals n C co) 0 = C c c.
Proof.
  intros H. unfold totals. rewrite app_nth1 by (rewrite map_length, seq_length; exact H).
  rewrite (nth_indep _ 0 (C 0%nat 0%nat)) by (rewrite map_length, seq_length; exact H).
  rewrite (map_nth (fun i => C i i)). rewrite seq_nth by exact H. reflexivity.
Qed.
Lemma totals_cross n C co i : (i < List.length co)%nat -> nth (n + i) (totals n C co) 0 = C (fst (nth i co (0, 0)%nat)) (snd (nth i co (0, 0)%nat)).
Proof.
  intros H. unfold totals. rewrite app_nth2; rewrite map_length, seq_length; [|lia]. replace (n + i - n)%nat with i by lia.
  rewrite (nth_indep _ 0 (C 0%nat 0%nat)) by (rewrite map_length; exact H).
  exact (map_nth (fun p => C (fst p) (snd p)) co (0, 0)%nat i).
Qed.

(* ---- the result of ecol ---- *)
Lemma normal_design_exists h os tot : List.length tot = h -> (forall o, In o os -> (fst o < h)%nat) ->
  (forall c, (c < h)%nat -> obs_at os c <> []) -> exists x, normal_equations (design h os) (tot ++ map snd os) (2 * h) x.
Proof.
  intros LT OB HO. set (m := fun c => rmean (obs_at os c)).
  exists (fun c => if Nat.ltb c h then m c else nth (c - h) tot 0 - m (c - h)%nat).
  set (x := fun c => if Nat.ltb c h then m c else nth (c - h) tot 0 - m (c - h)%nat).
  intros c Hc. unfold design. rewrite combine_app by (rewrite map_length, seq_length; symmetry; exact LT).
  assert (TOP : combine (map (top_line h) (seq 0 h)) tot = map (fun i => (top_line h i, nth i tot 0)) (seq 0 h)).
  { rewrite (list_as_map tot), LT at 1. rewrite combine_map'. reflexivity. }
  rewrite TOP, combine_map', map_app, rsum_app, !map_map. cbn [fst snd].
  assert (X1 : forall i, (i < h)%nat -> x i = m i) by (intros i Hi; unfold x; apply Nat.ltb_lt in Hi; rewrite Hi; reflexivity).
  assert (X2 : forall i, (i < h)%nat -> x (h + i)%nat = nth i tot 0 - m i).
  { intros i Hi. unfold x. destruct (Nat.ltb_spec (h + i) h); [lia|]. replace (h + i - h)%nat with i by lia. reflexivity. }
  rewrite (rsum_ext (fun i => top_line h i c * (dot (2 * h) (top_line h i) x - nth i tot 0)) (fun _ => 0)).
  2:{ intros i Hi. apply in_seq in Hi. rewrite dot_top by lia. rewrite X1, X2 by lia. ring. }
  rewrite (rsum_ext _ (fun o => unit_line (fst o) c * (m c - snd o))).
  2:{ intros o Ho. pose proof (OB o Ho). rewrite dot_unit by lia. rewrite X1 by lia. unfold unit_line. destruct (Nat.eqb_spec c (fst o)) as [->|]; ring. }
  rewrite rsum_const.
  assert (OE : rsum (map (fun v => m c - v) (obs_at os c)) = rsum (map (fun o => unit_line (fst o) c * (m c - snd o)) os)).
  { generalize (m c). intros mc. unfold obs_at. rewrite map_map. clear. induction os as [|o os IH]; [reflexivity|]. cbn [filter map rsum]. unfold unit_line at 1. rewrite (Nat.eqb_sym c (fst o)).
    destruct (Nat.eqb_spec (fst o) c) as [<-|NE]; cbn [map rsum]; rewrite IH; ring. }
  rewrite <- OE. destruct (Nat.lt_ge_cases c h) as [L|G].
  - pose proof (HO c L) as N. pose proof (rlen_ne _ N) as N0. rewrite rsum_minus, map_id, rsum_const. unfold m, rmean. field. exact N0.
  - rewrite obs_at_other; [cbn; ring|]. intros o Ho. pose proof (OB o Ho). lia.
Qed.

Section E.
Variable lstsq : list (nat -> R) -> list R -> nat -> option (nat -> R).
Hypothesis LS : least_squares lstsq.

Definition sig_est (n : nat) (C : matrix) (co : list (nat * nat)) (c : nat) : R := rmean (map snd (signal_obs n C co c)).
Definition cross_est (n : nat) (C : matrix) (co : list (nat * nat)) (i : nat) : R := rmean (map snd (cross_obs n C co i (nth i co (0, 0)%nat))).

Definition estimable (n : nat) (co : list (nat * nat)) : Prop :=
  (forall C c, (c < n)%nat -> signal_obs n C co c <> []) /\
  (forall C i, (i < List.length co)%nat -> cross_obs n C co i (nth i co (0, 0)%nat) <> []).

Definition abs_if (a : bool) (v : R) : R := if a then Rabs v else v.

Lemma ecol_value n C0 co ec ae : estimable n co ->
  let C := subtract C0 ec in
  exists r, ecol_from_cov lstsq n C0 co ec ae = Ok r /\
    e_sig r = map (fun i => abs_if ae (sig_est n C co i)) (seq 0 n) /\
    e_err r = map (fun i => abs_if ae (C i i - sig_est n C co i)) (seq 0 n) /\
    e_cov r = map (fun i => C (fst (nth i co (0, 0)%nat)) (snd (nth i co (0, 0)%nat)) - cross_est n C co i) (seq 0 (List.length co)) /\
    e_snr r = map (fun i => obind (fdiv (abs_if ae (sig_est n C co i)) (abs_if ae (C i i - sig_est n C co i))) (fun q => omap (fun l => 10 * l) (np_log10 q))) (seq 0 n).
Proof.
  intros [IS IC] C. destruct LS as [LS_sound LS_total]. unfold ecol_from_cov. fold C. set (h := (n + List.length co)%nat). set (os := all_obs n C co).
  assert (OB : forall o, In o os -> (fst o < h)%nat) by (intros o Ho; apply all_obs_pos in Ho; exact Ho).
  assert (NEs : forall c, (c < h)%nat -> obs_at os c <> []).
  { intros c Hc. unfold os. destruct (Nat.lt_ge_cases c n) as [L|G].
    - rewrite obs_at_signal by exact L. apply map_ne, IS, L.
    - replace c with (n + (c - n))%nat by lia. rewrite obs_at_cross by (unfold h in Hc; lia). apply map_ne, IC. unfold h in Hc; lia. }
  assert (FR : full_rank (design h os) (2 * h)).
  { apply design_full_rank. intros c Hc. pose proof (NEs c Hc) as N. unfold obs_at in N. destruct (filter (fun o => Nat.eqb (fst o) c) os) as [|o r] eqn:EF; [exfalso; apply N; reflexivity|].
    assert (I : In o (filter (fun o => Nat.eqb (fst o) c) os)) by (rewrite EF; left; reflexivity). apply filter_In in I as [I1 I2]. apply Nat.eqb_eq in I2. exists o. split; assumption. }
  destruct (LS_total (design h os) (totals n C co ++ map snd os) (2 * h)%nat FR) as [x EX]; [apply normal_design_exists; [apply totals_length|exact OB|exact NEs]|]. rewrite EX.
  pose proof (LS_sound _ _ _ _ EX) as NE.
  assert (SOL : forall c, (c < h)%nat -> x c = rmean (obs_at os c) /\ x (h + c)%nat = nth c (totals n C co) 0 - rmean (obs_at os c)).
  { intros c Hc. apply (design_solution h os (totals n C co) x); [apply totals_length|exact OB|exact NE|exact Hc|apply NEs, Hc]. }
  assert (XS : map x (seq 0 n) = map (sig_est n C co) (seq 0 n)).
  { apply map_ext_in. intros c Hc. apply in_seq in Hc. destruct (SOL c) as [-> _]; [unfold h; lia|]. unfold os. rewrite obs_at_signal by lia. reflexivity. }
  assert (XE : map (fun i => x (h + i)%nat) (seq 0 n) = map (fun i => C i i - sig_est n C co i) (seq 0 n)).
  { apply map_ext_in. intros c Hc. apply in_seq in Hc. destruct (SOL c) as [_ ->]; [unfold h; lia|]. unfold os. rewrite obs_at_signal, totals_signal by lia. reflexivity. }
  assert (XC : map (fun i => x (h + n + i)%nat) (seq 0 (List.length co)) = map (fun i => C (fst (nth i co (0, 0)%nat)) (snd (nth i co (0, 0)%nat)) - cross_est n C co i) (seq 0 (List.length co))).
  { apply map_ext_in. intros i Hi. apply in_seq in Hi. replace (h + n + i)%nat with (h + (n + i))%nat by lia. destruct (SOL (n + i)%nat) as [_ ->]; [unfold h; lia|].
    unfold os. rewrite obs_at_cross, totals_cross by lia. reflexivity. }
  cbn zeta. rewrite XS, XE, XC. eexists. split; [reflexivity|]. cbn [e_sig e_err e_cov e_snr]. clear.
  assert (AB : forall f : nat -> R, (if ae then map Rabs (map f (seq 0 n)) else map f (seq 0 n)) = map (fun i => abs_if ae (f i)) (seq 0 n)).
  { intros f. unfold abs_if. destruct ae; [apply map_map|reflexivity]. }
  rewrite !AB. split; [reflexivity|]. split; [reflexivity|]. split; [reflexivity|].
  rewrite combine_map', map_map. reflexivity.
Qed.
End E.
