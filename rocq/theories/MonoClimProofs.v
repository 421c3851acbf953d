(* Larger observations give no smaller climatology. *)
From Coq Require Import Lia Lqa Qabs.
From Verif Require Import Base FiltersModel AnomalyModel ClimModel MonoSpec.
Open Scope Z_scope.

Definition above_marker (c : cell) : Prop := match c with Some x => (default_nan < x)%Q | None => True end.
Definition ok (c d : cell) : Prop := cell_not_above c d /\ above_marker c.

Lemma ok_valid c d : ok c d -> valid_value default_nan c = c /\ valid_value default_nan d = d.
Proof.
  intros [L M]. destruct c as [x|], d as [y|]; cbn in *; try contradiction; [|auto]. split.
  - destruct (Qeq_bool x default_nan) eqn:E; [apply Qeq_bool_iff in E; lra|reflexivity].
  - destruct (Qeq_bool y default_nan) eqn:E; [apply Qeq_bool_iff in E; lra|reflexivity].
Qed.
Definition pt_ok (p q : Q * cell) : Prop := fst p = fst q /\ ok (snd p) (snd q).
Definition acc_ok (a b : Q * Z) : Prop :=
  snd a = snd b /\ 0 <= snd a /\ (fst a <= fst b)%Q /\ (inject_Z (snd a) * default_nan <= fst a)%Q /\ (0 < snd a -> (inject_Z (snd a) * default_nan < fst a)%Q).
Lemma scan_ok limit ti : forall l m, Forall2 pt_ok l m -> forall a b, acc_ok a b ->
  acc_ok (box_scan default_nan limit ti l a) (box_scan default_nan limit ti m b).
Proof.
  induction 1 as [|[t c] [t' d] l m [T O] F IH]; intros a b A; cbn [box_scan]; [exact A|]. cbn [fst snd] in T, O. subst t'. destruct (ok_valid c d O) as [-> ->].
  destruct O as [L M]. destruct c as [x|], d as [y|]; cbn in L, M; try contradiction; [|apply IH, A].
  destruct (Qle_bool (Qabs (t - ti)) limit); [|exact A]. apply IH. destruct A as (E & P & S & B1 & B2). unfold acc_ok. cbn [fst snd].
  assert (Z1 : (inject_Z (snd a + 1) * default_nan == inject_Z (snd a) * default_nan + default_nan)%Q) by (rewrite inject_Z_plus; unfold inject_Z at 2; ring).
  split; [lia|]. split; [lia|]. split; [lra|]. split; [rewrite Z1; lra|]. intros _. rewrite Z1. lra.
Qed.
Lemma point_ok limit fillna mo b1 b2 a1 a2 t c d : Forall2 pt_ok b1 b2 -> Forall2 pt_ok a1 a2 -> ok c d ->
  ok (box_point default_nan limit fillna mo b1 a1 t c) (box_point default_nan limit fillna mo b2 a2 t d).
Proof.
  intros FB FA O. unfold box_point. destruct (ok_valid c d O) as [-> ->]. assert (E : notna c = notna d) by (destruct O as [L _]; destruct c, d; cbn in L; try contradiction; reflexivity). rewrite E.
  assert (A0 : acc_ok (0%Q, 0) (0%Q, 0)) by (unfold acc_ok; cbn [fst snd]; split; [reflexivity|split; [lia|split; [lra|split; [unfold inject_Z; lra|lia]]]]).
  pose proof (scan_ok limit t _ _ FB _ _ (scan_ok limit t _ _ FA _ _ A0)) as S. destruct (notna d || fillna); [|split; exact Logic.I].
  destruct (box_scan default_nan limit t b1 _) as [s n], (box_scan default_nan limit t b2 _) as [s' n']. destruct S as (N & P & L & _ & B). cbn [fst snd] in N, P, L, B. subst n'.
  destruct (mo <=? n); [|split; exact Logic.I]. destruct (Z.eqb_spec n 0) as [Z|Z]; [split; exact Logic.I|].
  assert (Q0 : (0 < inject_Z n)%Q) by (change 0%Q with (inject_Z 0); rewrite <- Zlt_Qlt; lia). split; cbn.
  - apply Qle_shift_div_l; [exact Q0|]. setoid_replace (s / inject_Z n * inject_Z n)%Q with s by (field; lra). exact L.
  - apply Qlt_shift_div_l; [exact Q0|]. specialize (B ltac:(lia)). lra.
Qed.
Lemma loop_ok limit fillna mo : forall a1 a2, Forall2 pt_ok a1 a2 -> forall b1 b2, Forall2 pt_ok b1 b2 ->
  Forall2 ok (box_loop default_nan limit fillna mo b1 a1) (box_loop default_nan limit fillna mo b2 a2).
Proof.
  induction 1 as [|[t c] [t' d] l m D F IH]; intros b1 b2 FB; cbn [box_loop]; [constructor|]. assert (t = t') by exact (proj1 D). subst t'. constructor.
  - apply point_ok; [exact FB|constructor; assumption|exact (proj2 D)].
  - apply IH. constructor; assumption.
Qed.
Lemma boxcar_ok w fillna mo l m : Forall2 pt_ok l m -> Forall2 ok (boxcar_filter default_nan w fillna mo l) (boxcar_filter default_nan w fillna mo m).
Proof. intros F. apply loop_ok; [exact F|constructor]. Qed.

(* ---- aggregation ---- *)
Definition qok (x y : Q) : Prop := (default_nan < x)%Q /\ (x <= y)%Q.
Definition keeps_order (agg : list Q -> cell) : Prop := forall l m, Forall2 qok l m -> ok (agg l) (agg m).
Lemma vals_ok l m : Forall2 ok l m -> Forall2 qok (vals l) (vals m).
Proof. induction 1 as [|c d l m [L M] _ IH]; [constructor|]. destruct c, d; cbn in L, M |- *; try contradiction; [constructor; [split; assumption|exact IH]|exact IH]. Qed.
Lemma len2 {X Y} (P : X -> Y -> Prop) l m : Forall2 P l m -> List.length l = List.length m.
Proof. induction 1; cbn; congruence. Qed.
Lemma qlen_cons {A} (x : A) l : (qlen (x :: l) == qlen l + 1)%Q.
Proof. unfold qlen. cbn [List.length]. rewrite Nat2Z.inj_succ. unfold Z.succ. rewrite inject_Z_plus. reflexivity. Qed.
Lemma qlen_nonneg {A} (l : list A) : (0 <= qlen l)%Q.
Proof. unfold qlen. change 0%Q with (inject_Z 0). rewrite <- Zle_Qle. lia. Qed.
Lemma sums_ok l m : Forall2 qok l m -> (qsum l <= qsum m)%Q /\ (qlen l * default_nan <= qsum l)%Q /\ (l <> [] -> (qlen l * default_nan < qsum l)%Q).
Proof.
  induction 1 as [|x y l m [M L] _ (A & B & C)]; [split; [cbn; lra|split; [vm_compute; discriminate|congruence]]|]. cbn [qsum].
  assert (E : (qlen (x :: l) * default_nan == qlen l * default_nan + default_nan)%Q) by (rewrite qlen_cons; ring). split; [lra|]. split; [rewrite E; lra|]. intros _. rewrite E. lra.
Qed.
Lemma mean_order : keeps_order mean_agg.
Proof.
  intros l m F. destruct (sums_ok l m F) as (A & _ & C). pose proof (len2 _ _ _ F) as N. destruct F as [|x y l m D F]; [split; exact Logic.I|]. unfold mean_agg, qmean.
  assert (P : (0 < qlen (x :: l))%Q) by (rewrite qlen_cons; pose proof (qlen_nonneg l); lra).
  assert (E : (qlen (y :: m) == qlen (x :: l))%Q) by (unfold qlen; rewrite N; reflexivity). split; cbn [cell_not_above above_marker].
  - rewrite E. apply Qle_shift_div_l; [exact P|]. setoid_replace (qsum (x :: l) / qlen (x :: l) * qlen (x :: l))%Q with (qsum (x :: l)) by (field; lra). exact A.
  - apply Qlt_shift_div_l; [exact P|]. specialize (C ltac:(discriminate)). lra.
Qed.
(* sorting keeps the order position by position *)
Fixpoint asc (l : list Q) : Prop := match l with [] => True | x :: r => (forall y, In y r -> (x <= y)%Q) /\ asc r end.
Lemma ins_in x l y : In y (q_insert x l) -> y = x \/ In y l.
Proof. induction l as [|z r IH]; cbn; [intros [<-|[]]; auto|]. destruct (Qle_bool x z); cbn; intros [<-|I]; auto. destruct (IH I); auto. Qed.
Lemma ins_asc x : forall l, asc l -> asc (q_insert x l).
Proof.
  induction l as [|z r IH]; cbn; [intros _; split; [intros y []|exact Logic.I]|]. intros [L A]. destruct (Qle_bool x z) eqn:E.
  - apply Qle_bool_iff in E. cbn. split; [|auto]. intros y [<-|I]; [exact E|]. specialize (L y I). lra.
  - cbn. split; [|auto]. intros y I. apply ins_in in I as [->|I]; [|exact (L y I)]. assert (~ (x <= z)%Q) by (intros Q; apply Qle_bool_iff in Q; congruence). lra.
Qed.
Lemma sort_asc l : asc (q_sort l).
Proof. induction l as [|x r IH]; [exact Logic.I|]. cbn. apply ins_asc, IH. Qed.
Lemma head_ins x y : forall l m, qok x y -> asc l -> asc m -> Forall2 qok l m -> Forall2 qok (q_insert x l) (q_insert y m).
Proof.
  intros l m D A B F. revert x y D A B. induction F as [|u v l m E F IH]; intros x y D A B; cbn; [constructor; [exact D|constructor]|].
  destruct A as [A1 A2], B as [B1 B2]. destruct (Qle_bool x u) eqn:X, (Qle_bool y v) eqn:Y.
  - constructor; [exact D|]. constructor; assumption.
  - apply Qle_bool_iff in X. assert (Y' : (v <= y)%Q) by (assert (~ (y <= v)%Q) by (intros Q; apply Qle_bool_iff in Q; congruence); lra). destruct D as [D1 D2], E as [E1 E2]. constructor; [split; lra|].
    (* u :: l against y inserted in m: u inserted in l is u :: l *)
    replace (u :: l) with (q_insert u l); [apply IH; try assumption; split; lra|]. destruct l as [|w r]; [reflexivity|]. cbn. assert (Q : Qle_bool u w = true) by (apply Qle_bool_iff, A1; left; reflexivity). rewrite Q. reflexivity.
  - assert (X' : (u <= x)%Q) by (assert (~ (x <= u)%Q) by (intros Q; apply Qle_bool_iff in Q; congruence); lra). apply Qle_bool_iff in Y. destruct D as [D1 D2], E as [E1 E2]. constructor; [split; lra|].
    replace (v :: m) with (q_insert v m); [apply IH; try assumption; split; lra|]. destruct m as [|w r]; [reflexivity|]. cbn. assert (Q : Qle_bool v w = true) by (apply Qle_bool_iff, B1; left; reflexivity). rewrite Q. reflexivity.
  - constructor; [exact E|]. apply IH; assumption.
Qed.
Lemma sort_ok l m : Forall2 qok l m -> Forall2 qok (q_sort l) (q_sort m).
Proof. induction 1 as [|x y l m D F IH]; [constructor|]. cbn. apply head_ins; [exact D|apply sort_asc|apply sort_asc|exact IH]. Qed.
Lemma nth_ok : forall l m, Forall2 qok l m -> forall n, (n < List.length l)%nat -> qok (nth n l 0%Q) (nth n m 0%Q).
Proof. induction 1 as [|x y l m D F IH]; intros [|n] B; cbn in B |- *; try lia; [exact D|]. apply IH. lia. Qed.
Lemma median_order : keeps_order median_agg.
Proof.
  intros l m F. pose proof (sort_ok l m F) as S. unfold median_agg. cbv zeta. rewrite <- (len2 _ _ _ S). destruct (Nat.eqb_spec (List.length (q_sort l)) 0) as [Z|Z]; [split; exact Logic.I|].
  assert (H : (List.length (q_sort l) / 2 < List.length (q_sort l))%nat) by (apply Nat.div_lt; lia).
  destruct (nth_ok _ _ S _ H) as [P1 P2]. destruct (Nat.even (List.length (q_sort l))); [|split; assumption].
  destruct (nth_ok _ _ S (List.length (q_sort l) / 2 - 1)%nat ltac:(lia)) as [P3 P4].
  revert P1 P2 P3 P4. generalize (nth (List.length (q_sort l) / 2) (q_sort l) 0%Q) (nth (List.length (q_sort l) / 2) (q_sort m) 0%Q) (nth (List.length (q_sort l) / 2 - 1) (q_sort l) 0%Q) (nth (List.length (q_sort l) / 2 - 1) (q_sort m) 0%Q).
  intros x y u v P1 P2 P3 P4. split; cbn [cell_not_above above_marker].
  - apply Qle_shift_div_l; [lra|]. setoid_replace ((u + x) / 2 * 2)%Q with (u + x)%Q by field. lra.
  - apply Qlt_shift_div_l; [lra|]. lra.
Qed.

(* ---- the climatology ---- *)
Definition obs_ok (p q : obs) : Prop := o_date p = o_date q /\ o_jd p = o_jd q /\ ok (o_val p) (o_val q).
Definition row_ok (r s : crow) : Prop := ok (c_clim r) (c_clim s).
Lemma unit_ok u respect l m k : Forall2 obs_ok l m -> Forall2 qok (unit_values u respect l k) (unit_values u respect m k).
Proof.
  intros F. unfold unit_values. apply vals_ok. induction F as [|p q l m (D & _ & O) F IH]; [constructor|]. cbn [filter]. rewrite D. destruct (index_unit u respect (o_date q) =? k); [cbn [map]; constructor|]; assumption.
Qed.
Lemma rows_ok agg agg_std o l m : keeps_order agg -> Forall2 obs_ok l m -> Forall2 row_ok (unit_rows agg agg_std o l) (unit_rows agg agg_std o m).
Proof.
  intros K F. unfold unit_rows. cbv zeta.
  assert (P : Forall2 pt_ok (map (fun x => (o_jd x, o_val x)) l) (map (fun x => (o_jd x, o_val x)) m)).
  { induction F as [|p q l m (D & J & O) F IH]; cbn [map]; constructor; [split; [exact J|exact O]|exact IH]. }
  pose proof (boxcar_ok (k_ma_orig o) (k_fillna o) (k_min_orig o) _ _ P) as B. clear P.
  set (s1 := boxcar_filter _ _ _ _ (map _ l)) in *. set (s2 := boxcar_filter _ _ _ _ (map _ m)) in *. clearbody s1 s2.
  assert (F' : Forall2 obs_ok (map2 (fun x c => mkObs (o_date x) (o_jd x) c) l s1) (map2 (fun x c => mkObs (o_date x) (o_jd x) c) m s2)).
  { revert s1 s2 B. induction F as [|p q l m (D & J & O) F IH]; intros s1 s2 B; [constructor|]. destruct B as [|c d s1 s2 C B]; [constructor|]. cbn [map2]. constructor; [split; [exact D|split; [exact J|exact C]]|apply IH, B]. }
  match goal with |- Forall2 _ (map _ ?z) _ => generalize z end. intros z. induction z as [|k z IH]; cbn [map]; constructor; [|exact IH]. unfold row_ok. cbn [c_clim]. apply K, unit_ok, F'.
Qed.
Lemma app_2 {X Y} (P : X -> Y -> Prop) l m l' m' : Forall2 P l m -> Forall2 P l' m' -> Forall2 P (l ++ l') (m ++ m').
Proof. apply Forall2_app. Qed.
Lemma firstn_2 {X Y} (P : X -> Y -> Prop) : forall n l m, Forall2 P l m -> Forall2 P (firstn n l) (firstn n m).
Proof. induction n as [|n IH]; intros l m F; [constructor|]. destruct F; [constructor|]. cbn. constructor; [assumption|]. apply IH. assumption. Qed.
Lemma skipn_2 {X Y} (P : X -> Y -> Prop) : forall n l m, Forall2 P l m -> Forall2 P (skipn n l) (skipn n m).
Proof. induction n as [|n IH]; intros l m F; [exact F|]. destruct F; [constructor|]. cbn. apply IH. assumption. Qed.
Lemma combine_ok : forall (i : list Q) l m, Forall2 row_ok l m -> Forall2 pt_ok (combine i (map c_clim l)) (combine i (map c_clim m)).
Proof. induction i as [|x i IH]; intros l m F; [constructor|]. destruct F as [|r s l m D F]; [constructor|]. cbn. constructor; [split; [reflexivity|exact D]|apply IH, F]. Qed.
Lemma set_ok l m : Forall2 row_ok l m -> forall s t, Forall2 ok s t -> Forall2 row_ok (map2 set_clim l s) (map2 set_clim m t).
Proof. induction 1 as [|r q l m D F IH]; intros s t B; [constructor|]. destruct B as [|c d s t C B]; [constructor|]. cbn [map2]. constructor; [exact C|apply IH, B]. Qed.
Lemma smooth_ok n mac wrap fillna mo l m : Forall2 row_ok l m ->
  match smooth_rows n mac wrap fillna mo l, smooth_rows n mac wrap fillna mo m with
  | Ok a, Ok b => Forall2 row_ok a b | Err e, Err f => e = f | _, _ => False end.
Proof.
  intros F. unfold smooth_rows. cbv zeta. rewrite <- (len2 _ _ _ F). destruct wrap.
  - destruct (Nat.eqb mac 0); [reflexivity|].
    set (x1 := skipn _ l ++ l ++ firstn mac l). set (x2 := skipn _ m ++ m ++ firstn mac m).
    assert (X : Forall2 row_ok x1 x2) by (unfold x1, x2; apply app_2; [apply skipn_2, F|apply app_2; [exact F|apply firstn_2, F]]).
    assert (EL : List.length (skipn (List.length l - mac) m) = List.length (skipn (List.length l - mac) l)) by (rewrite !skipn_length, (len2 _ _ _ F); reflexivity). rewrite EL.
    rewrite <- (len2 _ _ _ X).
    set (y1 := map2 set_clim x1 _). set (y2 := map2 set_clim x2 _).
    assert (Y : Forall2 row_ok y1 y2) by (unfold y1, y2; apply set_ok; [exact X|apply boxcar_ok, combine_ok, X]).
    rewrite <- (len2 _ _ _ Y).
    assert (B : Forall2 row_ok (firstn (List.length y1 - 2 * mac) (skipn mac y1)) (firstn (List.length y1 - 2 * mac) (skipn mac y2))) by (apply firstn_2, skipn_2, Y).
    rewrite <- (len2 _ _ _ B). destruct (Nat.eqb _ _); [exact B|reflexivity].
  - apply set_ok; [exact F|]. apply boxcar_ok, combine_ok, F.
Qed.
Lemma fill_ok f c d : cell_not_above c d -> cell_not_above (fillna_cell f c) (fillna_cell f d).
Proof. destruct c as [x|], d as [y|]; cbn; try contradiction; auto. intros _. destruct f; cbn; [lra|exact Logic.I]. Qed.
Lemma rows_nth : forall l m, Forall2 row_ok l m -> forall n, row_ok (nth n l (mkCrow None None)) (nth n m (mkCrow None None)).
Proof. induction 1 as [|r s l m D F IH]; intros [|n]; cbn; try (split; exact Logic.I); [exact D|apply IH]. Qed.
Lemma set_nth_2 {X Y} (P : X -> Y -> Prop) x y : P x y -> forall l m, Forall2 P l m -> forall n, Forall2 P (AnomalyModel.set_nth n x l) (AnomalyModel.set_nth n y m).
Proof. intros D. induction 1 as [|u v l m E F IH]; intros [|n]; cbn; constructor; auto. Qed.
Definition no_std (r : crow) : Prop := c_std r = None.
Lemma interp_ok l m target a b : Forall2 row_ok l m -> Forall no_std l -> Forall no_std m -> Forall2 row_ok (interp_row l target a b) (interp_row m target a b).
Proof.
  intros F N1 N2. unfold interp_row. cbv zeta. apply set_nth_2; [|exact F]. unfold row_ok, fill_row. cbn [c_clim].
  assert (S : forall l n, Forall no_std l -> no_std (nth n l (mkCrow None None))).
  { clear. induction l as [|x l IH]; intros [|n] H; try reflexivity; inversion H; subst; cbn; auto. }
  unfold row_cells. rewrite (S l _ N1), (S l _ N1), (S m _ N2), (S m _ N2). cbn [app].
  destruct (rows_nth l m F (Z.to_nat (a - 1))) as [A1 A2]. destruct (rows_nth l m F (Z.to_nat (b - 1))) as [B1 B2].
  destruct (c_clim (nth (Z.to_nat (a - 1)) l _)) as [x|], (c_clim (nth (Z.to_nat (a - 1)) m _)) as [y|]; cbn in A1, A2; try contradiction;
  destruct (c_clim (nth (Z.to_nat (b - 1)) l _)) as [u|], (c_clim (nth (Z.to_nat (b - 1)) m _)) as [v|]; cbn in B1, B2; try contradiction; try (split; exact Logic.I).
  apply (mean_order [x; u] [y; v]). constructor; [split; assumption|]. constructor; [split; assumption|constructor].
Qed.
Lemma set_std l : Forall no_std l -> forall s, Forall no_std (map2 set_clim l s).
Proof. induction 1 as [|r l D F IH]; intros [|c s]; cbn; constructor; [exact D|apply IH]. Qed.
Lemma firstn_f {X} (P : X -> Prop) : forall n l, Forall P l -> Forall P (firstn n l).
Proof. induction n as [|n IH]; intros l F; [constructor|]. destruct F; [constructor|]. cbn. constructor; auto. Qed.
Lemma skipn_f {X} (P : X -> Prop) : forall n l, Forall P l -> Forall P (skipn n l).
Proof. induction n as [|n IH]; intros l F; [exact F|]. destruct F; [constructor|]. cbn. auto. Qed.
Lemma smooth_std n mac wrap fillna mo l out : Forall no_std l -> smooth_rows n mac wrap fillna mo l = Ok out -> Forall no_std out.
Proof.
  intros N. unfold smooth_rows. cbv zeta. destruct wrap.
  - destruct (Nat.eqb mac 0); [discriminate|]. match goal with |- context [Nat.eqb ?x ?y] => destruct (Nat.eqb x y) end; [|discriminate]. intros E. inversion E; subst. apply firstn_f, skipn_f, set_std.
    apply Forall_app. split; [apply skipn_f, N|]. apply Forall_app. split; [exact N|apply firstn_f, N].
  - intros E. inversion E; subst. apply set_std, N.
Qed.
Lemma unit_std agg agg_std o l : k_std o = false -> Forall no_std (unit_rows agg agg_std o l).
Proof. intros S. unfold unit_rows. cbv zeta. rewrite S. apply Forall_forall. intros r I. apply in_map_iff in I as (k & <- & _). reflexivity. Qed.
Lemma clim_ok agg agg_std o l m : keeps_order agg -> k_std o = false \/ k_interp o = false -> Forall2 obs_ok l m ->
  match calc_climatology agg agg_std o l, calc_climatology agg agg_std o m with
  | Ok a, Ok b => Forall2 (fun r s => cell_not_above (c_clim r) (c_clim s)) a b | Err e, Err f => e = f | _, _ => False end.
Proof.
  intros K SI F. unfold calc_climatology. pose proof (rows_ok agg agg_std o l m K F) as R.
  assert (G : forall n mac respect (interp : bool), (interp = true -> k_std o = false) ->
    match mapR (fun rows => map (fun r => mkCrow (fillna_cell (k_fill o) (c_clim r)) (match c_std r with Some s => Some (fillna_cell (k_fill o) s) | None => None end))
                  (if interp then (if respect : bool then interp_row rows 366 365 1 else interp_row rows 60 59 61) else rows)) (smooth_rows n mac (k_wrap o) (k_fillna o) (k_min_clim o) (unit_rows agg agg_std o l)),
          mapR (fun rows => map (fun r => mkCrow (fillna_cell (k_fill o) (c_clim r)) (match c_std r with Some s => Some (fillna_cell (k_fill o) s) | None => None end))
                  (if interp then (if respect : bool then interp_row rows 366 365 1 else interp_row rows 60 59 61) else rows)) (smooth_rows n mac (k_wrap o) (k_fillna o) (k_min_clim o) (unit_rows agg agg_std o m)) with
    | Ok a, Ok b => Forall2 (fun r s => cell_not_above (c_clim r) (c_clim s)) a b | Err e, Err f => e = f | _, _ => False end).
  { intros n mac respect interp HI. pose proof (smooth_ok n mac (k_wrap o) (k_fillna o) (k_min_clim o) _ _ R) as S.
    destruct (smooth_rows n mac (k_wrap o) (k_fillna o) (k_min_clim o) (unit_rows agg agg_std o l)) as [x|e] eqn:EX, (smooth_rows n mac (k_wrap o) (k_fillna o) (k_min_clim o) (unit_rows agg agg_std o m)) as [y|f] eqn:EY; try contradiction; [|exact S]. cbn [mapR].
    assert (I : Forall2 row_ok (if interp then (if respect then interp_row x 366 365 1 else interp_row x 60 59 61) else x) (if interp then (if respect then interp_row y 366 365 1 else interp_row y 60 59 61) else y)).
    { destruct interp; [|exact S]. specialize (HI eq_refl). pose proof (smooth_std _ _ _ _ _ _ _ (unit_std agg agg_std o l HI) EX) as N1. pose proof (smooth_std _ _ _ _ _ _ _ (unit_std agg agg_std o m HI) EY) as N2.
      destruct respect; apply interp_ok; assumption. }
    induction I as [|r s a b D _ IH]; cbn [map]; constructor; [|exact IH]. cbn [c_clim]. apply fill_ok, (proj1 D). }
  destruct (k_freq o).
  - apply (G 366 (match k_ma_clim o with Some m => m | None => 35%nat end) (k_respect o) (k_interp o)). intros HI. destruct SI as [SI|SI]; [exact SI|congruence].
  - apply (G 12 (match k_ma_clim o with Some m => m | None => 3%nat end) false false). discriminate.
  - destruct (k_ma_clim o); reflexivity.
Qed.
