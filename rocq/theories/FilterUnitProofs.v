(* Moving averages, climatologies and anomalies in another unit, and on another time axis. *)
From Verif Require Import BaseProofs FiltersModel AnomalyModel CdfModel UnitSpec UnitProofs.
From Coq Require Import Lqa Qabs.
Open Scope Q_scope.

Definition unmarked (nan : Q) (c : cell) : Prop := match c with Some v => ~ v == nan | None => True end.

Section Boxcar.
Variables nan a b k s : Q.
Hypothesis K : 0 < k.
Definition prel (p p' : Q * cell) : Prop := fst p' == k * fst p + s /\ cell_in_unit a b (snd p) (snd p') /\ unmarked nan (snd p) /\ unmarked nan (snd p').
Lemma valid_plain c : unmarked nan c -> valid_value nan c = c.
Proof. destruct c as [v|]; cbn; [|reflexivity]. intros H. destruct (Qeq_bool v nan) eqn:E; [|reflexivity]. apply Qeq_bool_iff in E. contradiction. Qed.
Lemma near_rel t t' u u' l l' : t' == k * t + s -> u' == k * u + s -> l' == k * l -> Qle_bool (Qabs (t' - u')) l' = Qle_bool (Qabs (t - u)) l.
Proof.
  intros T U L. assert (D : t' - u' == k * (t - u)) by (rewrite T, U; ring). apply eq_true_iff_eq. rewrite !Qle_bool_iff, D, L, Qabs_Qmult, (Qabs_pos k) by lra. apply Qmult_le_l, K.
Qed.
Definition arel (x x' : Q * Z) : Prop := snd x' = snd x /\ fst x' == a * fst x + b * inject_Z (snd x).
Lemma scan_rel l l' u u' p p' : u' == k * u + s -> l' == k * l -> Forall2 prel p p' -> forall x x', arel x x' -> arel (box_scan nan l u p x) (box_scan nan l' u' p' x').
Proof.
  intros U L F. induction F as [|[t c] [t' c'] p p' (T & C & N & N') F IH]; intros x x' X; cbn [box_scan]; [exact X|]. cbn [fst snd] in *.
  rewrite (valid_plain c N), (valid_plain c' N'). destruct c as [v|], c' as [v'|]; cbn in C; try contradiction; [|apply IH, X].
  rewrite (near_rel t t' u u' l l' T U L). destruct (Qle_bool _ _); [|exact X]. apply IH. destruct X as [X1 X2]. split; cbn [fst snd]; [rewrite X1; reflexivity|].
  unfold in_unit in C. rewrite X2, C, inject_Z_plus. change (inject_Z 1) with 1. ring.
Qed.
Lemma point_rel l l' fillna mo p p' q q' u u' c c' : u' == k * u + s -> l' == k * l -> Forall2 prel p p' -> Forall2 prel q q' -> cell_in_unit a b c c' -> unmarked nan c -> unmarked nan c' ->
  cell_in_unit a b (box_point nan l fillna mo p q u c) (box_point nan l' fillna mo p' q' u' c').
Proof.
  intros U L P Q' C N N'. unfold box_point. rewrite (valid_plain c N), (valid_plain c' N'), (notna_aff a b c c' C). destruct (notna c || fillna); [|exact Logic.I].
  assert (X0 : arel (0, 0%Z) (0, 0%Z)). { split; cbn [fst snd]; [reflexivity|]. change (inject_Z 0) with 0. ring. }
  assert (R := scan_rel l l' u u' p p' U L P _ _ (scan_rel l l' u u' q q' U L Q' _ _ X0)).
  destruct (box_scan nan l u p _) as [s1 n1], (box_scan nan l' u' p' _) as [s2 n2]. destruct R as [R1 R2]. cbn [fst snd] in R1, R2. subst n2.
  destruct (mo <=? n1)%Z; [|exact Logic.I]. destruct (n1 =? 0)%Z eqn:E; [exact Logic.I|]. cbn. unfold in_unit. rewrite R2. field.
  apply Z.eqb_neq in E. intros H. apply E. unfold Qeq in H. cbn in H. lia.
Qed.
Lemma loop_rel l l' fillna mo q q' : l' == k * l -> Forall2 prel q q' -> forall p p', Forall2 prel p p' ->
  Forall2 (cell_in_unit a b) (box_loop nan l fillna mo p q) (box_loop nan l' fillna mo p' q').
Proof.
  intros L F. induction F as [|[t c] [t' c'] q q' H F IH]; intros p p' P; cbn [box_loop]; [constructor|]. destruct H as (T & C & N & N'). cbn [fst snd] in *. constructor.
  - apply point_rel; try assumption. constructor; [repeat split; assumption|exact F].
  - apply IH. constructor; [repeat split; assumption|exact P].
Qed.
Lemma boxcar_rel w fillna mo p p' : Forall2 prel p p' -> Forall2 (cell_in_unit a b) (boxcar_filter nan w fillna mo p) (boxcar_filter nan (k * w) fillna mo p').
Proof. intros F. apply loop_rel; [field|exact F|constructor]. Qed.
Lemma boxcar_rel_eq w w' fillna mo p p' : w' == k * w -> Forall2 prel p p' -> Forall2 (cell_in_unit a b) (boxcar_filter nan w fillna mo p) (boxcar_filter nan w' fillna mo p').
Proof. intros W F. apply loop_rel; [rewrite W; field|exact F|constructor]. Qed.
End Boxcar.

Lemma box_len nan w fillna mo p : List.length (boxcar_filter nan w fillna mo p) = List.length p.
Proof. unfold boxcar_filter. generalize (@nil (Q * cell)). induction p as [|[t c] p IH]; intros q; cbn; [reflexivity|]. rewrite IH. reflexivity. Qed.
Lemma cell_sub_rel a b x x' y y' : cell_in_unit a b x x' -> cell_in_unit a b y y' -> cell_in_unit a 0 (cell_sub x y) (cell_sub x' y').
Proof.
  destruct x, x'; cbn; try contradiction; [|intros _; destruct y, y'; cbn; auto]. intros X. destruct y, y'; cbn; try contradiction; [|auto]. unfold in_unit in *. intros Y. rewrite X, Y. ring.
Qed.

(* a window mean lies above a bound below all values *)
Definition above (m : Q) (c : cell) : Prop := match c with Some v => m < v | None => True end.
Lemma scan_above nan m l u p : Forall (fun q : Q * cell => above m (snd q)) p -> forall x, (0 <= snd x)%Z -> inject_Z (snd x) * m <= fst x -> ((0 < snd x)%Z -> inject_Z (snd x) * m < fst x) ->
  let y := box_scan nan l u p x in (0 <= snd y)%Z /\ inject_Z (snd y) * m <= fst y /\ ((0 < snd y)%Z -> inject_Z (snd y) * m < fst y).
Proof.
  induction 1 as [|[t c] p A F IH]; intros x P L S; cbn [box_scan]; [split; [exact P|split; [exact L|exact S]]|].
  destruct (valid_value nan c) as [v|] eqn:E; [|apply IH; assumption]. destruct (Qle_bool _ _); [|split; [exact P|split; [exact L|exact S]]].
  assert (V : m < v). { destruct c as [w|]; [|discriminate E]. cbn in E. destruct (Qeq_bool w nan); [discriminate E|]. injection E as <-. exact A. }
  apply IH; cbn [fst snd]; [lia| |intros _]; rewrite inject_Z_plus; change (inject_Z 1) with 1; lra.
Qed.
Lemma box_above nan m w fillna mo p : Forall (fun q : Q * cell => above m (snd q)) p -> Forall (above m) (boxcar_filter nan w fillna mo p).
Proof.
  unfold boxcar_filter. intros F. assert (G : Forall (fun q : Q * cell => above m (snd q)) []) by constructor. revert G. generalize (@nil (Q * cell)).
  induction F as [|[t c] p A F IH]; intros q G; cbn [box_loop]; constructor; [|apply IH; constructor; assumption].
  unfold box_point. destruct (_ || _); [|exact Logic.I].
  assert (B1 := scan_above nan m (w / 2) t ((t, c) :: p) (Forall_cons (P := fun q : Q * cell => above m (snd q)) (t, c) A F) (0, 0%Z) ltac:(cbn; lia) ltac:(cbn [fst snd]; change (inject_Z 0) with 0; lra) ltac:(cbn; lia)).
  set (x1 := box_scan nan (w / 2) t ((t, c) :: p) (0, 0%Z)) in *. destruct B1 as (P1 & L1 & S1).
  assert (B2 := scan_above nan m (w / 2) t q G x1 P1 L1 S1).
  destruct (box_scan nan (w / 2) t q x1) as [y n]. cbn [fst snd] in B2. destruct B2 as (P2 & L2 & S2).
  destruct (mo <=? n)%Z; [|exact Logic.I]. destruct (n =? 0)%Z eqn:E; [exact Logic.I|]. apply Z.eqb_neq in E. cbn.
  assert (0 < n)%Z by lia. assert (0 < inject_Z n) by (unfold Qlt; cbn; lia). apply Qlt_shift_div_l; [assumption|]. rewrite Qmult_comm. apply S2. assumption.
Qed.

(* ---------------------------------------------------------- climatology *)
Definition agg_in_units (agg : list Q -> cell) : Prop :=
  forall a b l l', 0 < a -> Forall2 (in_unit a b) l l' -> cell_in_unit a b (agg l) (agg l').
Definition agg_in_range (agg : list Q -> cell) : Prop := forall m l, Forall (fun v => m < v) l -> above m (agg l).
Definition spread_in_units (agg : list Q -> cell) : Prop :=
  forall a b l l', 0 < a -> Forall2 (in_unit a b) l l' -> cell_in_unit a 0 (agg l) (agg l').
Lemma mean_agg_units : agg_in_units mean_agg.
Proof. intros a b l l' A F. destruct F as [|x x' l l' X F]; [exact Logic.I|]. cbn. apply qmean_aff; [discriminate|constructor; assumption]. Qed.
Lemma qsum_above m l : Forall (fun v => m < v) l -> l <> [] -> qlen l * m < qsum l.
Proof.
  induction 1 as [|x l X F IH]; intros N; [contradiction|]. cbn [qsum]. unfold qlen. cbn [List.length]. rewrite Nat2Z.inj_succ, <- Z.add_1_r, inject_Z_plus. change (inject_Z 1) with 1.
  destruct l as [|y l]; [cbn [qsum List.length]; change (inject_Z (Z.of_nat 0)) with 0; lra|]. specialize (IH ltac:(discriminate)). unfold qlen in IH. lra.
Qed.
Lemma mean_agg_range : agg_in_range mean_agg.
Proof.
  intros m l F. destruct l as [|x l]; [exact Logic.I|]. cbn. unfold qmean. assert (P : 0 < qlen (x :: l)) by (unfold qlen, Qlt; cbn; lia).
  apply Qlt_shift_div_l; [exact P|]. rewrite Qmult_comm. apply qsum_above; [exact F|discriminate].
Qed.

Section Clim.
Variables a b : Q.
Hypothesis A : 0 < a.
Definition orel (o o' : obs) : Prop := o_date o' = o_date o /\ o_jd o' = o_jd o /\ cell_in_unit a b (o_val o) (o_val o').
Definition ocell (R : cell -> cell -> Prop) (s s' : option cell) : Prop := match s, s' with Some x, Some y => R x y | None, None => True | _, _ => False end.
Definition crel (r r' : crow) : Prop := cell_in_unit a b (c_clim r) (c_clim r') /\ ocell (cell_in_unit a 0) (c_std r) (c_std r').
Lemma F2_map2 {X X' Y Y' Z Z'} (R : X -> X' -> Prop) (S : Y -> Y' -> Prop) (T : Z -> Z' -> Prop) f g l l' m m' :
  (forall x x' y y', R x x' -> S y y' -> T (f x y) (g x' y')) -> Forall2 R l l' -> Forall2 S m m' -> Forall2 T (map2 f l m) (map2 g l' m').
Proof. intros H F. revert m m'. induction F as [|x x' l l' X1 F IH]; intros m m' G; cbn; [constructor|]. destruct G; constructor; auto. Qed.
Lemma F2_map {X X' Y Y'} (R : X -> X' -> Prop) (T : Y -> Y' -> Prop) f g l l' : (forall x x', R x x' -> T (f x) (g x')) -> Forall2 R l l' -> Forall2 T (map f l) (map g l').
Proof. intros H. induction 1; cbn; constructor; auto. Qed.
Lemma F2_and {X X'} (R T : X -> X' -> Prop) l l' : Forall2 R l l' -> Forall2 T l l' -> Forall2 (fun x x' => R x x' /\ T x x') l l'.
Proof. induction 1; intros G; inversion G; subst; constructor; auto. Qed.
Lemma unit_values_rel u rs ser ser' k : Forall2 orel ser ser' -> Forall2 (in_unit a b) (unit_values u rs ser k) (unit_values u rs ser' k).
Proof.
  intros F. unfold unit_values. apply vals_aff. induction F as [|o o' l l' (D & _ & V) F IH]; cbn; [constructor|]. rewrite D. destruct (_ =? _)%Z; cbn; [constructor; assumption|exact IH].
Qed.
Lemma above_rel_prel (m : Q) ser ser' : Forall2 (fun p p' : Q * cell => fst p' = fst p /\ cell_in_unit a b (snd p) (snd p')) ser ser' ->
  Forall (fun p => above m (snd p)) ser -> Forall (fun p => above m (snd p)) ser' -> Forall2 (prel m a b 1 0) ser ser'.
Proof.
  induction 1 as [|p p' l l' (T & C) F IH]; intros G G'; [constructor|]. inversion G as [|? ? G1 G2]; inversion G' as [|? ? G1' G2']; subst. constructor; [|apply IH; assumption].
  split; [rewrite T; ring|]. split; [exact C|]. split; [destruct (snd p)|destruct (snd p')]; cbn in *; try exact Logic.I; intros E; lra.
Qed.
Definition cabove m (l : list crow) : Prop := Forall (fun r => above m (c_clim r)) l.
Lemma F2_firstn {X X'} (R : X -> X' -> Prop) n : forall l l', Forall2 R l l' -> Forall2 R (firstn n l) (firstn n l').
Proof. induction n; intros l l' F; cbn; [constructor|]. destruct F; constructor; auto. Qed.
Lemma F2_skipn {X X'} (R : X -> X' -> Prop) n : forall l l', Forall2 R l l' -> Forall2 R (skipn n l) (skipn n l').
Proof. induction n; intros l l' F; cbn; [exact F|]. destruct F; [constructor|auto]. Qed.
Lemma F_firstn {X} (R : X -> Prop) n : forall l, Forall R l -> Forall R (firstn n l).
Proof. induction n; intros l F; cbn; [constructor|]. destruct F; constructor; auto. Qed.
Lemma F_skipn {X} (R : X -> Prop) n : forall l, Forall R l -> Forall R (skipn n l).
Proof. induction n; intros l F; cbn; [exact F|]. destruct F; [constructor|auto]. Qed.
Lemma index_rel (idx : list Q) : forall l l' : list crow, Forall2 crel l l' ->
  Forall2 (fun p p' : Q * cell => fst p' = fst p /\ cell_in_unit a b (snd p) (snd p')) (combine idx (map c_clim l)) (combine idx (map c_clim l')).
Proof. induction idx; intros l l' F; cbn; [constructor|]. destruct F as [|r r' l l' (C & _) F]; constructor; [split; [reflexivity|exact C]|auto]. Qed.
Lemma index_above m (idx : list Q) : forall l : list crow, cabove m l -> Forall (fun p : Q * cell => above m (snd p)) (combine idx (map c_clim l)).
Proof. induction idx; intros l F; cbn; [constructor|]. destruct F; constructor; auto. Qed.
Lemma set_clim_rel r r' c c' : crel r r' -> cell_in_unit a b c c' -> crel (set_clim r c) (set_clim r' c').
Proof. intros (_ & S) C. split; assumption. Qed.
Lemma smooth_rel n mac wrap fillna mo l l' : Forall2 crel l l' -> cabove default_nan l -> cabove default_nan l' ->
  same_outcome (Forall2 crel) (smooth_rows n mac wrap fillna mo l) (smooth_rows n mac wrap fillna mo l').
Proof.
  intros F G G'. assert (L := len2 _ _ _ F). unfold smooth_rows. destruct wrap.
  - destruct (Nat.eqb mac 0); [reflexivity|]. cbv zeta. rewrite L.
    set (e := skipn (List.length l - mac) l ++ l ++ firstn mac l). set (e' := skipn (List.length l - mac) l' ++ l' ++ firstn mac l').
    assert (FE : Forall2 crel e e') by (repeat apply Forall2_app; [apply F2_skipn|exact F|apply F2_firstn]; exact F).
    assert (GE : cabove default_nan e) by (repeat (apply Forall_app; split); [apply F_skipn|exact G|apply F_firstn]; exact G).
    assert (GE' : cabove default_nan e') by (repeat (apply Forall_app; split); [apply F_skipn|exact G'|apply F_firstn]; exact G').
    rewrite (len2 _ _ _ FE), (len2 _ _ _ (F2_skipn crel (List.length l - mac) _ _ F)).
    set (idx := map inject_Z _).
    assert (B := boxcar_rel_eq default_nan a b 1 0 one_pos (inject_Z (Z.of_nat mac)) (inject_Z (Z.of_nat mac)) fillna mo _ _ ltac:(ring) (above_rel_prel default_nan _ _ (index_rel idx e e' FE) (index_above _ idx e GE) (index_above _ idx e' GE'))).
    assert (M := F2_map2 crel (cell_in_unit a b) crel set_clim set_clim _ _ _ _ (fun x x' y y' => set_clim_rel x x' y y') FE B).
    rewrite (len2 _ _ _ M). set (x := firstn _ _). set (x' := firstn _ (skipn mac (map2 set_clim e' _))).
    assert (X : Forall2 crel x x') by (apply F2_firstn, F2_skipn, M). rewrite (len2 _ _ _ X). destruct (Nat.eqb _ _); [exact X|reflexivity].
  - cbv zeta. rewrite L. set (idx := map inject_Z _). cbn [same_outcome].
    assert (B := boxcar_rel_eq default_nan a b 1 0 one_pos (inject_Z (Z.of_nat mac)) (inject_Z (Z.of_nat mac)) fillna mo _ _ ltac:(ring) (above_rel_prel default_nan _ _ (index_rel idx l l' F) (index_above _ idx l G) (index_above _ idx l' G'))).
    exact (F2_map2 crel (cell_in_unit a b) crel set_clim set_clim _ _ _ _ (fun x x' y y' => set_clim_rel x x' y y') F B).
Qed.

Variables agg agg_std : list Q -> cell.
Hypothesis AU : agg_in_units agg.
Hypothesis AR : agg_in_range agg.
Hypothesis SU : spread_in_units agg_std.

Definition sm_obs o (ser : list obs) : list obs :=
  map2 (fun x c => mkObs (o_date x) (o_jd x) c) ser (boxcar_filter default_nan (k_ma_orig o) (k_fillna o) (k_min_orig o) (map (fun x => (o_jd x, o_val x)) ser)).
Definition oabove m (ser : list obs) : Prop := Forall (fun o => above m (o_val o)) ser.
Lemma sm_rel o o' ser ser' : k_ma_orig o' = k_ma_orig o -> k_fillna o' = k_fillna o -> k_min_orig o' = k_min_orig o ->
  Forall2 orel ser ser' -> oabove default_nan ser -> oabove default_nan ser' -> Forall2 orel (sm_obs o ser) (sm_obs o' ser').
Proof.
  intros E1 E2 E3 F G G'. unfold sm_obs. rewrite E1, E2, E3.
  assert (P : Forall2 (prel default_nan a b 1 0) (map (fun x => (o_jd x, o_val x)) ser) (map (fun x => (o_jd x, o_val x)) ser')).
  { apply above_rel_prel; [apply (F2_map orel); [|exact F]; intros x x' (_ & J & V); split; assumption| |]; apply Forall_map; assumption. }
  apply (F2_map2 orel (cell_in_unit a b)); [|exact F|exact (boxcar_rel_eq _ _ _ _ _ one_pos (k_ma_orig o) (k_ma_orig o) _ _ _ _ ltac:(ring) P)].
  intros x x' y y' (D & J & _) Y. split; [exact D|split; [exact J|exact Y]].
Qed.
Lemma map2_above m (l : list obs) cs : Forall (above m) cs -> oabove m (map2 (fun x c => mkObs (o_date x) (o_jd x) c) l cs).
Proof. intros F. revert l. induction F as [|c cs C F IH]; intros [|x l]; cbn; constructor; [exact C|apply IH]. Qed.
Lemma sm_above o m ser : oabove m ser -> oabove m (sm_obs o ser).
Proof. intros G. apply map2_above, box_above, Forall_map, G. Qed.
Lemma unit_above m u rs ser k : oabove m ser -> Forall (fun v => m < v) (unit_values u rs ser k).
Proof. unfold unit_values. induction 1 as [|o l H F IH]; cbn; [constructor|]. destruct (_ =? _)%Z; cbn; [|exact IH]. destruct (o_val o); cbn; [constructor; assumption|exact IH]. Qed.
Lemma rows_above o ser : oabove default_nan ser -> cabove default_nan (unit_rows agg agg_std o ser).
Proof.
  intros G. unfold unit_rows, cabove. cbv zeta. apply Forall_map, Forall_forall. intros k _. cbn [c_clim]. apply AR, unit_above, (sm_above o), G.
Qed.
Definition refill (o : clim_opts) (fill : cell) : clim_opts :=
  mkClim (k_ma_orig o) (k_ma_clim o) (k_std o) fill (k_wrap o) (k_respect o) (k_interp o) (k_fillna o) (k_min_orig o) (k_min_clim o) (k_freq o).
Lemma rows_rel o fill ser ser' : Forall2 orel ser ser' -> oabove default_nan ser -> oabove default_nan ser' ->
  Forall2 crel (unit_rows agg agg_std o ser) (unit_rows agg agg_std (refill o fill) ser').
Proof.
  intros F G G'. unfold unit_rows. cbv zeta. cbn [refill k_freq k_std k_respect]. assert (S := sm_rel o (refill o fill) ser ser' eq_refl eq_refl eq_refl F G G'). unfold sm_obs in S.
  generalize (zrange 1 (Z.to_nat (n_units (k_freq o)))). intros ks. induction ks as [|k ks IH]; cbn [map]; constructor; [|exact IH]. split; cbn [c_clim c_std].
  - apply AU; [exact A|]. apply unit_values_rel, S.
  - destruct (k_std o); [|exact Logic.I]. cbn. apply (SU a b); [exact A|]. apply unit_values_rel, S.
Qed.
Definition nostd (l : list crow) : Prop := Forall (fun r => c_std r = None) l.
Lemma nth_crel l l' i : Forall2 crel l l' -> crel (nth i l (mkCrow None None)) (nth i l' (mkCrow None None)).
Proof. intros F. revert i. induction F as [|r r' l l' R F IH]; intros [|i]; cbn; try (split; exact Logic.I); auto. Qed.
Lemma nth_nostd l i : nostd l -> c_std (nth i l (mkCrow None None)) = None.
Proof. intros F. revert i. induction F; intros [|i]; cbn; auto. Qed.
Lemma set_nth_nostd i x l : c_std x = None -> nostd l -> nostd (set_nth i x l).
Proof. intros X N. revert i. induction N as [|y l Y N IH]; intros [|i]; cbn; try constructor; try assumption. apply IH. Qed.
Lemma set_nth_rel l l' i r r' : crel r r' -> Forall2 crel l l' -> Forall2 crel (set_nth i r l) (set_nth i r' l').
Proof. intros R F. revert i. induction F; intros [|i]; cbn; constructor; auto. Qed.
Lemma strict2_rel c c' d d' : cell_in_unit a b c c' -> cell_in_unit a b d d' -> cell_in_unit a b (strict_mean [c; d]) (strict_mean [c'; d']).
Proof.
  intros C D. unfold strict_mean. cbn [forallb]. rewrite (notna_aff a b c c' C), (notna_aff a b d d' D). destruct (notna c) eqn:EC; [|exact Logic.I]. destruct (notna d) eqn:ED; [|exact Logic.I].
  destruct c as [x|], c' as [x'|]; cbn in C; try contradiction; [|discriminate EC]. destruct d as [y|], d' as [y'|]; cbn in D; try contradiction; [|discriminate ED].
  cbn. apply (qmean_aff a b [x; y] [x'; y']); [discriminate|repeat constructor; assumption].
Qed.
Lemma interp_rel l l' t i j : Forall2 crel l l' -> nostd l -> nostd l' -> Forall2 crel (interp_row l t i j) (interp_row l' t i j).
Proof.
  intros F N N'. unfold interp_row. cbv zeta. apply set_nth_rel; [|exact F].
  unfold row_cells. rewrite !nth_nostd by assumption. cbn [app]. split; cbn [fill_row c_clim c_std].
  - apply strict2_rel; apply nth_crel, F.
  - rewrite !nth_nostd by assumption. exact Logic.I.
Qed.
Lemma crel_nostd l l' : Forall2 crel l l' -> nostd l -> nostd l'.
Proof. intros F N. induction F as [|r r' l l' (_ & S) F IH]; [constructor|]. inversion N as [|? ? N1 N2]; subst. constructor; [|apply IH, N2]. rewrite N1 in S. destruct (c_std r'); [contradiction|reflexivity]. Qed.
Lemma fillna_rel u v f f' c c' : cell_in_unit u v f f' -> cell_in_unit u v c c' -> cell_in_unit u v (fillna_cell f c) (fillna_cell f' c').
Proof. intros F C. destruct c, c'; cbn in C; try contradiction; [exact C|exact F]. Qed.
Lemma unit_rows_nostd o ser : k_std o = false -> nostd (unit_rows agg agg_std o ser).
Proof. intros E. unfold unit_rows. cbv zeta. apply Forall_map, Forall_forall. intros k _. cbn. rewrite E. reflexivity. Qed.
Lemma set_clim_nostd l cs : nostd l -> nostd (map2 set_clim l cs).
Proof. intros F. revert cs. induction F as [|r l R F IH]; intros [|c cs]; cbn; constructor; [exact R|apply IH]. Qed.
Lemma smooth_nostd n mac wrap fillna mo l r : smooth_rows n mac wrap fillna mo l = Ok r -> nostd l -> nostd r.
Proof.
  unfold smooth_rows. intros H N. destruct wrap.
  - destruct (Nat.eqb mac 0); [discriminate H|]. cbv zeta in H. destruct (Nat.eqb _ _); [|discriminate H]. injection H as <-.
    apply F_firstn, F_skipn, set_clim_nostd. repeat (apply Forall_app; split); [apply F_skipn|exact N|apply F_firstn]; exact N.
  - cbv zeta in H. injection H as <-. apply set_clim_nostd, N.
Qed.
Lemma clim_rel o fill ser ser' : Forall2 orel ser ser' -> oabove default_nan ser -> oabove default_nan ser' -> cell_in_unit a b (k_fill o) fill ->
  (k_std o = true -> k_interp o = false /\ k_fill o = None) ->
  same_outcome (Forall2 crel) (calc_climatology agg agg_std o ser) (calc_climatology agg agg_std (refill o fill) ser').
Proof.
  intros F G G' FI ST. assert (RR := rows_rel o fill ser ser' F G G'). assert (RA := rows_above o ser G). assert (RA' := rows_above (refill o fill) ser' G').
  unfold calc_climatology. cbn [refill k_freq k_ma_clim k_respect k_interp k_fill k_wrap k_fillna k_min_clim].
  assert (MAIN : forall n mac (ip : bool) (t1 t2 t3 : Z) , (ip = true -> k_interp o = true) ->
    same_outcome (Forall2 crel)
      (mapR (fun rows => map (fun r => mkCrow (fillna_cell (k_fill o) (c_clim r)) (match c_std r with Some s => Some (fillna_cell (k_fill o) s) | None => None end)) (if ip then interp_row rows t1 t2 t3 else rows))
         (smooth_rows n mac (k_wrap o) (k_fillna o) (k_min_clim o) (unit_rows agg agg_std o ser)))
      (mapR (fun rows => map (fun r => mkCrow (fillna_cell fill (c_clim r)) (match c_std r with Some s => Some (fillna_cell fill s) | None => None end)) (if ip then interp_row rows t1 t2 t3 else rows))
         (smooth_rows n mac (k_wrap o) (k_fillna o) (k_min_clim o) (unit_rows agg agg_std (refill o fill) ser')))).
  { intros n mac ip t1 t2 t3 IP. assert (K := smooth_rel n mac (k_wrap o) (k_fillna o) (k_min_clim o) _ _ RR RA RA').
    assert (NS : forall r, smooth_rows n mac (k_wrap o) (k_fillna o) (k_min_clim o) (unit_rows agg agg_std o ser) = Ok r -> k_std o = false -> nostd r).
    { intros r E Z. apply (smooth_nostd _ _ _ _ _ _ _ E), unit_rows_nostd, Z. }
    destruct (smooth_rows _ _ _ _ _ (unit_rows agg agg_std o ser)) as [r|], (smooth_rows _ _ _ _ _ (unit_rows _ _ (refill o fill) ser')) as [r'|]; cbn [same_outcome mapR] in *; try contradiction; [|exact K].
    specialize (NS r eq_refl).
    assert (K2 : Forall2 crel (if ip then interp_row r t1 t2 t3 else r) (if ip then interp_row r' t1 t2 t3 else r')).
    { destruct ip; [|exact K]. destruct (k_std o) eqn:ES; [exfalso; destruct (ST eq_refl) as [X _]; rewrite (IP eq_refl) in X; discriminate X|].
      apply interp_rel; [exact K|exact (NS eq_refl)|exact (crel_nostd _ _ K (NS eq_refl))]. }
    assert (K3 : k_std o = false -> nostd (if ip then interp_row r t1 t2 t3 else r)).
    { intros Z. specialize (NS Z). destruct ip; [|exact NS]. unfold interp_row. cbv zeta. apply set_nth_nostd; [|exact NS]. cbn [fill_row c_std]. rewrite nth_nostd by exact NS. reflexivity. }
    revert K2 K3. generalize (if ip then interp_row r t1 t2 t3 else r), (if ip then interp_row r' t1 t2 t3 else r'). intros q q' K2 K3.
    induction K2 as [|x x' q q' (X1 & X2) K2 IH]; cbn [map]; constructor.
    - split; cbn [c_clim c_std]; [apply fillna_rel; assumption|]. destruct (c_std x) as [u|] eqn:EX, (c_std x') as [u'|]; cbn in X2; try contradiction; [|exact Logic.I]. cbn.
      destruct (k_std o) eqn:ES; [|specialize (K3 eq_refl); inversion K3; congruence]. destruct (ST eq_refl) as [_ Y]. rewrite Y in *. destruct fill; [contradiction|]. apply fillna_rel; [exact Logic.I|exact X2].
    - apply IH. intros Z. specialize (K3 Z). inversion K3. assumption. }
  destruct (k_freq o) eqn:EF.
  - assert (M1 := MAIN (n_units FDay) (match k_ma_clim o with Some m => m | None => 35%nat end) (k_interp o) 366%Z 365%Z 1%Z (fun e => e)).
    assert (M2 := MAIN (n_units FDay) (match k_ma_clim o with Some m => m | None => 35%nat end) (k_interp o) 60%Z 59%Z 61%Z (fun e => e)).
    destruct (k_respect o); [exact M1|exact M2].
  - exact (MAIN (n_units FMonth) (match k_ma_clim o with Some m => m | None => 3%nat end) false 0%Z 0%Z 0%Z (fun e => ltac:(discriminate e))).
  - destruct (k_ma_clim o); reflexivity.
Qed.
Lemma lookup_rel cl cl' k : Forall2 (cell_in_unit a b) cl cl' -> cell_in_unit a b (clim_lookup cl k) (clim_lookup cl' k).
Proof.
  intros F. unfold clim_lookup. rewrite (len2 _ _ _ F). destruct (_ && _); [|exact Logic.I]. generalize (Z.to_nat (k - 1)). intros i. revert i.
  induction F; intros [|i]; cbn; try exact Logic.I; auto.
Qed.
Lemma anomaly_rel rs cl cl' ser ser' : Forall2 (cell_in_unit a b) cl cl' -> Forall2 orel ser ser' ->
  Forall2 (cell_in_unit a 0) (calc_anomaly_clim rs cl ser) (calc_anomaly_clim rs cl' ser').
Proof.
  intros FC F. unfold calc_anomaly_clim. apply (F2_map orel); [|exact F]. intros o o' (D & _ & V). rewrite D. apply (cell_sub_rel a b); [exact V|]. apply lookup_rel, FC.
Qed.
End Clim.
