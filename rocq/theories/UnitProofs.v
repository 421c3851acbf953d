(* CDF matching and the other scaling methods do not depend on the units. *)
From Verif Require Import BaseProofs CdfModel CdfFitProofs ScalingModel UnitSpec.
From Coq Require Import Lqa Qabs.
Open Scope Q_scope.

Notation aff := in_unit.
Lemma aff_le a b v w v' w' : 0 < a -> aff a b v v' -> aff a b w w' -> Qle_bool v' w' = Qle_bool v w.
Proof.
  intros A H K. unfold in_unit in *. apply eq_true_iff_eq. rewrite !Qle_bool_iff, H, K. split; intros L.
  - apply Qmult_le_l with a; [exact A|]. lra.
  - assert (a * v <= a * w) by (apply Qmult_le_l; assumption). lra.
Qed.
Lemma aff_eq a b v w v' w' : 0 < a -> aff a b v v' -> aff a b w w' -> Qeq_bool v' w' = Qeq_bool v w.
Proof.
  intros A H K. unfold in_unit in *. apply eq_true_iff_eq. rewrite !Qeq_bool_iff, H, K. split; intros L.
  - apply Qmult_inj_l with a; [intros C; rewrite C in A; discriminate A|]. lra.
  - rewrite L. reflexivity.
Qed.
Lemma aff_diff a b v w v' w' : aff a b v v' -> aff a b w w' -> v' - w' == a * (v - w).
Proof. unfold in_unit. intros -> ->. ring. Qed.
Lemma len2 {A B} (R : A -> B -> Prop) l m : Forall2 R l m -> List.length m = List.length l.
Proof. induction 1; cbn; congruence. Qed.
Lemma Qdiv_scaled k j x y : (k * x) / (j * y) == (k / j) * (x / y).
Proof. unfold Qdiv. rewrite Qinv_mult_distr. ring. Qed.

Lemma q_insert_aff a b x x' l l' : 0 < a -> aff a b x x' -> Forall2 (aff a b) l l' -> Forall2 (aff a b) (q_insert x l) (q_insert x' l').
Proof.
  intros A X F. induction F as [|y y' l l' Y F IH]; cbn [q_insert]; [repeat constructor; exact X|].
  rewrite (aff_le a b x y x' y' A X Y). destruct (Qle_bool x y); repeat (constructor; try assumption).
Qed.
Lemma q_sort_aff a b l l' : 0 < a -> Forall2 (aff a b) l l' -> Forall2 (aff a b) (q_sort l) (q_sort l').
Proof. intros A F. induction F as [|x x' l l' X F IH]; cbn; [constructor|]. apply q_insert_aff; assumption. Qed.

Section Points.
Variables a b c d : Q.
Hypothesis A : 0 < a.
Definition pt (p p' : Q * Q) : Prop := aff a b (fst p) (fst p') /\ aff c d (snd p) (snd p').
Lemma seg_aff p p' q q' x x' : pt p p' -> pt q q' -> aff a b x x' -> aff c d (seg p q x) (seg p' q' x').
Proof.
  intros (P1 & P2) (Q1 & Q2) X. unfold seg.
  assert (D1 := aff_diff a b _ _ _ _ X P1). assert (D2 := aff_diff a b _ _ _ _ Q1 P1). assert (D3 := aff_diff c d _ _ _ _ Q2 P2).
  unfold in_unit in *. rewrite D1, D2, D3, P2, Qdiv_scaled. assert (~ a == 0) by (intros E; rewrite E in A; discriminate A). generalize ((snd q - snd p) / (fst q - fst p)). intros r. field. assumption.
Qed.
Lemma lin_interp_aff r r' : Forall2 pt r r' -> forall p p' x x', pt p p' -> aff a b x x' -> aff c d (lin_interp p r x) (lin_interp p' r' x').
Proof.
  induction 1 as [|q q' r r' Hq F IH]; intros p p' x x' P X; cbn [lin_interp]; [apply P|].
  destruct F as [|s s' r r' Hs F]; [apply seg_aff; assumption|].
  rewrite (aff_le a b x (fst q) x' (fst q') A X (proj1 Hq)). destruct (Qle_bool x (fst q)); [apply seg_aff; assumption|]. apply IH; assumption.
Qed.
Lemma last_pt r r' : Forall2 pt r r' -> forall p p', pt p p' -> pt (last r p) (last r' p').
Proof.
  induction 1 as [|q q' r r' Hq F IH]; intros p p' P; cbn [last]; [exact P|]. destruct F as [|s s' r r' Hs F]; [exact Hq|]. apply IH, P.
Qed.
Lemma np_interp_aff r r' p p' x x' : Forall2 pt r r' -> pt p p' -> aff a b x x' -> aff c d (np_interp p r x) (np_interp p' r' x').
Proof.
  intros F P X. unfold np_interp. assert (L := last_pt r r' F p p' P).
  rewrite (aff_le a b x (fst p) x' (fst p') A X (proj1 P)), (aff_le a b _ x _ x' A (proj1 L) X).
  destruct (Qle_bool x (fst p)); [apply P|]. destruct (Qle_bool (fst (last r p)) x); [apply L|]. apply lin_interp_aff; assumption.
Qed.
Lemma strictly_aff l l' : Forall2 (aff a b) l l' -> strictly_incb l' = strictly_incb l.
Proof.
  induction 1 as [|x x' l l' X F IH]; [reflexivity|]. cbn [strictly_incb]. destruct F as [|y y' l l' Y F]; [reflexivity|].
  rewrite (aff_le a b y x y' x' A Y X), IH. reflexivity.
Qed.
Lemma combine_pt l l' m m' : Forall2 (aff a b) l l' -> Forall2 (aff c d) m m' -> Forall2 pt (combine l m) (combine l' m').
Proof.
  intros F. revert m m'. induction F as [|x x' l l' X F IH]; intros m m' G; cbn; [constructor|]. destruct G as [|y y' m m' Y G]; constructor; [split; assumption|apply IH, G].
Qed.
Lemma spline_aff l l' m m' : Forall2 (aff a b) l l' -> Forall2 (aff c d) m m' ->
  same_outcome (fun f f' => forall x x', aff a b x x' -> aff c d (f x) (f' x')) (spline l m) (spline l' m').
Proof.
  intros F G. unfold spline. rewrite (len2 _ _ _ F), (len2 _ _ _ G), (strictly_aff l l' F). destruct (_ && strictly_incb l); [|reflexivity].
  destruct (combine_pt l l' m m' F G) as [|p p' r r' P K]; [reflexivity|]. destruct K as [|q q' r r' Q' K]; [reflexivity|].
  cbn [same_outcome]. intros x x' X. apply lin_interp_aff; [constructor; assumption|exact P|exact X].
Qed.
End Points.
Lemma aff_refl v : aff 1 0 v v.
Proof. unfold in_unit. ring. Qed.
Lemma affs_refl l : Forall2 (aff 1 0) l l.
Proof. induction l; constructor; [apply aff_refl|assumption]. Qed.
Lemma one_pos : 0 < 1. Proof. reflexivity. Qed.

Section Values.
Variables a b : Q.
Hypothesis A : 0 < a.
Lemma map_aff (f f' : Q -> Q) l : (forall x, aff a b (f x) (f' x)) -> Forall2 (aff a b) (map f l) (map f' l).
Proof. intros H. induction l; constructor; auto. Qed.
Lemma matlab_aff l l' ps : Forall2 (aff a b) l l' -> same_outcome (Forall2 (aff a b)) (matlab_percentiles l ps) (matlab_percentiles l' ps).
Proof.
  intros F. unfold matlab_percentiles. rewrite (len2 _ _ _ F).
  destruct (combine_pt 1 0 a b _ _ l l' (affs_refl (map (p_rank (List.length l)) (seq 0 (List.length l)))) F) as [|p p' r r' P K]; [reflexivity|].
  cbn [same_outcome]. apply map_aff. intros x. apply (np_interp_aff 1 0 a b one_pos); [exact K|exact P|apply aff_refl].
Qed.
Definition popt (w w' : option Q) : Prop := match w, w' with Some v, Some v' => aff a b v v' | None, None => True | _, _ => False end.
Definition pt1 (p p' : Q * Q) : Prop := fst p = fst p' /\ aff a b (snd p) (snd p').
Lemma first_occ_aff l l' : Forall2 pt1 l l' -> forall w w', popt w w' -> Forall2 pt1 (first_occurrences w l) (first_occurrences w' l').
Proof.
  induction 1 as [|[p v] [p' v'] l l' H F IH]; intros w w' W; cbn [first_occurrences]; [constructor|].
  assert (E : match w' with Some w => Qeq_bool v' w | None => false end = match w with Some w => Qeq_bool v w | None => false end).
  { destruct w as [u|], w' as [u'|]; try contradiction; [|reflexivity]. apply (aff_eq a b); [exact A|apply H|exact W]. }
  rewrite E. destruct (match w with Some w => Qeq_bool v w | None => false end); [apply IH; assumption|]. constructor; [exact H|]. apply IH, H.
Qed.
Lemma set_last_fst_aff l l' p : Forall2 pt1 l l' -> Forall2 pt1 (set_last_fst l p) (set_last_fst l' p).
Proof.
  induction 1 as [|[q v] [q' v'] l l' H F IH]; cbn [set_last_fst]; [constructor|]. destruct F as [|x x' l l' X F].
  - constructor; [split; [reflexivity|apply H]|constructor].
  - constructor; [exact H|exact IH].
Qed.
Lemma combine_pt1 ps : forall l l', Forall2 (aff a b) l l' -> Forall2 pt1 (combine ps l) (combine ps l').
Proof.
  induction ps as [|p ps IH]; intros l l' F; cbn; [constructor|]. destruct F as [|x x' l l' X F]; constructor; [split; [reflexivity|exact X]|apply IH, F].
Qed.
Lemma pt1_fst l l' : Forall2 pt1 l l' -> map fst l' = map fst l.
Proof. induction 1 as [|p p' l l' (H1 & _) F IH]; cbn; [reflexivity|]. rewrite H1, IH. reflexivity. Qed.
Lemma pt1_snd l l' : Forall2 pt1 l l' -> Forall2 (aff a b) (map snd l) (map snd l').
Proof. induction 1 as [|p p' l l' (_ & H2) F IH]; cbn; constructor; assumption. Qed.
Lemma unique_aff l l' ps : Forall2 (aff a b) l l' -> same_outcome (Forall2 (aff a b)) (unique_percentiles l ps) (unique_percentiles l' ps).
Proof.
  intros F. unfold unique_percentiles. cbv zeta.
  assert (U := first_occ_aff _ _ (combine_pt1 ps l l' F) None None Logic.I).
  rewrite (len2 _ _ _ U). destruct (_ && _); [|exact F].
  assert (T := set_last_fst_aff _ _ (last ps 0) U). rewrite (pt1_fst _ _ T).
  assert (K := spline_aff 1 0 a b one_pos _ _ _ _ (affs_refl (map fst (set_last_fst (first_occurrences None (combine ps l)) (last ps 0)))) (pt1_snd _ _ T)).
  match type of K with same_outcome _ ?s ?t => destruct s as [f|e], t as [f'|e'] end; cbn [same_outcome bindR] in *; try contradiction; [|exact K].
  apply map_aff. intros x. apply K, aff_refl.
Qed.
Lemma percentile_aff l l' ps : Forall2 (aff a b) l l' -> same_outcome (Forall2 (aff a b)) (percentile_values l ps) (percentile_values l' ps).
Proof.
  intros F. unfold percentile_values. assert (M := matlab_aff l l' ps F). destruct (matlab_percentiles l ps), (matlab_percentiles l' ps); cbn [same_outcome bindR] in *; try contradiction; [|exact M].
  apply unique_aff, M.
Qed.
Lemma resample_aff l l' n : Forall2 (aff a b) l l' -> same_outcome (Forall2 (aff a b)) (resample_ecdf l n) (resample_ecdf l' n).
Proof. intros F. unfold resample_ecdf. destruct n as [|[|n]]; [constructor|reflexivity|apply percentile_aff, F]. Qed.
Lemma diff_filter_aff (keep keep' : Q -> bool) x x' l l' : aff a b x x' -> (forall v v', aff a b v v' -> keep' v' = keep v) -> Forall2 (aff a b) l l' ->
  Forall2 (aff a 0) (map (fun v => v - x) (filter keep l)) (map (fun v => v - x') (filter keep' l')).
Proof.
  intros X K F. induction F as [|v v' l l' V F IH]; cbn [filter]; [constructor|]. rewrite (K v v' V). destruct (keep v); [|exact IH]. cbn [map]. constructor; [|exact IH].
  unfold in_unit. rewrite (aff_diff a b v x v' x' V X). ring.
Qed.
Lemma qsum_aff l l' : Forall2 (aff a b) l l' -> qsum l' == a * qsum l + b * qlen l.
Proof.
  induction 1 as [|x x' l l' X F IH]; cbn [qsum]; [unfold qlen; cbn; ring|]. unfold in_unit in X. rewrite X, IH. unfold qlen. cbn [List.length]. rewrite Nat2Z.inj_succ, <- Z.add_1_r, inject_Z_plus.
  change (inject_Z 1) with 1. ring.
Qed.
Lemma qmean_aff l l' : l <> [] -> Forall2 (aff a b) l l' -> aff a b (qmean l) (qmean l').
Proof.
  intros N F. unfold in_unit, qmean. rewrite (qsum_aff l l' F). unfold qlen. rewrite (len2 _ _ _ F).
  assert (P : ~ inject_Z (Z.of_nat (List.length l)) == 0).
  { destruct l; [contradiction|]. cbn [List.length]. intros E. unfold Qeq in E. cbn in E. lia. }
  field. exact P.
Qed.
Lemma minus_aff l l' m m' : aff a b m m' -> Forall2 (aff a b) l l' -> Forall2 (aff a 0) (map (fun v => v - m) l) (map (fun v => v - m') l').
Proof.
  intros M G. induction G as [|v v' l l' V G IH]; cbn [map]; constructor; [|exact IH]. unfold in_unit. rewrite (aff_diff a b v m v' m' V M). ring.
Qed.
Lemma centred_aff l l' : Forall2 (aff a b) l l' -> Forall2 (aff a 0) (map (fun v => v - qmean l) l) (map (fun v => v - qmean l') l').
Proof.
  intros F. destruct l as [|x l]; [inversion F; constructor|]. apply minus_aff; [|exact F]. apply qmean_aff; [discriminate|exact F].
Qed.
End Values.

Lemma dotq_aff a c l l' m m' : Forall2 (aff a 0) l l' -> Forall2 (aff c 0) m m' -> dotq l' m' == a * c * dotq l m.
Proof.
  intros F. unfold dotq. revert m m'. induction F as [|x x' l l' X F IH]; intros m m' G; cbn [map2 qsum]; [ring|]. destruct G as [|y y' m m' Y G]; cbn [qsum]; [ring|].
  unfold in_unit in X, Y. rewrite X, Y, (IH m m' G). ring.
Qed.
Lemma Qeq_bool_ext x y x' y' : (x == y <-> x' == y') -> Qeq_bool x y = Qeq_bool x' y'.
Proof. intros H. apply eq_true_iff_eq. rewrite !Qeq_bool_iff. exact H. Qed.
Lemma zero_scaled k x y : ~ k == 0 -> y == k * x -> (y == 0 <-> x == 0).
Proof. intros K E. rewrite E. split; [intros H; apply Qmult_integral in H as [H|H]; [contradiction|exact H]|intros ->; ring]. Qed.
Lemma lstsq_aff a c l l' m m' : 0 < a -> Forall2 (aff a 0) l l' -> Forall2 (aff c 0) m m' ->
  same_outcome (fun s s' => s' == c / a * s) (lstsq1 l m) (lstsq1 l' m').
Proof.
  intros A F G. assert (NA : ~ a == 0) by (intros E; rewrite E in A; discriminate A).
  unfold lstsq1. rewrite (len2 _ _ _ F), (len2 _ _ _ G). destruct (Nat.eqb _ _); [|reflexivity]. cbn [same_outcome].
  assert (D1 := dotq_aff a a l l' l l' F F). assert (D2 := dotq_aff a c l l' m m' F G).
  assert (Z : Qeq_bool (dotq l' l') 0 = Qeq_bool (dotq l l) 0).
  { apply Qeq_bool_ext, (zero_scaled (a * a)); [|exact D1]. intros E. apply Qmult_integral in E as [E|E]; contradiction. }
  rewrite Z. destruct (Qeq_bool (dotq l l) 0) eqn:E; [ring|]. apply Qeq_bool_neq in E. rewrite D1, D2. field. auto.
Qed.

(* ------------------------------------------------------------ the edges *)
Lemma outcome_bind {A A' B B'} (R : A -> A' -> Prop) (T : B -> B' -> Prop) x x' f f' :
  same_outcome R x x' -> (forall v v', x = Ok v -> R v v' -> same_outcome T (f v) (f' v')) -> same_outcome T (bindR x f) (bindR x' f').
Proof. intros H K. destruct x, x'; cbn [same_outcome bindR] in *; try contradiction; [apply K; [reflexivity|exact H]|exact H]. Qed.
Lemma nth_aff a b l l' k : Forall2 (aff a b) l l' -> (k < List.length l)%nat -> aff a b (nth k l 0) (nth k l' 0).
Proof.
  intros F. revert k. induction F as [|x x' l l' X F IH]; intros [|k] K; cbn in *; try (exfalso; lia); [exact X|]. apply IH. lia.
Qed.
Lemma last_aff a b l l' : Forall2 (aff a b) l l' -> l <> [] -> aff a b (last l 0) (last l' 0).
Proof.
  induction 1 as [|x x' l l' X F IH]; intros N; [contradiction|]. destruct F as [|y y' l l' Y F]; [exact X|]. cbn [last] in *. apply IH. discriminate.
Qed.
Lemma set_first_aff a b l l' v v' : aff a b v v' -> Forall2 (aff a b) l l' -> Forall2 (aff a b) (set_first l v) (set_first l' v').
Proof. intros V F. destruct F; cbn; constructor; assumption. Qed.
Lemma set_last_aff a b l l' v v' : aff a b v v' -> Forall2 (aff a b) l l' -> Forall2 (aff a b) (set_last l v) (set_last l' v').
Proof.
  intros V F. induction F as [|x x' l l' X F IH]; cbn [set_last]; [constructor|]. destruct F as [|y y' l l' Y F]; [repeat constructor; exact V|]. constructor; [exact X|exact IH].
Qed.
Lemma set_first_len l v : List.length (set_first l v) = List.length l.
Proof. destruct l; reflexivity. Qed.
Lemma edge_slope_aff a c l l' m m' : 0 < a -> Forall2 (aff a 0) l l' -> Forall2 (aff c 0) m m' ->
  same_outcome (fun s s' => s' == c / a * s) (edge_slope l m) (edge_slope l' m').
Proof.
  intros A F G. unfold edge_slope. apply (outcome_bind (Forall2 (aff a 0))).
  - rewrite (len2 _ _ _ F), (len2 _ _ _ G). destruct (Nat.eqb _ _); [exact F|]. apply resample_aff; assumption.
  - intros v v' _ V. apply lstsq_aff; assumption.
Qed.
Lemma edges_aff a b c d x x' y y' xp xp' yp yp' : 0 < a -> 0 < c -> (2 <= List.length xp)%nat -> (2 <= List.length yp)%nat ->
  Forall2 (aff a b) x x' -> Forall2 (aff c d) y y' -> Forall2 (aff a b) xp xp' -> Forall2 (aff c d) yp yp' ->
  same_outcome (Forall2 (aff c d)) (linear_edge_scaling x y xp yp) (linear_edge_scaling x' y' xp' yp').
Proof.
  intros A C LX LY FX FY FP FQ. assert (NA : ~ a == 0) by (intros E; rewrite E in A; discriminate A).
  unfold linear_edge_scaling. cbv zeta.
  assert (X1 : aff a b (second xp) (second xp')) by (apply nth_aff; [exact FP|lia]).
  assert (Y1 : aff c d (second yp) (second yp')) by (apply nth_aff; [exact FQ|lia]).
  assert (X2 : aff a b (second_last xp) (second_last xp')) by (unfold second_last; rewrite (len2 _ _ _ FP); apply nth_aff; [exact FP|lia]).
  assert (X0 : aff a b (hd 0 xp) (hd 0 xp')) by (destruct FP as [|? ? ? ? HX ?]; [cbn in LX; lia|exact HX]).
  assert (XL : aff a b (last xp 0) (last xp' 0)) by (apply last_aff; [exact FP|destruct xp; [cbn in LX; lia|discriminate]]).
  apply (outcome_bind (fun s s' => s' == c / a * s)).
  { apply edge_slope_aff; [exact A| |]; eapply diff_filter_aff; try eassumption; intros v v' V; [apply (aff_le a b)|apply (aff_le c d)]; assumption. }
  intros s s' _ S1.
  set (p1 := set_first yp _). set (p1' := set_first yp' _).
  assert (F1 : Forall2 (aff c d) p1 p1').
  { apply set_first_aff; [|exact FQ]. assert (D := aff_diff a b _ _ _ _ X0 X1). unfold in_unit in Y1 |- *. rewrite D, S1, Y1. field. exact NA. }
  assert (L1 : List.length p1 = List.length yp) by apply set_first_len.
  assert (Y2 : aff c d (second_last p1) (second_last p1')) by (unfold second_last; rewrite (len2 _ _ _ F1); apply nth_aff; [exact F1|lia]).
  apply (outcome_bind (fun s s' => s' == c / a * s)).
  { apply edge_slope_aff; [exact A| |]; eapply diff_filter_aff; try eassumption; intros v v' V; [apply (aff_le a b)|apply (aff_le c d)]; assumption. }
  intros t t' _ T1. cbn [same_outcome]. apply set_last_aff; [|exact F1].
  assert (D := aff_diff a b _ _ _ _ XL X2). unfold in_unit in Y2 |- *. rewrite D, T1, Y2. field. exact NA.
Qed.

(* ------------------------------------------------------ the whole table *)
Definition cells_aff a b := Forall2 (cell_in_unit a b).
Lemma vals_aff a b X X' : cells_aff a b X X' -> Forall2 (aff a b) (vals X) (vals X').
Proof.
  induction 1 as [|x x' l l' H F IH]; [constructor|]. destruct x as [v|], x' as [v'|]; cbn in H; try contradiction; cbn; [constructor; assumption|exact IH].
Qed.
Lemma notna_aff a b x x' : cell_in_unit a b x x' -> notna x' = notna x.
Proof. destruct x, x'; cbn; try contradiction; reflexivity. Qed.
Lemma mask_aff a b c d X X' Y Y' : cells_aff a b X X' -> cells_aff c d Y Y' ->
  map2 (fun x y : cell => notna x && notna y) X' Y' = map2 (fun x y : cell => notna x && notna y) X Y.
Proof.
  intros F. revert Y Y'. induction F as [|x x' X X' H F IH]; intros Y Y' G; [reflexivity|]. destruct G as [|y y' Y Y' K G]; [reflexivity|]. cbn [map2].
  rewrite (notna_aff a b x x' H), (notna_aff c d y y' K), (IH Y Y' G). reflexivity.
Qed.
Lemma select_aff {A B} (R : A -> B -> Prop) m : forall l l', Forall2 R l l' -> Forall2 R (mask_select m l) (mask_select m l').
Proof. induction m as [|b m IH]; intros l l' F; cbn; [constructor|]. destruct F as [|x x' l l' H F]; [constructor|]. destruct b; [constructor; [exact H|]|]; apply IH, F. Qed.
Lemma uniform_len n : List.length (uniform_percentiles n) = S n.
Proof. unfold uniform_percentiles. rewrite map_length, seq_length. reflexivity. Qed.
Lemma percentiles_two o n ps k : calc_percentiles o n = Ok (ps, k) -> (2 <= List.length ps)%nat.
Proof.
  unfold calc_percentiles. set (p := match c_percentiles o with Some p => p | None => _ end). cbv zeta. intros H.
  destruct (q_minimum (diffs p)) as [m|] eqn:E; [|discriminate H]. cbn [bindR] in H.
  assert (LP : (2 <= List.length p)%nat). { destruct p as [|x [|y r]]; try discriminate E. cbn. lia. }
  destruct (c_minobs o) as [mo|]; [|injection H as <- <-; exact LP].
  destruct (Qle_bool _ _); [injection H as <- <-; exact LP|]. injection H as <- <-. rewrite uniform_len.
  destruct (Nat.eqb _ 0) eqn:E0; [lia|]. apply Nat.eqb_neq in E0. destruct (Nat.ltb _ _); lia.
Qed.
Lemma percentile_len l ps r : percentile_values l ps = Ok r -> List.length r = List.length ps.
Proof.
  unfold percentile_values, matlab_percentiles. destruct (combine _ l) as [|p q]; [discriminate|]. cbn [bindR]. unfold unique_percentiles. cbv zeta.
  destruct (_ && _).
  - destruct (spline _ _); [|discriminate]. cbn [bindR]. intros [= <-]. apply map_length.
  - intros [= <-]. apply map_length.
Qed.
(* what a table predicts *)
Definition table_fun (t : list Q * list Q) : option (Q -> Q) :=
  match spline (fst t) (snd t) with Ok f => Some f | Err _ => None end.
Lemma predict_table n t X : cdf_predict (mkTable (pad n (fst t)) (pad n (snd t))) X =
  map (fun c => match table_fun t, c with Some f, Some v => Some (f v) | _, _ => None end) X.
Proof.
  unfold cdf_predict, table_fun. cbn [x_perc y_perc]. rewrite !vals_pad. destruct t as [xp yp]. cbn [fst snd].
  destruct (existsb notna X) eqn:E.
  - assert (N1 : spline [] yp = Err EValue) by (unfold spline; destruct (_ && _); reflexivity).
    assert (N2 : spline xp [] = Err EValue) by (unfold spline; destruct (_ && _); [destruct xp|]; reflexivity).
    destruct xp as [|x xp]; [rewrite N1; reflexivity|]. destruct yp as [|y yp]; [rewrite N2; reflexivity|]. destruct (spline (x :: xp) (y :: yp)) as [f|e]; apply map_ext; intros [v|]; reflexivity.
  - apply map_ext_in. intros c Hc. destruct c as [v|]; [|destruct (spline xp yp); reflexivity].
    exfalso. assert (C : existsb notna X = true) by (apply existsb_exists; exists (Some v); split; [exact Hc|reflexivity]). congruence.
Qed.
Definition same_fun a b c d (g g' : option (Q -> Q)) : Prop :=
  match g, g' with Some f, Some f' => forall x x', aff a b x x' -> aff c d (f x) (f' x') | None, None => True | _, _ => False end.
Lemma table_aff a b c d xp xp' yp yp' : 0 < a -> Forall2 (aff a b) xp xp' -> Forall2 (aff c d) yp yp' -> same_fun a b c d (table_fun (xp, yp)) (table_fun (xp', yp')).
Proof.
  intros A F G. unfold table_fun. cbn [fst snd]. assert (K := spline_aff a b c d A xp xp' yp yp' F G).
  destruct (spline xp yp), (spline xp' yp'); cbn [same_outcome same_fun] in *; try contradiction; [exact K|exact Logic.I].
Qed.
Lemma linreg_aff a b c d x x' y y' : 0 < a -> 0 < c -> Forall2 (aff a b) x x' -> Forall2 (aff c d) y y' ->
  same_outcome (fun t t' => same_fun a b c d (table_fun t) (table_fun t')) (linreg_percentiles x y) (linreg_percentiles x' y').
Proof.
  intros A C F G. assert (NA : ~ a == 0) by (intros E; rewrite E in A; discriminate A). unfold linreg_percentiles. cbv zeta.
  apply (outcome_bind (fun s s' => s' == c / a * s)); [apply lstsq_aff; [exact A| |]; eapply centred_aff; eassumption|].
  intros s s' E K. cbn [same_outcome]. destruct F as [|x0 x0' x x' HX F]; [exact Logic.I|].
  assert (NY : y <> []). { intros ->. discriminate E. }
  assert (F' : Forall2 (aff a b) (x0 :: x) (x0' :: x')) by (constructor; assumption).
  unfold table_fun, spline. cbn. intros v v' V. unfold seg. cbn [fst snd].
  assert (MX := qmean_aff a b (x0 :: x) (x0' :: x') ltac:(discriminate) F'). assert (MY := qmean_aff c d y y' NY G). unfold in_unit in *. rewrite V, K, MX, MY. field. exact NA.
Qed.

(* --------------------------------------------------- fit, predict, clamp *)
Definition same_table a b c d (t t' : cdf_table) : Prop :=
  exists n p q p' q', t = mkTable (pad n p) (pad n q) /\ t' = mkTable (pad n p') (pad n q') /\ same_fun a b c d (table_fun (p, q)) (table_fun (p', q')).
Lemma fit_aff a b c d o X X' Y Y' : 0 < a -> 0 < c -> cells_aff a b X X' -> cells_aff c d Y Y' ->
  same_outcome (same_table a b c d) (cdf_fit o X Y) (cdf_fit o X' Y').
Proof.
  intros A C FX FY. unfold cdf_fit. cbv zeta. rewrite (len2 _ _ _ FX), (len2 _ _ _ FY), (mask_aff a b c d X X' Y Y' FX FY).
  set (both := _ && c_combine o). set (m := map2 _ X Y).
  set (xu := if both then vals (mask_select m X) else _). set (xu' := if both then vals (mask_select m X') else _).
  set (yu := if both then vals (mask_select m Y) else _). set (yu' := if both then vals (mask_select m Y') else _).
  assert (UX : Forall2 (aff a b) xu xu') by (unfold xu, xu'; destruct both; apply vals_aff; [apply select_aff|]; exact FX).
  assert (UY : Forall2 (aff c d) yu yu') by (unfold yu, yu'; destruct both; apply vals_aff; [apply select_aff|]; exact FY).
  assert (SX := q_sort_aff a b xu xu' A UX). assert (SY := q_sort_aff c d yu yu' C UY).
  rewrite (len2 _ _ _ SX), (len2 _ _ _ SY).
  destruct (calc_percentiles o _) as [[ps k]|e] eqn:EP; [|reflexivity]. cbn [bindR]. assert (L2 := percentiles_two o _ ps k EP).
  apply (outcome_bind (fun t t' => same_fun a b c d (table_fun t) (table_fun t'))).
  - destruct (Nat.eqb k 1 && c_linear_edges o); [apply linreg_aff; assumption|].
    apply (outcome_bind (Forall2 (aff a b))); [apply percentile_aff; assumption|]. intros xp xp' E1 P1.
    apply (outcome_bind (Forall2 (aff c d))); [apply percentile_aff; assumption|]. intros yp yp' E2 P2.
    destruct (c_linear_edges o); [|apply table_aff; assumption].
    assert (K := edges_aff a b c d _ _ _ _ xp xp' yp yp' A C ltac:(rewrite (percentile_len _ _ _ E1); exact L2) ltac:(rewrite (percentile_len _ _ _ E2); exact L2) SX SY P1 P2).
    destruct (linear_edge_scaling _ _ xp yp), (linear_edge_scaling _ _ xp' yp'); cbn [same_outcome mapR] in *; try contradiction; [apply table_aff; assumption|exact K].
  - intros [p q] [p' q'] _ T. cbn [same_outcome fst snd]. exists (S (self_nbins o)), p, q, p', q'. repeat split. exact T.
Qed.
Lemma predict_aff a b c d t t' X X' : same_table a b c d t t' -> cells_aff a b X X' -> cells_aff c d (cdf_predict t X) (cdf_predict t' X').
Proof.
  intros (n & p & q & p' & q' & -> & -> & T) F. rewrite (predict_table n (p, q)), (predict_table n (p', q')).
  induction F as [|x x' X X' H F IH]; cbn [map]; constructor; [|exact IH].
  destruct (table_fun (p, q)) as [f|], (table_fun (p', q')) as [f'|]; cbn [same_fun] in T; try contradiction; [|exact Logic.I].
  destruct x as [v|], x' as [v'|]; cbn in H; try contradiction; [|exact Logic.I]. apply T, H.
Qed.
Lemma clamp_above_aff c d m m' x x' : 0 < c -> cell_in_unit c d m m' -> cell_in_unit c d x x' -> cell_in_unit c d (clamp_above m x) (clamp_above m' x').
Proof.
  intros C M X. destruct m as [m|], m' as [m'|]; cbn in M; try contradiction; [|exact X]. destruct x as [v|], x' as [v'|]; cbn in X; try contradiction; [|exact Logic.I].
  cbn [clamp_above]. rewrite (aff_le c d v m v' m' C X M). destruct (Qle_bool v m); assumption.
Qed.
Lemma clamp_below_aff c d m m' x x' : 0 < c -> cell_in_unit c d m m' -> cell_in_unit c d x x' -> cell_in_unit c d (clamp_below m x) (clamp_below m' x').
Proof.
  intros C M X. destruct m as [m|], m' as [m'|]; cbn in M; try contradiction; [|exact X]. destruct x as [v|], x' as [v'|]; cbn in X; try contradiction; [|exact Logic.I].
  cbn [clamp_below]. rewrite (aff_le c d m v m' v' C M X). destruct (Qle_bool m v); assumption.
Qed.
Lemma cdf_match_aff a b c d o hi hi' lo lo' X X' Y Y' : 0 < a -> 0 < c -> cell_in_unit c d hi hi' -> cell_in_unit c d lo lo' -> cells_aff a b X X' -> cells_aff c d Y Y' ->
  same_outcome (cells_aff c d) (cdf_match o hi lo X Y) (cdf_match o hi' lo' X' Y').
Proof.
  intros A C H L FX FY. unfold cdf_match. assert (K := fit_aff a b c d o X X' Y Y' A C FX FY).
  destruct (cdf_fit o X Y) as [t|], (cdf_fit o X' Y') as [t'|]; cbn [same_outcome mapR] in *; try contradiction; [|exact K].
  assert (P := predict_aff a b c d t t' X X' K FX). induction P as [|x x' l l' HP P IH]; cbn [map]; constructor; [|exact IH].
  apply clamp_below_aff; [exact C|exact L|]. apply clamp_above_aff; assumption.
Qed.

(* -------------------------------------------------- min_max and linreg *)
Lemma q_min_aff a b l l' : 0 < a -> Forall2 (aff a b) l l' -> same_outcome (aff a b) (q_minimum l) (q_minimum l').
Proof.
  intros A F. destruct F as [|x x' l l' X F]; [reflexivity|]. cbn [q_minimum same_outcome]. revert x x' X. induction F as [|y y' l l' Y F IH]; intros x x' X; cbn [fold_left]; [exact X|].
  apply IH. unfold in_unit in *. destruct (Qlt_le_dec x y) as [H|H].
  - rewrite (Q.min_l x y), (Q.min_l x' y'); [exact X| |lra]. rewrite X, Y. assert (a * x <= a * y) by (apply Qmult_le_l; [exact A|lra]). lra.
  - rewrite (Q.min_r x y), (Q.min_r x' y'); [exact Y| |lra]. rewrite X, Y. assert (a * y <= a * x) by (apply Qmult_le_l; [exact A|lra]). lra.
Qed.
Lemma q_max_aff a b l l' : 0 < a -> Forall2 (aff a b) l l' -> same_outcome (aff a b) (q_maximum l) (q_maximum l').
Proof.
  intros A F. destruct F as [|x x' l l' X F]; [reflexivity|]. cbn [q_maximum same_outcome]. revert x x' X. induction F as [|y y' l l' Y F IH]; intros x x' X; cbn [fold_left]; [exact X|].
  apply IH. unfold in_unit in *. destruct (Qlt_le_dec x y) as [H|H].
  - rewrite (Q.max_r x y), (Q.max_r x' y'); [exact Y| |lra]. rewrite X, Y. assert (a * x <= a * y) by (apply Qmult_le_l; [exact A|lra]). lra.
  - rewrite (Q.max_l x y), (Q.max_l x' y'); [exact X| |lra]. rewrite X, Y. assert (a * y <= a * x) by (apply Qmult_le_l; [exact A|lra]). lra.
Qed.
Lemma min_max_aff a b c d x x' y y' : 0 < a -> 0 < c -> Forall2 (aff a b) x x' -> Forall2 (aff c d) y y' ->
  same_outcome (cells_aff c d) (min_max x y) (min_max x' y').
Proof.
  intros A C FX FY. assert (NA : ~ a == 0) by (intros E; rewrite E in A; discriminate A). unfold min_max.
  apply (outcome_bind (aff a b)); [apply q_min_aff; assumption|]. intros s1 s1' _ S1.
  apply (outcome_bind (aff a b)); [apply q_max_aff; assumption|]. intros s2 s2' _ S2.
  apply (outcome_bind (aff c d)); [apply q_max_aff; assumption|]. intros r2 r2' _ R2.
  apply (outcome_bind (aff c d)); [apply q_min_aff; assumption|]. intros r1 r1' _ R1. cbn [same_outcome].
  induction FX as [|v v' x x' V FX IH]; cbn [map]; constructor; [|exact IH].
  unfold qdiv_cell. assert (D := aff_diff a b _ _ _ _ S2 S1). assert (D1 := aff_diff a b _ _ _ _ V S1). assert (D2 := aff_diff c d _ _ _ _ R2 R1).
  rewrite (Qeq_bool_ext (s2' - s1') 0 (s2 - s1) 0 (zero_scaled a _ _ NA D)). destruct (Qeq_bool (s2 - s1) 0) eqn:E; [exact Logic.I|].
  apply Qeq_bool_neq in E. cbn. unfold in_unit in *. rewrite D, D1, D2, R1. field. split; [exact E|exact NA].
Qed.
Lemma linreg_params_aff a b c d x x' y y' : 0 < a -> Forall2 (aff a b) x x' -> Forall2 (aff c d) y y' ->
  same_outcome (fun p p' => fst p' == c / a * fst p /\ snd p' == c * snd p + d - c / a * fst p * b) (linreg_params x y) (linreg_params x' y').
Proof.
  intros A FX FY. assert (NA : ~ a == 0) by (intros E; rewrite E in A; discriminate A).
  unfold linreg_params. cbv zeta. rewrite (len2 _ _ _ FX), (len2 _ _ _ FY). destruct (Nat.eqb _ _) eqn:EL; [|reflexivity]. unfold centred.
  assert (CX := centred_aff a b x x' FX). assert (CY := centred_aff c d y y' FY).
  assert (D1 := dotq_aff a a _ _ _ _ CX CX). assert (D2 := dotq_aff a c _ _ _ _ CX CY).
  assert (Z : Qeq_bool (dotq (map (fun v => v - qmean x') x') (map (fun v => v - qmean x') x')) 0 = Qeq_bool (dotq (map (fun v => v - qmean x) x) (map (fun v => v - qmean x) x)) 0).
  { apply Qeq_bool_ext, (zero_scaled (a * a)); [|exact D1]. intros E. apply Qmult_integral in E as [E|E]; contradiction. }
  rewrite Z. clear Z. destruct (Qeq_bool _ 0) eqn:E; [exact eq_refl|]. apply Qeq_bool_neq in E. cbn [same_outcome fst snd].
  assert (NX : x <> []). { intros ->. apply E. reflexivity. }
  assert (NY : y <> []). { intros ->. apply Nat.eqb_eq in EL. destruct x; [apply NX; reflexivity|discriminate EL]. }
  assert (MX := qmean_aff a b x x' NX FX). assert (MY := qmean_aff c d y y' NY FY). unfold in_unit in MX, MY.
  rewrite D1, D2. split; [field; auto|]. rewrite MX, MY. field. auto.
Qed.
