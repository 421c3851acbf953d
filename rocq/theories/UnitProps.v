(* C92: what scaling returns does not depend on the unit of the source, and is in the unit of the reference. *)
From Verif Require Import Base CdfModel ScalingModel UnitSpec UnitProofs.
From Coq Require Import Qabs.
Open Scope Q_scope.

(* CDF matching: bounds are values of the reference *)
Theorem C92_cdf_match a b c d o hi hi' lo lo' src src' ref ref' : 0 < a -> 0 < c ->
  Forall2 (cell_in_unit a b) src src' -> Forall2 (cell_in_unit c d) ref ref' -> cell_in_unit c d hi hi' -> cell_in_unit c d lo lo' ->
  same_outcome (Forall2 (cell_in_unit c d)) (cdf_match o hi lo src ref) (cdf_match o hi' lo' src' ref').
Proof. intros A C S R H L. exact (cdf_match_aff a b c d o hi hi' lo lo' src src' ref ref' A C H L S R). Qed.
Print Assumptions C92_cdf_match.

(* the same after a fit on other data: the fitted tables predict the same *)
Theorem C92_predict a b c d o src src' ref ref' X X' : 0 < a -> 0 < c ->
  Forall2 (cell_in_unit a b) src src' -> Forall2 (cell_in_unit c d) ref ref' -> Forall2 (cell_in_unit a b) X X' ->
  same_outcome (fun t t' => Forall2 (cell_in_unit c d) (cdf_predict t X) (cdf_predict t' X')) (cdf_fit o src ref) (cdf_fit o src' ref').
Proof.
  intros A C S R HX. assert (K := fit_aff a b c d o src src' ref ref' A C S R).
  destruct (cdf_fit o src ref) as [t|], (cdf_fit o src' ref') as [t'|]; cbn [same_outcome] in *; try contradiction; [|exact K].
  exact (predict_aff a b c d t t' X X' K HX).
Qed.
Print Assumptions C92_predict.

Theorem C92_min_max a b c d src src' ref ref' : 0 < a -> 0 < c ->
  Forall2 (in_unit a b) src src' -> Forall2 (in_unit c d) ref ref' ->
  same_outcome (Forall2 (cell_in_unit c d)) (min_max src ref) (min_max src' ref').
Proof. exact (min_max_aff a b c d src src' ref ref'). Qed.
Print Assumptions C92_min_max.

(* Linear regression: only if the regression does not fall, or the zero point of the source stays. *)
Theorem C92_linreg_partial a b c d src src' ref ref' : 0 < a -> 0 < c ->
  Forall2 (in_unit a b) src src' -> Forall2 (in_unit c d) ref ref' ->
  (b == 0 \/ forall s i, linreg_params src ref = Ok (s, i) -> 0 <= s) ->
  same_outcome (Forall2 (cell_in_unit c d)) (linreg src ref) (linreg src' ref').
Proof.
  intros A C FX FY H. assert (NA : ~ a == 0) by (intros E; rewrite E in A; discriminate A).
  assert (K := linreg_params_aff a b c d src src' ref ref' A FX FY). unfold linreg.
  destruct (linreg_params src ref) as [[s i]|], (linreg_params src' ref') as [[s' i']|]; cbn [same_outcome mapR] in *; try contradiction; [|exact K].
  cbn [fst snd] in *. destruct K as [K1 K2].
  assert (AB : Qabs s' == c / a * Qabs s).
  { rewrite K1, Qabs_Qmult. rewrite (Qabs_pos (c / a)); [reflexivity|]. apply Qlt_le_weak. apply Qlt_shift_div_l; [exact A|]. rewrite Qmult_0_l. exact C. }
  assert (Z : b == 0 \/ Qabs s == s). { destruct H as [H|H]; [left; exact H|right; apply Qabs_pos, (H s i eq_refl)]. }
  unfold linreg_stored_params. induction FX as [|v v' l l' V FX IH]; cbn [map]; constructor; [|apply IH].
  cbn. unfold in_unit in *. rewrite AB, K2, V. destruct Z as [Z|Z]; rewrite Z; field; exact NA.
Qed.
Print Assumptions C92_linreg_partial.
(* A falling regression: in kelvin and in degrees Celsius the scaled values differ (here by more than 500). *)
Theorem C92_linreg_refuted : exists src src' ref, Forall2 (in_unit 1 273) src src' /\
  match linreg src ref, linreg src' ref with
  | Ok out, Ok out' => exists v v', nth_error out 0 = Some (Some v) /\ nth_error out' 0 = Some (Some v') /\ v' - v == 546
  | _, _ => False
  end.
Proof.
  exists [1; 2; 3], [274; 275; 276], [6; 5; 4]. split; [repeat (constructor; [reflexivity|]); constructor|].
  vm_compute. eexists. eexists. split; [reflexivity|]. split; [reflexivity|]. reflexivity.
Qed.
Print Assumptions C92_linreg_refuted.

(* Whole frames: columns may be in units of their own, everything comes out in the unit of the reference. *)
Definition unit_free (scaler : list cell -> list cell -> res (list cell)) : Prop :=
  forall a b c d src src' ref ref', 0 < a -> 0 < c -> Forall2 (cell_in_unit a b) src src' -> Forall2 (cell_in_unit c d) ref ref' ->
  same_outcome (Forall2 (cell_in_unit c d)) (scaler src ref) (scaler src' ref').
Definition column_in_unit (c d : Q) (x x' : string * list cell) : Prop := fst x = fst x' /\ Forall2 (cell_in_unit c d) (snd x) (snd x').
Definition column_in_some_unit (x x' : string * list cell) : Prop := exists a b, 0 < a /\ column_in_unit a b x x'.

Lemma insert_rel {A} (R : A -> A -> Prop) x x' : R x x' -> forall i l l', Forall2 R l l' -> Forall2 R (insert_at i x l) (insert_at i x' l').
Proof. intros X. induction i as [|i IH]; intros l l' F; cbn; [constructor; assumption|]. destruct F; [repeat constructor; exact X|]. constructor; [assumption|]. apply IH. assumption. Qed.
Lemma filter_rel n l l' : Forall2 column_in_some_unit l l' ->
  Forall2 column_in_some_unit (filter (fun c => negb (String.eqb (fst c) n)) l) (filter (fun c => negb (String.eqb (fst c) n)) l').
Proof.
  induction 1 as [|x x' l l' X F IH]; cbn; [constructor|]. assert (E : fst x = fst x') by (destruct X as (? & ? & _ & E & _); exact E).
  rewrite <- E. destruct (negb _); [constructor; assumption|exact IH].
Qed.
Lemma nth_rel {A} (R : A -> A -> Prop) l l' : Forall2 R l l' -> forall i, match nth_error l i, nth_error l' i with Some x, Some x' => R x x' | None, None => True | _, _ => False end.
Proof. induction 1 as [|x x' l l' X F IH]; intros [|i]; cbn; try exact Logic.I; [exact X|apply IH]. Qed.
Lemma scaled_rel scaler c d r r' l l' : unit_free scaler -> 0 < c -> Forall2 (cell_in_unit c d) r r' -> Forall2 column_in_some_unit l l' ->
  same_outcome (Forall2 (column_in_unit c d)) (seqR (map (fun c => mapR (fun v => (fst c, v)) (scaler (snd c) r)) l)) (seqR (map (fun c => mapR (fun v => (fst c, v)) (scaler (snd c) r')) l')).
Proof.
  intros U C R F. induction F as [|x x' l l' (a & b & A & E & X) F IH]; cbn [map seqR]; [constructor|].
  assert (K := U a b c d _ _ _ _ A C X R). destruct (scaler (snd x) r), (scaler (snd x') r'); cbn [same_outcome mapR bindR] in *; try contradiction; [|exact K].
  destruct (seqR _), (seqR _) in IH |- *; cbn [same_outcome bindR] in *; try contradiction; [|exact IH]. constructor; [split; assumption|exact IH].
Qed.
Theorem C92_frame scaler c d df df' i n n' v v' : unit_free scaler -> 0 < c -> Forall2 column_in_some_unit df df' ->
  nth_error df i = Some (n, v) -> nth_error df' i = Some (n', v') -> Forall2 (cell_in_unit c d) v v' ->
  same_outcome (Forall2 (column_in_unit c d)) (scale_with scaler df (Z.of_nat i)) (scale_with scaler df' (Z.of_nat i)).
Proof.
  intros U C F N N' V. unfold scale_with. cbv zeta. rewrite (len2 _ _ _ F). replace (Z.of_nat i <? 0)%Z with false by (symmetry; apply Z.ltb_ge; lia). rewrite Nat2Z.id.
  assert (L : (i < List.length df)%nat) by (apply nth_error_Some; rewrite N; discriminate).
  replace ((0 <=? Z.of_nat i) && (Z.of_nat i <? Z.of_nat (List.length df)))%Z with true by (symmetry; apply andb_true_intro; split; [apply Z.leb_le|apply Z.ltb_lt]; lia).
  assert (K := nth_rel _ _ _ F i). rewrite N, N' in *. destruct K as (_ & _ & _ & E & _). cbn in E. subst n'.
  assert (K := scaled_rel scaler c d v v' _ _ U C V (filter_rel n df df' F)).
  destruct (seqR _), (seqR _) in K |- *; cbn [same_outcome bindR] in *; try contradiction; [|exact K]. apply insert_rel; [split; [reflexivity|exact V]|exact K].
Qed.
Print Assumptions C92_frame.
(* CDF matching is such a scaler, without bounds *)
Theorem C92_cdf_frames o : unit_free (cdf_match o None None).
Proof. intros a b c d src src' ref ref' A C S R. exact (C92_cdf_match a b c d o None None None None src src' ref ref' A C S R Logic.I Logic.I). Qed.

(* temperatures in degrees Celsius and Fahrenheit, soil moisture in percent and fractions *)
Example C92_ex :
  let o := mkCdf 4 None None true true in
  let src := [Some 10; Some 15; None; Some 20; Some 11; Some 30] in
  let src' := [Some 50; Some 59; None; Some 68; Some (259 # 5); Some 86] in
  let ref := [Some 20; Some 25; Some 31; None; Some 22; Some 40] in
  let ref' := [Some (1 # 5); Some (1 # 4); Some (31 # 100); None; Some (11 # 50); Some (2 # 5)] in
  Forall2 (cell_in_unit (9 # 5) 32) src src' /\ Forall2 (cell_in_unit (1 # 100) 0) ref ref' /\
  (exists out, cdf_match o (Some 35) None src ref = Ok out /\ map (option_map Qred) out = [Some 20; Some (965 # 38); None; Some (1145 # 38); Some (43 # 2); Some 35]) /\
  (exists out, cdf_match o (Some (7 # 20)) None src' ref' = Ok out /\ map (option_map Qred) out = [Some (1 # 5); Some (193 # 760); None; Some (229 # 760); Some (43 # 200); Some (7 # 20)]).
Proof.
  cbv zeta. split; [repeat (constructor; [vm_compute; try reflexivity; exact Logic.I|]); constructor|]. split; [repeat (constructor; [vm_compute; try reflexivity; exact Logic.I|]); constructor|].
  split; eexists; (split; [vm_compute; reflexivity|vm_compute; reflexivity]).
Qed.
