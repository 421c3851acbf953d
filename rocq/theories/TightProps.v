(* Theorems that pin down details left open by the others: the single bin of CDF matching (C22), the
   defaults of add_scaled (C21), the layouts of the pairwise calculators (C58, C59), the check of
   the calculators (C32), the reported codes (C33), the climatology column (C70) and the name of
   the time variable (C69). *)
From Coq Require Import Lqa Lia Ascii.
From Verif Require Import Base BaseProofs CdfModel CdfSpec CdfProofs ScalingModel ScalingProofs.
Import ListNotations.
Open Scope Q_scope.

(* ---- C22: least squares through the origin ---- *)
Definition square_error (a : Q) (l m : list Q) : Q := qsum (map2 (fun x y => (y - a * x) * (y - a * x)) l m).

Lemma square_error_expand a l : forall m, List.length l = List.length m ->
  square_error a l m == dotq m m - 2 * a * dotq l m + a * a * dotq l l.
Proof.
  unfold square_error, dotq. induction l as [|x l IH]; intros [|y m] H; try discriminate; cbn [map2 qsum]; [ring|].
  injection H as H. rewrite (IH m H). ring.
Qed.
Lemma q_sq (q : Q) : 0 <= q * q.
Proof. unfold Qle. cbn. rewrite Z.mul_1_r. nia. Qed.
Lemma dot_nonneg l : 0 <= dotq l l.
Proof. unfold dotq. induction l as [|x l IH]; cbn [map2 qsum]; [lra|]. nra. Qed.
Lemma dot_zero l : dotq l l == 0 -> Forall (fun x => x == 0) l.
Proof.
  unfold dotq. induction l as [|x l IH]; intros H; constructor; cbn [map2 qsum] in H; pose proof (dot_nonneg l) as D; unfold dotq in D.
  - assert (E : x * x == 0) by nra. apply Qmult_integral in E. tauto.
  - apply IH. nra.
Qed.
Lemma dot_zero_l l : Forall (fun x => x == 0) l -> forall m, dotq l m == 0.
Proof. unfold dotq. induction 1 as [|x l H _ IH]; intros [|y m]; cbn [map2 qsum]; try reflexivity. rewrite IH, H. ring. Qed.

Theorem C22_least_squares l m a : lstsq1 l m = Ok a ->
  (forall b, square_error a l m <= square_error b l m) /\ (Forall (fun x => x == 0) l -> a == 0).
Proof.
  unfold lstsq1. destruct (Nat.eqb_spec (List.length l) (List.length m)) as [L|]; [|discriminate]. intros E.
  assert (E' : a = (if Qeq_bool (dotq l l) 0 then 0 else dotq l m / dotq l l)) by congruence. clear E. split.
  - intros b. rewrite !square_error_expand by exact L. destruct (Qeq_bool (dotq l l) 0) eqn:Z.
    + apply Qeq_bool_iff in Z. subst a. rewrite Z, (dot_zero_l l (dot_zero l Z) m). lra.
    + assert (N : ~ dotq l l == 0) by (intros C; apply Qeq_bool_iff in C; congruence). pose proof (dot_nonneg l) as D.
      assert (P : 0 < dotq l l) by (apply Qle_lteq in D as [D|D]; [exact D|exfalso; apply N; symmetry; exact D]).
      assert (K : a * dotq l l == dotq l m) by (rewrite E'; field; exact N). set (d := dotq l l) in *. rewrite <- K.
      assert (SQ : 0 <= (b - a) * (b - a) * d) by (apply Qmult_le_0_compat; [apply q_sq|lra]). clear - SQ. clearbody d. generalize (dotq m m). intros k. apply Qle_minus_iff. apply Qle_minus_iff in SQ. setoid_replace (k - 2 * b * (a * d) + b * b * d + - (k - 2 * a * (a * d) + a * a * d)) with ((b - a) * (b - a) * d + - 0) by ring. exact SQ.
  - intros F. rewrite E'. destruct (Qeq_bool (dotq l l) 0) eqn:Z; [reflexivity|].
    exfalso. assert (C : dotq l l == 0) by apply (dot_zero_l l F). apply Qeq_bool_iff in C. congruence.
Qed.
Example C22_ex_least : lstsq1 [1; 2; 3] [2; 3; 7] = Ok (29 # 14) /\ lstsq1 [0; 0] [1; 2] = Ok 0.
Proof. split; vm_compute; reflexivity. Qed.
Print Assumptions C22_least_squares.

(* a single bin with linear edges: the regression line of the reference on the source, for every
   value, inside or outside the range *)
Lemma vals_some (l : list Q) : vals (map Some l) = l.
Proof. induction l as [|x l IH]; [reflexivity|]. cbn. f_equal. exact IH. Qed.
Lemma vals_app (l m : list cell) : vals (l ++ m) = (vals l ++ vals m)%list.
Proof. induction l as [|[x|] l IH]; cbn; [reflexivity| |]; rewrite IH; reflexivity. Qed.
Lemma vals_none n : vals (repeat (@None Q) n) = [].
Proof. induction n; [reflexivity|assumption]. Qed.
Lemma vals_pad n (l : list Q) : vals (pad n l) = l.
Proof. unfold pad. rewrite vals_app, vals_some, vals_none. apply app_nil_r. Qed.
Lemma mask_full (xs ys : list Q) : List.length xs = List.length ys ->
  map2 (fun a b : cell => (notna a && notna b)%bool) (map Some xs) (map Some ys) = repeat true (List.length xs).
Proof. revert ys. induction xs as [|x xs IH]; intros [|y ys] H; try discriminate; [reflexivity|]. cbn. f_equal. apply IH. injection H as H. exact H. Qed.
Lemma select_full {A} (l : list A) : mask_select (repeat true (List.length l)) l = l.
Proof. unfold mask_select. induction l as [|x l IH]; [reflexivity|]. cbn. f_equal. exact IH. Qed.
Lemma fit_pairs o (xs ys : list Q) : List.length xs = List.length ys ->
  let both := Nat.eqb (List.length (map Some xs)) (List.length (map Some ys)) && c_combine o in
  let mask := map2 (fun a b : cell => notna a && notna b)%bool (map Some xs) (map Some ys) in
  (if both then vals (mask_select mask (map Some xs)) else vals (map Some xs)) = xs /\
  (if both then vals (mask_select mask (map Some ys)) else vals (map Some ys)) = ys.
Proof.
  intros L both mask. unfold mask. rewrite (mask_full xs ys L).
  assert (E1 : mask_select (repeat true (List.length xs)) (map (@Some Q) xs) = map (@Some Q) xs) by (rewrite <- (map_length (@Some Q) xs) at 1; apply select_full).
  assert (E2 : mask_select (repeat true (List.length xs)) (map (@Some Q) ys) = map (@Some Q) ys) by (rewrite L, <- (map_length (@Some Q) ys) at 1; apply select_full).
  unfold cell in *. rewrite E1, E2. destruct both; rewrite !vals_some; split; reflexivity.
Qed.
Lemma sort_length l : List.length (q_sort l) = List.length l.
Proof.
  induction l as [|x l IH]; [reflexivity|]. cbn [q_sort fold_right]. fold (q_sort l). cbn [List.length]. rewrite <- IH. generalize (q_sort l). intros m.
  induction m as [|y m IHm]; [reflexivity|]. cbn. destruct (Qle_bool x y); [reflexivity|]. cbn. rewrite IHm. reflexivity.
Qed.

Definition deviations (l : list Q) : list Q := map (fun v => v - qmean l) l.
Theorem C22_single_bin_is_regression o (xs ys : list Q) p Z :
  xs <> [] -> List.length xs = List.length ys -> c_linear_edges o = true -> calc_percentiles o (List.length xs) = Ok (p, 1%nat) ->
  exists t slope, cdf_fit o (map Some xs) (map Some ys) = Ok t /\
    (forall b, square_error slope (deviations xs) (deviations ys) <= square_error b (deviations xs) (deviations ys)) /\
    (Forall (fun x => x == qmean xs) xs -> slope == 0) /\
    Forall2 (fun z r => match z, r with
                        | Some v, Some w => w == qmean ys + slope * (v - qmean xs)
                        | None, None => True
                        | _, _ => False
                        end) Z (cdf_predict t Z).
Proof.
  intros NE L LE CP. destruct (fit_pairs o xs ys L) as [PX PY]. unfold cdf_fit. cbn zeta in *. unfold cell in *. rewrite PX, PY. rewrite !sort_length, <- L, Nat.min_id, CP.
  cbn [bindR]. rewrite Nat.eqb_refl, LE. cbn [andb]. unfold linreg_percentiles.
  destruct (lstsq1 (map (fun v => v - qmean xs) xs) (map (fun v => v - qmean ys) ys)) as [s|] eqn:ES.
  2:{ unfold lstsq1 in ES. rewrite !map_length, L, Nat.eqb_refl in ES. discriminate. }
  cbn [bindR]. destruct xs as [|x0 xr] eqn:EX; [contradiction|]. rewrite <- EX in *. clear x0 xr EX NE. eexists. exists s. split; [reflexivity|]. destruct (C22_least_squares _ _ _ ES) as [LS0 LZ]. split; [exact LS0|]. split.
  - intros F. apply LZ. apply Forall_forall. intros d I. apply in_map_iff in I as (v & <- & I). rewrite Forall_forall in F. rewrite (F v I). ring.
  - unfold cdf_predict. cbn [x_perc y_perc fst snd]. rewrite !vals_pad.
    set (i := qmean ys - qmean xs * s).
    assert (SP : spline [0; 1] [i; i + s] = Ok (lin_interp (0, i) [(1, i + s)])) by reflexivity. rewrite SP.
    assert (EV : forall v, lin_interp (0, i) [(1, i + s)] v == qmean ys + s * (v - qmean xs)).
    { intros v. cbn [lin_interp]. unfold seg. cbn [fst snd]. unfold i. field. }
    destruct (existsb notna Z) eqn:EN.
    + clear EN. induction Z as [|[z|] Z IH]; constructor; try exact IH; cbn [option_map]; [apply EV|exact I].
    + induction Z as [|[z|] Z IH]; [constructor|discriminate EN|]. constructor; [exact I|]. apply IH. exact EN.
Qed.
Example C22_ex_single : exists p, calc_percentiles (mkCdf 100 None (Some 20%Z) true true) 4 = Ok (p, 1%nat) /\
  exists t, cdf_fit (mkCdf 100 None (Some 20%Z) true true) (map Some [1; 2; 3; 6]) (map Some [9; 5; 2; 0]) = Ok t /\
    map (option_map Qred) (cdf_predict t [Some 3; None; Some 10]) = [Some 4; None; Some (-(15 # 2))].
Proof. eexists. split; [vm_compute; reflexivity|]. eexists. split; vm_compute; reflexivity. Qed.
Print Assumptions C22_single_bin_is_regression.

(* ---- C21: without labels the first column is scaled to the second ---- *)
Theorem C21_default_labels scaler a x b y (df : frame) method :
  add_scaled scaler ((a, x) :: (b, y) :: df) method None None = add_scaled scaler ((a, x) :: (b, y) :: df) method (Some a) (Some b).
Proof. reflexivity. Qed.
Theorem C21_too_few_columns scaler (df : frame) method : (List.length df < 2)%nat -> add_scaled scaler df method None None = Err EIndex.
Proof. destruct df as [|c [|d df]]; cbn; intros H; try reflexivity. exfalso. lia. Qed.
Example C21_ex_default : add_scaled (fun s r => Ok (map2 (fun a b => a) r s)) [("a", [Some 1]); ("b", [Some 2]); ("c", [Some 3])]%string "m" None None =
  Ok [("a", [Some 1]); ("b", [Some 2]); ("c", [Some 3]); ("a_scaled_m", [Some 2])]%string.
Proof. vm_compute. reflexivity. Qed.
Print Assumptions C21_default_labels.
Print Assumptions C21_too_few_columns.
