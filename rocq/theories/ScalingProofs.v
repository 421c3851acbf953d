(* Proofs about the scaling functions over rationals and the frame bookkeeping. *)
From Verif Require Import CdfSpec ScalingModel BaseProofs CdfProofs CdfFitProofs.
From Coq Require Import Lia Lqa ZifyBool ZifyNat Qabs.
Open Scope Q_scope.

(* ---------------------------------------------------------------- min_max *)

Lemma minmax_unfold src ref smin smax rmin rmax :
  q_minimum src = Ok smin -> q_maximum src = Ok smax -> q_minimum ref = Ok rmin -> q_maximum ref = Ok rmax ->
  min_max src ref = Ok (map (fun v => affine (qdiv_cell (v - smin) (smax - smin)) (rmax - rmin) rmin) src).
Proof. unfold min_max. intros -> -> -> ->. reflexivity. Qed.

Lemma min_le_max l a b : is_min l a -> is_max l b -> a <= b.
Proof. intros [(v & Hv & E) _] [_ M]. rewrite <- E. apply M, Hv. Qed.
Lemma non_constant_range l a b : is_min l a -> is_max l b -> non_constant l -> a < b.
Proof.
  intros [_ M1] [_ M2] (u & v & Hu & Hv & N).
  pose proof (M1 u Hu). pose proof (M2 u Hu). pose proof (M1 v Hv). pose proof (M2 v Hv).
  destruct (Qlt_le_dec a b) as [G|G]; [exact G|]. exfalso. apply N. lra.
Qed.
Lemma is_min_unique l a b : is_min l a -> is_min l b -> a == b.
Proof.
  intros [(v & Hv & E) M] [(w & Hw & F) N]. pose proof (M w Hw). pose proof (N v Hv). lra.
Qed.
Lemma is_max_unique l a b : is_max l a -> is_max l b -> a == b.
Proof.
  intros [(v & Hv & E) M] [(w & Hw & F) N]. pose proof (M w Hw). pose proof (N v Hv). lra.
Qed.

Lemma min_max_correct src ref : non_constant src -> ref <> [] ->
  exists ys, min_max src ref = Ok (map Some ys) /\
    (forall m, is_min ref m -> is_min ys m) /\ (forall m, is_max ref m -> is_max ys m) /\
    order_preserving (map Some src) (map Some ys).
Proof.
  intros NC Hr. assert (Hs : src <> []) by (destruct NC as (u & v & Hu & _); intros ->; exact Hu).
  destruct (q_minimum_spec src Hs) as (smin & E1 & M1). destruct (q_maximum_spec src Hs) as (smax & E2 & M2).
  destruct (q_minimum_spec ref Hr) as (rmin & E3 & M3). destruct (q_maximum_spec ref Hr) as (rmax & E4 & M4).
  pose proof (non_constant_range src smin smax M1 M2 NC) as L. pose proof (min_le_max ref rmin rmax M3 M4) as L'.
  set (f := fun v => (v - smin) / (smax - smin) * (rmax - rmin) + rmin).
  assert (Inv : 0 < / (smax - smin)) by (apply Qinv_lt_0_compat; lra).
  assert (Fm : forall u v, u <= v -> f u <= f v).
  { intros u v H. unfold f, Qdiv. assert ((u - smin) * / (smax - smin) <= (v - smin) * / (smax - smin)) by nra. nra. }
  assert (F0 : forall v, v == smin -> f v == rmin) by (intros v Ev; unfold f; rewrite Ev; field; lra).
  assert (F1 : forall v, v == smax -> f v == rmax) by (intros v Ev; unfold f; rewrite Ev; field; lra).
  exists (map f src). rewrite (minmax_unfold src ref smin smax rmin rmax E1 E2 E3 E4).
  assert (Eq : Qeq_bool (smax - smin) 0 = false).
  { destruct (Qeq_bool (smax - smin) 0) eqn:E; [|reflexivity]. apply Qeq_bool_iff in E. lra. }
  split; [|split; [|split]].
  - f_equal. rewrite map_map. apply map_ext. intros v. unfold qdiv_cell. rewrite Eq. reflexivity.
  - intros m Hm. pose proof (is_min_unique _ _ _ M3 Hm) as Em. destruct M1 as [(s & Is & Es) M1]. split.
    + exists (f s). split; [apply in_map; exact Is|]. rewrite (F0 s Es). exact Em.
    + intros y Hy. apply in_map_iff in Hy as (v & <- & Hv). rewrite <- Em, <- (F0 s Es). apply Fm. rewrite Es. apply M1, Hv.
  - intros m Hm. pose proof (is_max_unique _ _ _ M4 Hm) as Em. destruct M2 as [(s & Is & Es) M2]. split.
    + exists (f s). split; [apply in_map; exact Is|]. rewrite (F1 s Es). exact Em.
    + intros y Hy. apply in_map_iff in Hy as (v & <- & Hv). rewrite <- Em, <- (F1 s Es). apply Fm. rewrite Es. apply M2, Hv.
  - replace (map Some (map f src)) with (map (option_map f) (map Some src)) by (rewrite !map_map; reflexivity).
    apply order_preserving_map. exact Fm.
Qed.

Lemma min_max_constant src ref : src <> [] -> ref <> [] -> ~ non_constant src ->
  min_max src ref = Ok (map (fun _ => None) src).
Proof.
  intros Hs Hr NC.
  destruct (q_minimum_spec src Hs) as (smin & E1 & M1). destruct (q_maximum_spec src Hs) as (smax & E2 & M2).
  destruct (q_minimum_spec ref Hr) as (rmin & E3 & M3). destruct (q_maximum_spec ref Hr) as (rmax & E4 & M4).
  rewrite (minmax_unfold src ref smin smax rmin rmax E1 E2 E3 E4).
  assert (Eq : smin == smax).
  { destruct (Qeq_dec smin smax) as [G|G]; [exact G|]. exfalso. apply NC.
    destruct M1 as [(s & Is & Es) _], M2 as [(t & It & Et) _]. exists s, t. split; [exact Is|]. split; [exact It|].
    intros H. apply G. rewrite <- Es, <- Et. exact H. }
  f_equal. apply map_ext. intros v. unfold qdiv_cell.
  assert (H0 : Qeq_bool (smax - smin) 0 = true) by (apply Qeq_bool_iff; lra). rewrite H0. reflexivity.
Qed.

(* ----------------------------------------------------------------- linreg *)

Lemma qlen_pos {A} (l : list A) : l <> [] -> 0 < qlen l.
Proof. intros H. apply (qnat_pos (List.length l)). destruct l; [congruence|cbn; lia]. Qed.

Lemma qsum_affine a b l : qsum (map (fun v => a * v + b) l) == a * qsum l + b * qlen l.
Proof.
  induction l as [|v l IH]; [unfold qlen; cbn; ring|]. cbn [map qsum]. rewrite IH. unfold qlen.
  change (List.length (v :: l)) with (Datatypes.S (List.length l)).
  rewrite (qnat_S (List.length l) : inject_Z (Z.of_nat (Datatypes.S (List.length l))) == inject_Z (Z.of_nat (List.length l)) + 1).
  ring.
Qed.

Lemma qmean_affine a b l : l <> [] -> qmean (map (fun v => a * v + b) l) == a * qmean l + b.
Proof.
  intros H. pose proof (qlen_pos l H). unfold qmean. rewrite qsum_affine.
  unfold qlen at 2. rewrite map_length. fold (qlen l). field. lra.
Qed.

Lemma linreg_ok src ref s i : linreg_params src ref = Ok (s, i) -> src <> [] /\ i = qmean ref - s * qmean src.
Proof.
  unfold linreg_params. destruct (Nat.eqb_spec (List.length src) (List.length ref)); [|discriminate].
  destruct (Qeq_bool _ _) eqn:E; [discriminate|]. intros H.
  assert (Hi : i = qmean ref - s * qmean src) by congruence. split; [|exact Hi].
  intros ->. cbn in E. discriminate.
Qed.

Lemma linreg_mean src ref s i : linreg_params src ref = Ok (s, i) ->
  exists ys, linreg src ref = Ok (map Some ys) /\ List.length ys = List.length src /\
    qmean ys == qmean ref + (Qabs s - s) * qmean src.
Proof.
  intros H. destruct (linreg_ok _ _ _ _ H) as [Hs Hi].
  exists (linreg_stored_params src s i). unfold linreg. rewrite H. split; [reflexivity|].
  unfold linreg_stored_params. split; [apply map_length|].
  rewrite qmean_affine by exact Hs. rewrite Hi. ring.
Qed.

(* the sign of the slope is the sign of the covariance sum *)
Lemma linreg_mean_nonneg src ref s i : linreg_params src ref = Ok (s, i) -> 0 <= s ->
  exists ys, linreg src ref = Ok (map Some ys) /\ List.length ys = List.length src /\ qmean ys == qmean ref.
Proof.
  intros H Hs. destruct (linreg_mean src ref s i H) as (ys & E & L & M). exists ys. split; [exact E|]. split; [exact L|].
  rewrite M. rewrite (Qabs_pos s Hs). ring.
Qed.

Lemma linreg_mean_neg src ref s i : linreg_params src ref = Ok (s, i) -> s < 0 -> ~ qmean src == 0 ->
  exists ys, linreg src ref = Ok (map Some ys) /\ ~ qmean ys == qmean ref.
Proof.
  intros H Hs Hm. destruct (linreg_mean src ref s i H) as (ys & E & L & M). exists ys. split; [exact E|].
  intros G. rewrite M in G. rewrite (Qabs_neg s) in G by lra. apply Hm.
  assert (P : - (2) * s * qmean src == 0) by (assert (X : qmean ref + (- s - s) * qmean src - qmean ref == 0) by (rewrite G; ring); rewrite <- X; ring).
  apply Qmult_integral in P as [P|P]; [lra|exact P].
Qed.

(* ------------------------------------------------------------------ clamp *)

Lemma clamp_spec hi lo c : match lo, hi with Some a, Some b => a <= b | _, _ => True end ->
  match clamp_below lo (clamp_above hi c) with
  | None => c = None
  | Some y => exists v, c = Some v /\
      (match lo with Some a => a <= y | None => True end) /\ (match hi with Some b => y <= b | None => True end) /\
      ((match lo with Some a => a <= v | None => True end) -> (match hi with Some b => v <= b | None => True end) -> y = v)
  end.
Proof.
  intros H. destruct c as [v|]; [|destruct hi, lo; cbn; reflexivity].
  destruct hi as [b|], lo as [a|]; cbn [clamp_above clamp_below].
  - destruct (Qle_bool v b) eqn:E1; cbn [clamp_below].
    + apply Qle_bool_iff in E1. destruct (Qle_bool a v) eqn:E2.
      * apply Qle_bool_iff in E2. exists v. auto.
      * apply Qle_bool_false in E2. exists v. split; [reflexivity|]. split; [lra|]. split; [lra|]. intros; lra.
    + apply Qle_bool_false in E1. destruct (Qle_bool a b) eqn:E2.
      * apply Qle_bool_iff in E2. exists v. split; [reflexivity|]. split; [lra|]. split; [lra|]. intros; lra.
      * apply Qle_bool_false in E2. lra.
  - destruct (Qle_bool v b) eqn:E1.
    + apply Qle_bool_iff in E1. exists v. auto.
    + apply Qle_bool_false in E1. exists v. split; [reflexivity|]. split; [exact I|]. split; [lra|]. intros; lra.
  - destruct (Qle_bool a v) eqn:E2.
    + apply Qle_bool_iff in E2. exists v. auto.
    + apply Qle_bool_false in E2. exists v. split; [reflexivity|]. split; [lra|]. split; [exact I|]. intros; lra.
  - exists v. auto.
Qed.

Lemma cdf_match_range o hi lo src ref out : match lo, hi with Some a, Some b => a <= b | _, _ => True end ->
  cdf_match o hi lo src ref = Ok out ->
  exists raw, cdf_match o None None src ref = Ok raw /\ List.length out = List.length raw /\
    forall k c, nth_error raw k = Some c ->
      match c with
      | None => nth_error out k = Some None
      | Some v => exists y, nth_error out k = Some (Some y) /\
          (match lo with Some a => a <= y | None => True end) /\ (match hi with Some b => y <= b | None => True end) /\
          ((match lo with Some a => a <= v | None => True end) -> (match hi with Some b => v <= b | None => True end) -> y = v)
      end.
Proof.
  intros H. unfold cdf_match. destruct (cdf_fit o src ref) as [t|e]; [|discriminate]. cbn [mapR]. intros E.
  assert (E' : out = map (fun c => clamp_below lo (clamp_above hi c)) (cdf_predict t src)) by congruence. subst out.
  exists (cdf_predict t src). split.
  - f_equal. rewrite <- (map_id (cdf_predict t src)) at 2. apply map_ext. intros c; destruct c; reflexivity.
  - split; [apply map_length|]. intros k c Hk. rewrite nth_error_map, Hk. cbn [option_map].
    pose proof (clamp_spec hi lo c H) as C. destruct (clamp_below lo (clamp_above hi c)) as [y|].
    + destruct C as (v & -> & C). exists y. split; [reflexivity|exact C].
    + subst c. reflexivity.
Qed.

(* -------------------------------------------------------------- bookkeeping *)

Lemma insert_at_nth {A} i (a : A) l j : (i <= List.length l)%nat ->
  nth_error (insert_at i a l) j =
  if Nat.ltb j i then nth_error l j else if Nat.eqb j i then Some a else nth_error l (j - 1).
Proof.
  revert l j; induction i as [|i IH]; intros l j H.
  - cbn [insert_at]. destruct j as [|j]; [reflexivity|]. cbn. rewrite Nat.sub_0_r. reflexivity.
  - destruct l as [|x l]; cbn [List.length] in H; [lia|]. cbn [insert_at]. destruct j as [|j]; [reflexivity|].
    cbn [nth_error]. rewrite IH by lia.
    change (Nat.ltb (Datatypes.S j) (Datatypes.S i)) with (Nat.ltb j i).
    change (Nat.eqb (Datatypes.S j) (Datatypes.S i)) with (Nat.eqb j i).
    destruct (Nat.ltb_spec j i); [reflexivity|]. destruct (Nat.eqb_spec j i); [reflexivity|].
    destruct j as [|j]; [lia|]. cbn. rewrite Nat.sub_0_r. reflexivity.
Qed.

Lemma insert_at_mid {A} (l1 l2 : list A) a : insert_at (List.length l1) a (l1 ++ l2) = l1 ++ a :: l2.
Proof. induction l1 as [|x l1 IH]; [destruct l2; reflexivity|]. cbn. rewrite IH. reflexivity. Qed.

Lemma drop_named (l1 l2 : frame) r v : NoDup (map fst (l1 ++ (r, v) :: l2)) ->
  filter (fun c => negb (String.eqb (fst c) r)) (l1 ++ (r, v) :: l2) = l1 ++ l2.
Proof.
  rewrite map_app. cbn [map fst]. intros N. apply NoDup_remove_2 in N.
  rewrite filter_app. cbn [filter fst]. rewrite String.eqb_refl. cbn [negb].
  assert (K : forall l : frame, (forall x, In x (map fst l) -> x <> r) -> filter (fun c => negb (String.eqb (fst c) r)) l = l).
  { induction l as [|[n w] l IH]; intros H; [reflexivity|]. cbn [filter fst].
    assert (n <> r) by (apply H; left; reflexivity). apply String.eqb_neq in H0. rewrite H0. cbn. f_equal. apply IH. intros x Hx. apply H. right; exact Hx. }
  rewrite !K; [reflexivity| |]; intros x Hx E; subst x; apply N, in_or_app; [right|left]; exact Hx.
Qed.

Section ScaleProofs.
Variable scaler : list cell -> list cell -> res (list cell).

Lemma scale_seq (rv : list cell) (l : frame) : (forall c, In c l -> exists v, scaler (snd c) rv = Ok v) ->
  exists out, seqR (map (fun c => mapR (fun v => (fst c, v)) (scaler (snd c) rv)) l) = Ok out /\
    Forall2 (fun c d => fst d = fst c /\ scaler (snd c) rv = Ok (snd d)) l out.
Proof.
  induction l as [|c l IH]; intros H; [exists []; split; [reflexivity|constructor]|].
  destruct (H c (or_introl eq_refl)) as [v Hv]. destruct IH as (out & E & F); [intros d Hd; apply H; right; exact Hd|].
  exists ((fst c, v) :: out). cbn [map seqR]. rewrite Hv. cbn [mapR bindR]. rewrite E. split; [reflexivity|].
  constructor; [cbn; auto|exact F].
Qed.

Lemma Forall2_len {A B} (R : A -> B -> Prop) l m : Forall2 R l m -> List.length l = List.length m.
Proof. induction 1; cbn; congruence. Qed.
Lemma Forall2_app_split {A B} (R : A -> B -> Prop) l1 l2 m : Forall2 R (l1 ++ l2) m ->
  exists m1 m2, m = m1 ++ m2 /\ Forall2 R l1 m1 /\ Forall2 R l2 m2.
Proof. intros H. apply Forall2_app_inv_l in H as (m1 & m2 & A1 & A2 & E). exists m1, m2. auto. Qed.

Lemma scale_with_correct (df : frame) i r rv :
  NoDup (map fst df) -> nth_error df i = Some (r, rv) ->
  (forall n v, In (n, v) df -> n <> r -> exists w, scaler v rv = Ok w) ->
  exists out, scale_with scaler df (Z.of_nat i) = Ok out /\
    map fst out = map fst df /\ nth_error out i = Some (r, rv) /\
    forall j n v, j <> i -> nth_error df j = Some (n, v) ->
      exists w, scaler v rv = Ok w /\ nth_error out j = Some (n, w).
Proof.
  intros N Hi Hs. destruct (nth_error_split _ _ Hi) as (l1 & l2 & Edf & L1).
  assert (Hil : (i < List.length df)%nat) by (apply nth_error_Some; congruence).
  assert (Hs' : forall c, In c (l1 ++ l2) -> exists v, scaler (snd c) rv = Ok v).
  { intros [n v] Hc. cbn. apply (Hs n v); [rewrite Edf; apply in_app_or in Hc as [Hc|Hc]; apply in_or_app; [left|right; right]; exact Hc|].
    rewrite Edf, map_app in N. cbn in N. apply NoDup_remove_2 in N. intros ->. apply N. rewrite <- map_app. 
    apply (in_map fst) in Hc. exact Hc. }
  destruct (scale_seq rv _ Hs') as (sc & E & F).
  destruct (Forall2_app_split _ _ _ _ F) as (m1 & m2 & -> & F1 & F2).
  pose proof (Forall2_len _ _ _ F1) as Lm.
  exists (m1 ++ (r, rv) :: m2). unfold scale_with.
  assert (G1 : (Z.of_nat i <? 0)%Z = false) by lia. rewrite G1.
  assert (G2 : ((0 <=? Z.of_nat i) && (Z.of_nat i <? Z.of_nat (List.length df)))%Z = true) by lia. rewrite G2.
  rewrite Nat2Z.id, Hi. rewrite Edf at 1. rewrite drop_named by (rewrite <- Edf; exact N). rewrite E. cbn [bindR].
  split; [f_equal; rewrite <- L1, Lm; apply insert_at_mid|].
  assert (Names : forall l m, Forall2 (fun c d : string * list cell => fst d = fst c /\ scaler (snd c) rv = Ok (snd d)) l m -> map fst m = map fst l).
  { induction 1 as [|c d l m [A _] _ IH]; cbn; [reflexivity|]. rewrite A, IH. reflexivity. }
  split; [rewrite Edf, !map_app; cbn; rewrite (Names _ _ F1), (Names _ _ F2); reflexivity|].
  split; [rewrite nth_error_app2 by lia; replace (i - List.length m1)%nat with 0%nat by lia; reflexivity|].
  assert (Nth : forall l m, Forall2 (fun c d : string * list cell => fst d = fst c /\ scaler (snd c) rv = Ok (snd d)) l m ->
    forall k n v, nth_error l k = Some (n, v) -> exists w, scaler v rv = Ok w /\ nth_error m k = Some (n, w)).
  { induction 1 as [|c d l m [A B] _ IH]; intros k n v Hk; [destruct k; discriminate|].
    destruct k as [|k]; [|apply IH; exact Hk]. cbn in Hk. injection Hk as ->. destruct d as [n' w]. cbn in *. subst n'.
    exists w. auto. }
  intros j n v Hj Hn. rewrite Edf in Hn. destruct (Nat.lt_ge_cases j i) as [Lt|Ge].
  - rewrite nth_error_app1 in Hn by lia. rewrite nth_error_app1 by lia. apply (Nth _ _ F1); exact Hn.
  - rewrite nth_error_app2 in Hn by lia. rewrite nth_error_app2 by lia. rewrite <- Lm, L1 in *.
    destruct (j - i)%nat as [|k] eqn:Ek; [lia|]. cbn [nth_error] in *. apply (Nth _ _ F2); exact Hn.
Qed.

Lemma scale_with_negative (df : frame) i : (i < 0)%Z -> exists e, scale_with scaler df i = Err e.
Proof.
  intros H. unfold scale_with. rewrite (proj2 (Z.ltb_lt i 0) H).
  destruct (_ && _)%bool; [|eexists; reflexivity]. destruct (nth_error df _) as [[r rv]|]; [|eexists; reflexivity].
  destruct (seqR _); cbn; eexists; reflexivity.
Qed.
Lemma scale_with_out_of_range (df : frame) i : (Z.of_nat (List.length df) <= i)%Z -> scale_with scaler df i = Err EIndex.
Proof.
  intros H. unfold scale_with. assert (G : (i <? 0)%Z = false) by lia. rewrite G.
  assert (G' : ((0 <=? i) && (i <? Z.of_nat (List.length df)))%Z = false) by lia. rewrite G'. reflexivity.
Qed.

Lemma lookup_set df n v m : lookup (set_column df n v) m = if String.eqb n m then Some v else lookup df m.
Proof.
  unfold lookup. induction df as [|[k w] df IH]; cbn.
  - destruct (String.eqb_spec n m); reflexivity.
  - destruct (String.eqb_spec k n) as [->|Nk]; cbn.
    + destruct (String.eqb_spec n m); reflexivity.
    + destruct (String.eqb_spec k m) as [->|Nm].
      * destruct (String.eqb_spec n m) as [->|]; [congruence|]. reflexivity.
      * exact IH.
Qed.
Lemma set_column_names df n v : map fst (set_column df n v) =
  if existsb (String.eqb n) (map fst df) then map fst df else map fst df ++ [n].
Proof.
  induction df as [|[k w] df IH]; [reflexivity|]. cbn. rewrite (String.eqb_sym n k).
  destruct (String.eqb_spec k n) as [->|]; cbn; [reflexivity|]. rewrite IH. destruct (existsb _ _); reflexivity.
Qed.
End ScaleProofs.
