(* Extended collocation in other units. *)
From Coq Require Import Reals Qreals Lia Lra.
From Verif Require Import Base NamesModel GroupingModel MatchersModel RStats RStatsProofs TcolModel TcolSpec TcolProofs TcolProofs2 DfMetricsModel EcolModel EcolSpec EcolProofs EcolProofs2 EcolProofs3 EcolProofs4 EcolProofs5 EcolProofs6 EcolProofs7 EcolUnitSpec.
Import ListNotations.
Open Scope R_scope.

(* ---- covariances ---- *)
Lemma cov1_affine {A} (l : list A) (F G : A -> nat -> R) i j a b a' b' : l <> [] ->
  (forall x, In x l -> G x i = a * F x i + b) -> (forall x, In x l -> G x j = a' * F x j + b') ->
  cov1 (map G l) i j = a * a' * cov1 (map F l) i j.
Proof.
  intros NE H1 H2. unfold cov1. rewrite !map_map.
  assert (M : forall k a b, (forall x, In x l -> G x k = a * F x k + b) -> rmean (map (fun x => G x k) l) = a * rmean (map (fun x => F x k) l) + b).
  { intros k c d H. rewrite (rmean_ext (fun x => G x k) (fun x => c * F x k + d)) by exact H.
    rewrite <- (rmean_affine c d) by (destruct l; [congruence|discriminate]). rewrite map_map. reflexivity. }
  rewrite (M i a b H1), (M j a' b' H2).
  rewrite (rsum_ext _ (fun x => (a * a') * ((F x i - rmean (map (fun x => F x i) l)) * (F x j - rmean (map (fun x => F x j) l))))).
  2:{ intros x I. rewrite (H1 x I), (H2 x I). ring. }
  rewrite rsum_scal. unfold rlen. rewrite !map_length. unfold Rdiv. ring.
Qed.

Lemma units_len u t f g : in_units u t f g -> List.length g = List.length f.
Proof. intros [N _]. rewrite <- (map_length fst g), N. apply map_length. Qed.
Lemma cells_nth f s j : nth j (cells f s) None = nth s (col f j) None.
Proof.
  unfold cells, col. revert j. induction f as [|c f IH]; intros [|j]; cbn; try reflexivity; [destruct s; reflexivity|destruct s; reflexivity|apply IH].
Qed.
Lemma units_cell u t f g s j : in_units u t f g -> nth j (cells g s) None = omap (fun q => (u j * q + t j)%Q) (nth j (cells f s) None).
Proof. intros [_ C]. rewrite !cells_nth, C. change (@None Q) with (omap (fun q => (u j * q + t j)%Q) None) at 1. apply map_nth. Qed.
Lemma forallb_nth (l m : list cell) : List.length l = List.length m -> (forall j, notna (nth j l None) = notna (nth j m None)) -> forallb notna l = forallb notna m.
Proof.
  revert m. induction l as [|x l IH]; intros [|y m] L H; try discriminate; [reflexivity|]. cbn. rewrite (IH m); [|cbn in L; lia|intros j; apply (H (S j))]. pose proof (H 0%nat) as H0. cbn [nth] in H0. rewrite H0. reflexivity.
Qed.
Lemma units_kept u t f g : in_units u t f g -> kept g = kept f.
Proof.
  intros U. pose proof (units_len _ _ _ _ U) as L. unfold kept.
  assert (NR : nrows g = nrows f).
  { destruct U as [_ C]. specialize (C 0%nat). destruct f as [|c f], g as [|c' g]; try discriminate; [reflexivity|]. unfold col in C. cbn [map nth] in C. cbn [nrows]. rewrite C. apply map_length. }
  rewrite NR. apply filter_ext. intros s. rewrite !complete_cells. apply forallb_nth.
  - unfold cells. rewrite !map_length. exact L.
  - intros j. rewrite (units_cell u t f g s j U). destruct (nth j (cells f s) None); reflexivity.
Qed.
Lemma units_rectangular u t f g : in_units u t f g -> rectangular f -> rectangular g.
Proof.
  intros U RE c I. apply (In_nth _ _ (""%string, [])) in I as (i & Hi & <-). rewrite <- col_nth. pose proof (units_len _ _ _ _ U) as L. destruct U as [_ C].
  assert (E : snd (hd (""%string, []) g) = col g 0) by (rewrite col_nth; destruct g; reflexivity). rewrite E, !C, !map_length.
  rewrite !col_nth. assert (E2 : nth 0 f (""%string, []) = hd (""%string, []) f) by (destruct f; reflexivity). rewrite E2. apply RE, nth_In. lia.
Qed.
Lemma units_cov u t f g : in_units u t f g -> kept f <> [] ->
  forall i j, cov1 (map row_of (complete_rows g)) i j = Q2R (u i) * Q2R (u j) * cov1 (map row_of (complete_rows f)) i j.
Proof.
  intros U NE i j. rewrite !complete_kept, (units_kept u t f g U), !map_map.
  assert (H : forall k s, In s (kept f) -> row_of (cells g s) k = Q2R (u k) * row_of (cells f s) k + (if Nat.ltb k (List.length f) then Q2R (t k) else 0)).
  { intros k s I. unfold row_of. rewrite (units_cell u t f g s k U). apply filter_In in I as [_ I]. rewrite complete_cells, forallb_forall in I.
    destruct (Nat.ltb_spec k (List.length f)) as [Hk|Hk].
    - assert (J : In (nth k (cells f s) None) (cells f s)) by (apply nth_In; unfold cells; rewrite map_length; exact Hk). apply I in J.
      destruct (nth k (cells f s) None) as [q|]; [|discriminate]. cbn [omap]. rewrite Q2R_plus, Q2R_mult. ring.
    - rewrite (nth_overflow (cells f s)) by (unfold cells; rewrite map_length; exact Hk). cbn [omap]. ring. }
  apply (cov1_affine (kept f) (fun s => row_of (cells f s)) (fun s => row_of (cells g s)) i j _ _ _ _ NE (H i) (H j)).
Qed.

(* ---- the estimates ---- *)
Section Units.
Variables (w : nat -> R) (C C' : matrix) (n : nat).
Hypotheses (W : forall i, (i < n)%nat -> w i <> 0) (CC : forall i j, C' i j = w i * w j * C i j).

Lemma comb2_elems l ab : In ab (comb2 l) -> In (fst ab) l /\ In (snd ab) l.
Proof.
  induction l as [|x l IH]; [intros []|]. cbn [comb2]. rewrite in_app_iff. intros [I|I].
  - apply in_map_iff in I as (y & <- & I). split; [left; reflexivity|right; exact I].
  - destruct (IH I). split; right; assumption.
Qed.
Lemma perm2_elems l ab : In ab (perm2 l) -> In (fst ab) l /\ In (snd ab) l.
Proof.
  unfold perm2. rewrite in_flat_map. intros (a & Ia & I). apply in_map_iff in I as (b & <- & I). apply filter_In in I as [I _]. split; assumption.
Qed.
Lemma other_lt p k : In k (filter p (seq 0 n)) -> (k < n)%nat.
Proof. intros I. apply filter_In in I as [I _]. apply in_seq in I. lia. Qed.
Lemma ratio_units x y a b : (a < n)%nat -> (b < n)%nat -> C' x a * C' y b / C' a b = w x * w y * (C x a * C y b / C a b).
Proof.
  intros Ha Hb. rewrite !CC. pose proof (W a Ha). pose proof (W b Hb). destruct (Req_dec (C a b) 0) as [Z|Z].
  - rewrite Z, Rmult_0_r. unfold Rdiv. rewrite RinvN0 || rewrite Rinv_0. ring.
  - field. repeat split; assumption.
Qed.
Lemma mean_times {A} (a : R) (f : A -> R) l : rmean (map (fun x => a * f x) l) = a * rmean (map f l).
Proof. unfold rmean. rewrite rsum_scal, !rlen_map. unfold Rdiv. ring. Qed.
Lemma sig_est_units co c : sig_est n C' co c = w c * w c * sig_est n C co c.
Proof.
  unfold sig_est, signal_obs. rewrite !map_map. cbn [snd]. rewrite <- mean_times. apply rmean_ext. intros ab I. apply filter_In in I as [I _]. apply comb2_elems in I as [I1 I2].
  apply ratio_units; eapply other_lt; eassumption.
Qed.
Lemma cross_est_units co i : cross_est n C' co i = w (fst (nth i co (0, 0)%nat)) * w (snd (nth i co (0, 0)%nat)) * cross_est n C co i.
Proof.
  unfold cross_est, cross_obs. rewrite !map_map. cbn [snd]. rewrite <- mean_times. apply rmean_ext. intros ab I. apply filter_In in I as [I _]. apply perm2_elems in I as [I1 I2].
  apply ratio_units; eapply other_lt; eassumption.
Qed.
Lemma zerob_units a b : (a < n)%nat -> (b < n)%nat -> zerob (C' a b) = zerob (C a b).
Proof.
  intros Ha Hb. unfold zerob. rewrite CC. pose proof (W a Ha). pose proof (W b Hb). destruct (Req_EM_T (C a b) 0) as [Z|Z], (Req_EM_T (w a * w b * C a b) 0) as [Z'|Z']; try reflexivity; exfalso.
  - apply Z'. rewrite Z. ring.
  - apply Rmult_integral in Z' as [Z'|Z']; [|contradiction]. apply Rmult_integral in Z' as [Z'|Z']; contradiction.
Qed.
Lemma existsb_ext_in {A} (p q : A -> bool) l : (forall x, In x l -> p x = q x) -> existsb p l = existsb q l.
Proof. induction l as [|x l IH]; intros H; [reflexivity|]. cbn. rewrite (H x (or_introl eq_refl)), IH by (intros y I; apply H; right; exact I). reflexivity. Qed.
Lemma existsb_map' {A B} (p : B -> bool) (f : A -> B) l : existsb p (map f l) = existsb (fun x => p (f x)) l.
Proof. induction l as [|x l IH]; [reflexivity|]. cbn. rewrite IH. reflexivity. Qed.
Lemma existsb_flat_map {A B} (p : B -> bool) (f : A -> list B) l : existsb p (flat_map f l) = existsb (fun x => existsb p (f x)) l.
Proof. induction l as [|x l IH]; [reflexivity|]. cbn. rewrite existsb_app, IH. reflexivity. Qed.
Lemma divisors_units co : existsb zerob (divisors n C' co) = existsb zerob (divisors n C co).
Proof.
  unfold divisors. rewrite !existsb_app, !existsb_flat_map. f_equal; apply existsb_ext_in; intros c _; rewrite !existsb_map'; apply existsb_ext_in; intros ab I; apply filter_In in I as [I _].
  - apply comb2_elems in I as [I1 I2]. apply zerob_units; eapply other_lt; eassumption.
  - apply perm2_elems in I as [I1 I2]. apply zerob_units; eapply other_lt; eassumption.
Qed.
End Units.

(* ---- quotients and roots ---- *)
Lemma fdiv_units a x y : a <> 0 -> fdiv (a * x) (a * y) = fdiv x y.
Proof.
  intros A. unfold fdiv. destruct (Req_EM_T y 0) as [Z|Z], (Req_EM_T (a * y) 0) as [Z'|Z']; try reflexivity.
  - exfalso. apply Z'. rewrite Z. ring.
  - exfalso. apply Rmult_integral in Z' as [Z'|Z']; contradiction.
  - f_equal. field. split; assumption.
Qed.
Lemma abs_if_units ae a x : 0 <= a -> abs_if ae (a * x) = a * abs_if ae x.
Proof. intros A. destruct ae; cbn; [|reflexivity]. rewrite Rabs_mult, (Rabs_right a) by lra. reflexivity. Qed.
Lemma corr_units a b x y v : a <> 0 -> b <> 0 ->
  obind (np_sqrt ((a * a * x) * (b * b * y))) (fun s => fdiv (a * b * v) s) = omap (Rmult (sign_of (a * b))) (obind (np_sqrt (x * y)) (fun s => fdiv v s)).
Proof.
  intros A B. assert (N : a * b <> 0) by (intros E; apply Rmult_integral in E as [E|E]; contradiction). set (c := a * b) in *.
  replace ((a * a * x) * (b * b * y)) with ((c * c) * (x * y)) by (unfold c; ring). set (z := x * y). clearbody c z.
  assert (P : 0 < c * c) by nra. unfold np_sqrt. destruct (Rlt_dec z 0) as [H|H], (Rlt_dec ((c * c) * z) 0) as [H'|H']; try reflexivity; [exfalso; nra|exfalso; nra|]. cbn [obind].
  rewrite sqrt_mult by nra. change (c * c) with (Rsqr c). rewrite sqrt_Rsqr_abs.
  assert (S : c = sign_of c * Rabs c) by (unfold sign_of; destruct (Rlt_dec 0 c); [rewrite Rabs_right by lra; ring|rewrite Rabs_left by lra; ring]).
  replace (c * v) with (Rabs c * (sign_of c * v)) by (rewrite S at 3; ring).
  rewrite fdiv_units by (apply Rabs_no_R0; exact N). unfold fdiv. destruct (Req_EM_T (sqrt z) 0); cbn [omap]; [reflexivity|]. f_equal. unfold Rdiv. ring.
Qed.

(* ---- the dictionaries ---- *)
Lemma combine_map_r {A B D} (g : B -> D) (l : list A) (m : list B) : combine l (map g m) = map (fun ab => (fst ab, g (snd ab))) (combine l m).
Proof. revert m. induction l as [|a l IH]; intros [|b m]; cbn; try reflexivity. f_equal. apply IH. Qed.
Lemma subtract_units u ec (A A' : matrix) : (forall i j, A' i j = Q2R (u i) * Q2R (u j) * A i j) ->
  forall i j, subtract A' (known_in_units u ec) i j = Q2R (u i) * Q2R (u j) * subtract A ec i j.
Proof.
  intros E i j. destruct ec as [[[a b] v]|]; [|apply E]. cbn [known_in_units subtract].
  destruct (Nat.eqb_spec i a), (Nat.eqb_spec j b), (Nat.eqb_spec i b), (Nat.eqb_spec j a); cbn [andb]; subst; rewrite ?E; try reflexivity; ring.
Qed.

Section Dict.
Variables (lstsq : list (nat -> R) -> list R -> nat -> option (nat -> R)) (cols : list string) (u : nat -> Q) (co : list (nat * nat)) (ec : option (nat * nat * R)) (ae : bool).
Hypotheses (LS : least_squares lstsq) (ND : NoDup cols) (PO : columns_of (List.length cols) co) (KN : known_of (List.length cols) ec) (ES : estimable (List.length cols) co)
  (U0 : forall i, (i < List.length cols)%nat -> Q2R (u i) <> 0).
Let n := List.length cols.
Let w := fun i => Q2R (u i).

Lemma estimates_units A A' : (forall i j, A' i j = w i * w j * A i j) -> forall ae, exists r r',
  ecol_from_cov lstsq n A co ec ae = Ok r /\ ecol_from_cov lstsq n A' co (known_in_units u ec) ae = Ok r' /\
  (forall i, (i < n)%nat -> nth i (e_sig r') 0 = w i * w i * nth i (e_sig r) 0 /\ nth i (e_err r') 0 = w i * w i * nth i (e_err r) 0 /\ nth i (e_snr r') None = nth i (e_snr r) None) /\
  (forall k p, nth_error co k = Some p -> nth k (e_cov r') 0 = w (fst p) * w (snd p) * nth k (e_cov r) 0) /\ List.length (e_cov r) = List.length co /\ List.length (e_cov r') = List.length co.
Proof.
  intros CC a. pose proof (subtract_units u ec A A' CC) as SC. fold (w) in SC.
  assert (SC' : forall i j, subtract A' (known_in_units u ec) i j = w i * w j * subtract A ec i j) by exact SC.
  destruct (ecol_value lstsq LS n A co ec a ES) as (r & E1 & S1 & R1 & V1 & N1). destruct (ecol_value lstsq LS n A' co (known_in_units u ec) a ES) as (r' & E2 & S2 & R2 & V2 & N2).
  exists r, r'. split; [exact E1|]. split; [exact E2|]. split; [|split; [|rewrite V1, V2, !map_length, seq_length; split; reflexivity]].
  - intros i Hi. assert (P : 0 < w i * w i) by (pose proof (U0 i Hi) as P; fold (w i) in P; nra).
    rewrite S1, R1, N1, S2, R2, N2, !nth_seq_map by exact Hi. rewrite !(sig_est_units w _ _ n U0 SC'), SC'.
    replace (w i * w i * subtract A ec i i - w i * w i * sig_est n (subtract A ec) co i) with (w i * w i * (subtract A ec i i - sig_est n (subtract A ec) co i)) by ring.
    rewrite !abs_if_units by lra. split; [reflexivity|]. split; [reflexivity|]. rewrite fdiv_units by lra. reflexivity.
  - intros k p H. assert (Hk : (k < List.length co)%nat) by (apply nth_error_Some; congruence). rewrite V1, V2, !nth_seq_map by exact Hk. rewrite (cross_est_units w _ _ n U0 SC'), SC'.
    rewrite (nth_error_nth _ _ (0, 0)%nat H). ring.
Qed.
Lemma corr_list (err err' : nat -> R) (l : list (nat * nat)) v v' k p : List.length v = List.length l -> List.length v' = List.length l -> nth_error l k = Some p ->
  w (fst p) <> 0 -> w (snd p) <> 0 -> err' (fst p) = w (fst p) * w (fst p) * err (fst p) -> err' (snd p) = w (snd p) * w (snd p) * err (snd p) -> nth k v' 0 = w (fst p) * w (snd p) * nth k v 0 ->
  nth k (map (fun pv => corr_of err' (fst pv) (snd pv)) (combine l v')) None = omap (Rmult (sign_of (w (fst p) * w (snd p)))) (nth k (map (fun pv => corr_of err (fst pv) (snd pv)) (combine l v)) None).
Proof.
  intros L1 L2 H W1 W2 X Y V.
  assert (G : forall (e : nat -> R) x, List.length x = List.length l -> nth k (map (fun pv => corr_of e (fst pv) (snd pv)) (combine l x)) None = corr_of e p (nth k x 0)).
  { intros e x. clear - H. revert k x H. induction l as [|q l IH]; intros [|k] [|y x] H L; try discriminate; cbn [combine map nth].
    - cbn in H. injection H as ->. reflexivity.
    - apply IH; [exact H|cbn in L; lia]. }
  rewrite !G by assumption. unfold corr_of. rewrite X, Y, V. apply corr_units; assumption.
Qed.
Lemma dict_units C C' :
  (match C, C' with Some A, Some A' => forall i j, A' i j = w i * w j * A i j | None, None => True | _, _ => False end) ->
  exists d d', ecol_cov lstsq cols C (named cols co) (named_known cols ec) ae = Ok d /\
    ecol_cov lstsq cols C' (named cols co) (named_known cols (known_in_units u ec)) ae = Ok d' /\
    (forall i, (i < n)%nat ->
       dict_get d' ("sig_" ++ name cols i)%string = times (w i * w i) (dict_get d ("sig_" ++ name cols i)%string) /\
       dict_get d' ("snr_" ++ name cols i)%string = dict_get d ("snr_" ++ name cols i)%string /\
       (own_key (name cols i) (named cols co) -> dict_get d' ("err_" ++ name cols i)%string = times (w i * w i) (dict_get d ("err_" ++ name cols i)%string))) /\
    (forall k x y, nth_error co k = Some (x, y) -> own_pair (named cols co) k ->
       dict_get d' (cov_key (name cols x, name cols y)) = times (w x * w y) (dict_get d (cov_key (name cols x, name cols y))) /\
       dict_get d' (corr_key (name cols x, name cols y)) = times (sign_of (w x * w y)) (dict_get d (corr_key (name cols x, name cols y)))).
Proof.
  intros CS. assert (KN' : known_of (List.length cols) (known_in_units u ec)) by (destruct ec as [[[a b] v]|]; exact KN).
  assert (CASE : (match C with None => True | Some A => existsb zerob (divisors n (subtract A ec) co) = true end /\ match C' with None => True | Some A' => existsb zerob (divisors n (subtract A' (known_in_units u ec)) co) = true end) \/
     exists A A', C = Some A /\ C' = Some A' /\ (forall i j, A' i j = w i * w j * A i j) /\ existsb zerob (divisors n (subtract A ec) co) = false /\ existsb zerob (divisors n (subtract A' (known_in_units u ec)) co) = false).
  { destruct C as [A|], C' as [A'|]; try contradiction; [|left; split; exact Logic.I].
    pose proof (divisors_units w (subtract A ec) (subtract A' (known_in_units u ec)) n U0 (subtract_units u ec A A' CS) co) as DP.
    destruct (existsb zerob (divisors n (subtract A ec) co)) eqn:E; [left; split; [reflexivity|exact DP]|]. right. exists A, A'. repeat (split; [first [reflexivity|assumption]|]). exact DP. }
  destruct CASE as [[Z Z']|(A & A' & -> & -> & CC & Z & Z')].
  - destruct (not_finite_dict lstsq cols C co ec ae LS ND PO KN ES Z) as (d & E1 & V1). destruct (not_finite_dict lstsq cols C' co (known_in_units u ec) ae LS ND PO KN' ES Z') as (d' & E2 & V2).
    exists d, d'. split; [exact E1|]. split; [exact E2|].
    assert (T : forall a k, dict_get d' k = times a (dict_get d k)).
    { intros a k. destruct (in_dec String.string_dec k (tags cols (named cols co))) as [I|I].
      - rewrite (proj1 (V1 k) I), (proj1 (V2 k) I). reflexivity.
      - rewrite (proj2 (V1 k) I), (proj2 (V2 k) I). reflexivity. }
    assert (T1 : forall k, dict_get d' k = dict_get d k).
    { intros k. destruct (in_dec String.string_dec k (tags cols (named cols co))) as [I|I].
      - rewrite (proj1 (V1 k) I), (proj1 (V2 k) I). reflexivity.
      - rewrite (proj2 (V1 k) I), (proj2 (V2 k) I). reflexivity. }
    split; [intros i Hi; split; [apply T|split; [apply T1|intros _; apply T]]|intros k x y _ _; split; apply T].
  - destruct (estimates_units A A' CC ae) as (r & r' & E1 & E2 & V & K & L1 & L2).
    destruct (entries_lemma lstsq cols A co ec ae r ND PO KN Z E1) as (d & D1 & _ & I1 & P1). destruct (entries_lemma lstsq cols A' co (known_in_units u ec) ae r' ND PO KN' Z' E2) as (d' & D2 & _ & I2 & P2).
    exists d, d'. split; [exact D1|]. split; [exact D2|]. split.
    + intros i Hi. destruct (I1 i Hi) as (A1 & A2 & A3). destruct (I2 i Hi) as (B1 & B2 & B3). destruct (V i Hi) as (W1 & W2 & W3). split; [|split].
      * rewrite B1, A1, W1. reflexivity.
      * rewrite B2, A2, W3. reflexivity.
      * intros OK. rewrite (B3 OK), (A3 OK), W2. reflexivity.
    + intros k x y H OW. assert (HN : nth_error (named cols co) k = Some (name cols x, name cols y)) by (unfold named; rewrite nth_error_map', H; reflexivity).
      assert (LA : forall j q, (k < j)%nat -> nth_error (named cols co) j = Some q -> cov_key q <> cov_key (name cols x, name cols y)) by (intros j q Lt HQ; apply (OW j q _ HN HQ); lia).
      destruct (P1 k _ HN LA) as [X1 X2]. destruct (P2 k _ HN LA) as [Y1 Y2]. pose proof (K k _ H) as KV. cbn [fst snd] in KV. split.
      * rewrite Y1, X1, KV. reflexivity.
      * rewrite Y2, X2. cbn [times option_map]. f_equal.
        destruct (e_corr_value lstsq n A co ec ae r PO E1) as (r0 & F1 & K1 & C1). destruct (e_corr_value lstsq n A' co (known_in_units u ec) ae r' PO E2) as (r0' & F2 & K2 & C2).
        destruct (estimates_units A A' CC false) as (s & s' & G1 & G2 & W & _). assert (s = r0) by congruence. assert (s' = r0') by congruence. subst s s'.
        destruct (PO (x, y) (nth_error_In _ _ H)) as [Hx Hy]. cbn [fst snd] in Hx, Hy. rewrite C1, C2, <- K1, <- K2.
        apply (corr_list (fun i => nth i (e_err r0) 0) (fun i => nth i (e_err r0') 0) co (e_cov r) (e_cov r') k (x, y)); try assumption; cbn [fst snd].
        -- apply U0, Hx.
        -- apply U0, Hy.
        -- apply W, Hx.
        -- apply W, Hy.
Qed.
End Dict.

Lemma units_lemma lstsq f g u t co ec ae : least_squares lstsq -> rectangular f -> NoDup (map fst f) -> in_units u t f g -> (forall i, (i < List.length f)%nat -> ~ u i == 0)%Q ->
  identifiable (List.length f) co -> known_of (List.length f) ec -> let cols := map fst f in
  exists d d', fst (ecol lstsq f (named cols co) (named_known cols ec) ae) = Ok d /\
    fst (ecol lstsq g (named cols co) (named_known cols (known_in_units u ec)) ae) = Ok d' /\
    (forall i, (i < List.length f)%nat ->
       dict_get d' ("sig_" ++ name cols i)%string = times (Q2R (u i) * Q2R (u i)) (dict_get d ("sig_" ++ name cols i)%string) /\
       dict_get d' ("snr_" ++ name cols i)%string = dict_get d ("snr_" ++ name cols i)%string /\
       (own_key (name cols i) (named cols co) -> dict_get d' ("err_" ++ name cols i)%string = times (Q2R (u i) * Q2R (u i)) (dict_get d ("err_" ++ name cols i)%string))) /\
    (forall k x y, nth_error co k = Some (x, y) -> own_pair (named cols co) k ->
       dict_get d' (cov_key (name cols x, name cols y)) = times (Q2R (u x) * Q2R (u y)) (dict_get d (cov_key (name cols x, name cols y))) /\
       dict_get d' (corr_key (name cols x, name cols y)) = times (sign_of (Q2R (u x) * Q2R (u y))) (dict_get d (corr_key (name cols x, name cols y)))).
Proof.
  intros LS RE ND U U0 ID KN cols. unfold ecol. cbn zeta. cbn [fst]. rewrite !dropna_names. rewrite (proj1 U). fold cols.
  assert (LF : List.length cols = List.length f) by apply map_length. rewrite <- LF in *. 
  apply (dict_units lstsq cols u co ec ae LS ND).
  - intros p I. destruct ID as [_ ID]. destruct (ID p I) as (H1 & H2 & _). split; assumption.
  - exact KN.
  - apply identifiable_estimable, ID.
  - intros i Hi E. apply (U0 i Hi). apply eqR_Qeq. rewrite E. unfold Q2R. cbn. ring.
  - destruct f as [|c f0] eqn:F; [destruct g as [|c' g0]; [exact Logic.I|destruct U as [E _]; discriminate]|]. rewrite <- F in *. assert (NE : f <> []) by (rewrite F; discriminate).
    assert (NE' : g <> []) by (intros ->; destruct U as [E _]; rewrite F in E; discriminate).
    pose proof (units_rectangular u t f g U RE) as RG. pose proof (units_kept u t f g U) as KE.
    assert (NR : nrows (dropna g) = nrows (dropna f)) by (rewrite !dropna_nrows by assumption; rewrite !complete_kept, KE, !map_length; reflexivity).
    destruct (le_lt_dec 2 (nrows (dropna f))) as [H|H].
    + rewrite many_rows by exact H. rewrite many_rows by (rewrite NR; exact H). intros i j. rewrite !cov_complete by assumption. apply (units_cov u t f g U).
      intros E. rewrite dropna_nrows, complete_kept, E in H by assumption. cbn in H. lia.
    + rewrite few_rows by exact H. rewrite few_rows by (rewrite NR; exact H). exact Logic.I.
Qed.
