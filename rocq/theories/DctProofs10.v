(* Proofs about smoothn, continued: range of the result, change of unit. *)
From Coq Require Import Lra Lia FunctionalExtensionality.
From Verif Require Import Base RStats RStatsProofs MetricsModel MetricsProofs DctModel DctSpec DctProofs1 DctProofs2 DctProofs3 DctProofs4 DctProofs5 DctProofs6 DctProofs7 DctProofs8 DctProofs9.
Open Scope R_scope.

(* ---- order 1: the best fit stays inside of the range of the data *)
Lemma slopes_lip (f : R -> R) : (forall a b, (f a - f b) ^ 2 <= (a - b) ^ 2) -> forall shape v, slopes shape (fun i => f (v i)) <= slopes shape v.
Proof.
  intros F. induction shape as [|n rest IH]; intros v; cbn [slopes]; [lra|]. apply Rplus_le_compat.
  - apply rsum_le. intros i _. apply total_le. intros is _. apply F.
  - apply rsum_le. intros i _. apply (IH (fun js => v (i :: js))).
Qed.
Definition clip (lo hi x : R) : R := Rmax lo (Rmin hi x).
Lemma clip_lip lo hi a b : (clip lo hi a - clip lo hi b) ^ 2 <= (a - b) ^ 2.
Proof.
  assert (H : Rabs (clip lo hi a - clip lo hi b) <= Rabs (a - b)).
  { unfold clip, Rmax, Rmin. destruct (Rle_dec hi a), (Rle_dec hi b). all: repeat match goal with |- context [Rle_dec ?x ?y] => destruct (Rle_dec x y) end; apply Rabs_le; unfold Rabs; destruct (Rcase_abs (a - b)); split; lra. }
  rewrite <- (pow2_abs (clip lo hi a - clip lo hi b)), <- (pow2_abs (a - b)). apply pow_incr. split; [apply Rabs_pos|exact H].
Qed.
Lemma clip_near lo hi y x : lo <= y <= hi -> (y - clip lo hi x) ^ 2 <= (y - x) ^ 2.
Proof.
  intros H. assert (E : clip lo hi y = y) by (unfold clip, Rmax, Rmin; destruct (Rle_dec hi y); repeat match goal with |- context [Rle_dec ?x ?y] => destruct (Rle_dec x y) end; lra).
  pose proof (clip_lip lo hi y x) as L. rewrite E in L. exact L.
Qed.
Lemma best_in_range shape s w y v lo hi : 0 <= s -> lo <= hi -> (forall i, In i (indices shape) -> 0 <= w i) -> best_fit 1 shape s w y v -> (forall i, In i (indices shape) -> 0 < w i -> lo <= y i <= hi) ->
  forall i, In i (indices shape) -> lo <= v i <= hi.
Proof.
  intros SP LH W B Y i I. destruct (B (fun i => clip lo hi (v i))) as [_ U].
  rewrite <- (U ltac:(idtac;
    unfold penalised, roughness; cbn [Nat.eqb]; apply Rplus_le_compat; [apply total_le; intros j J; destruct (Rle_lt_or_eq_dec 0 (w j) (W j J)) as [P|P]; [apply Rmult_le_compat_l; [lra|apply clip_near, Y; assumption]|rewrite <- P; lra]|apply Rmult_le_compat_l; [exact SP|apply (slopes_lip (clip lo hi) (clip_lip lo hi))]]) i I).
  unfold clip, Rmax, Rmin. destruct (Rle_dec hi (v i)). all: repeat match goal with |- context [Rle_dec ?x ?y] => destruct (Rle_dec x y) end; lra.
Qed.

(* ---- another unit *)
Lemma r_insert_scale k x l : 0 < k -> r_insert (k * x) (map (Rmult k) l) = map (Rmult k) (r_insert x l).
Proof.
  intros K. induction l as [|y l IH]; [reflexivity|]. cbn [map r_insert]. destruct (Rle_dec (k * x) (k * y)) as [A|A], (Rle_dec x y) as [B|B]; try reflexivity.
  - exfalso. apply B. apply (Rmult_le_reg_l k); assumption.
  - exfalso. apply A. apply Rmult_le_compat_l; lra.
  - rewrite IH. reflexivity.
Qed.
Lemma r_sort_scale k l : 0 < k -> r_sort (map (Rmult k) l) = map (Rmult k) (r_sort l).
Proof. intros K. induction l as [|x l IH]; [reflexivity|]. cbn [map r_sort]. rewrite IH. apply r_insert_scale, K. Qed.
Lemma nth_scale k l n : nth n (map (Rmult k) l) 0 = k * nth n l 0.
Proof. rewrite <- (Rmult_0_r k) at 1. apply map_nth. Qed.
Lemma median_scale k l : 0 < k -> np_median (map (Rmult k) l) = omap (Rmult k) (np_median l).
Proof.
  intros K. destruct l as [|x l]; [reflexivity|]. unfold np_median. change (map (Rmult k) (x :: l)) with (k * x :: map (Rmult k) l) at 1. cbv iota beta. change (k * x :: map (Rmult k) l) with (map (Rmult k) (x :: l)). 
  rewrite map_length, r_sort_scale by exact K. rewrite !nth_scale. destruct (Nat.even _); cbn [omap]; f_equal. field.
Qed.
Lemma spread_scale shape k r r' mask : 0 < k -> (forall i, In i (indices shape) -> r' i = k * r i) -> robust_spread shape r' mask = omap (Rmult k) (robust_spread shape r mask).
Proof.
  intros K H. unfold robust_spread. set (used := filter _ (indices shape)).
  assert (UI : forall i, In i used -> In i (indices shape)) by (intros i I; apply (proj1 (filter_In _ _ _) I)).
  assert (M : map r' used = map (Rmult k) (map r used)) by (rewrite map_map; apply map_ext_in; intros i I; apply H, UI, I). rewrite M, (median_scale k _ K).
  destruct (np_median (map r used)) as [m|]; cbn [omap obind]; [|reflexivity].
  assert (M2 : map (fun i => Rabs (r' i - k * m)) used = map (Rmult k) (map (fun i => Rabs (r i - m)) used)).
  { rewrite map_map. apply map_ext_in. intros i I. rewrite (H i (UI i I)). replace (k * r i - k * m) with (k * (r i - m)) by ring. rewrite Rabs_mult, (Rabs_right k) by lra. reflexivity. }
  rewrite M2. apply median_scale, K.
Qed.
Lemma weights_scale shape k r r' h mask i : 0 < k -> (forall i, In i (indices shape) -> r' i = k * r i) -> In i (indices shape) -> robust_weights shape r' h mask i = robust_weights shape r h mask i.
Proof.
  intros K H I. unfold robust_weights. rewrite (spread_scale shape k r r' mask K H). destruct (robust_spread shape r mask) as [m|]; cbn [omap]; [|reflexivity].
  destruct (Req_EM_T (k * m) 0) as [A|A], (Req_EM_T m 0) as [B|B]; try reflexivity.
  - exfalso. apply B. apply Rmult_integral in A. lra.
  - exfalso. apply A. rewrite B. ring.
  - destruct (Rlt_dec h 1); [|reflexivity]. rewrite (H i I). replace (k * r i / (14826 / 10000 * (k * m))) with (r i / (14826 / 10000 * m)) by (field; split; lra). reflexivity.
Qed.
Lemma norm2_scale k l : norm2 (map (Rmult k) l) = k ^ 2 * norm2 l.
Proof. unfold norm2. rewrite map_map, <- rsum_scal. apply rsum_ext. intros x _. ring. Qed.
Lemma next_tol_scale shape b valid k u u' v v' : 0 < k -> (forall i, In i (indices shape) -> u' i = k * u i) -> (forall i, In i (indices shape) -> v' i = k * v i) ->
  next_tol shape b valid u' v' = next_tol shape b valid u v.
Proof.
  intros K U V. unfold next_tol. set (pos := filter valid (indices shape)). assert (PI : forall i, In i pos -> In i (indices shape)) by (intros i I; apply (proj1 (filter_In _ _ _) I)).
  assert (A : map u' pos = map (Rmult k) (map u pos)) by (rewrite map_map; apply map_ext_in; intros i I; apply U, PI, I).
  assert (B : map (fun i => u' i - v' i) pos = map (Rmult k) (map (fun i => u i - v i) pos)) by (rewrite map_map; apply map_ext_in; intros i I; rewrite (U i (PI i I)), (V i (PI i I)); ring).
  rewrite A, B, !norm2_scale. assert (SQ : forall x, 0 <= x -> sqrt (k ^ 2 * x) = k * sqrt x) by (intros x X; rewrite sqrt_mult by (try apply pow2_ge_0; assumption); rewrite sqrt_pow2 by lra; reflexivity).
  assert (NN : forall l, 0 <= norm2 l) by (intros l; apply rsum_nonneg; intros; apply pow2_ge_0). rewrite !SQ by apply NN.
  set (a := sqrt (norm2 (map u pos))). set (c := sqrt (norm2 (map (fun i => u i - v i) pos))).
  destruct (Req_EM_T (k * a) 0) as [Z|Z], (Req_EM_T a 0) as [Y|Y].
  - destruct b; [|reflexivity]. destruct (Req_EM_T (k * c) 0) as [X|X], (Req_EM_T c 0) as [W|W]; try reflexivity; exfalso; [apply W; apply Rmult_integral in X; lra|apply X; rewrite W; ring].
  - exfalso. apply Y. apply Rmult_integral in Z. lra.
  - exfalso. apply Z. rewrite Y. ring.
  - f_equal. destruct b; field; lra.
Qed.

Section Unit.
Variable fmin : (R -> option R) -> R -> R -> R -> R.
Variables (shape : list nat) (order : nat) (lam data data' : arr R) (valid : arr bool) (weights : arr R) (rf s tolz k : R).
Hypothesis order_ok : order = 1%nat \/ order = 2%nat.
Hypothesis s_ok : 0 < s.
Hypothesis k_ok : 0 < k.
Hypothesis data_ok : forall i, In i (indices shape) -> data' i = k * data i.
Lemma unit_given : forall s', Some s = Some s' -> 0 <= s'. Proof. intros s' [= <-]. lra. Qed.
Definition sim (st st' : state) : Prop := (forall i, In i (indices shape) -> z st' i = k * z st i) /\ (forall i, In i (indices shape) -> z0 st' i = k * z0 st i) /\ tol st' = tol st /\ smooth st' = smooth st /\
  (forall i, In i (indices shape) -> wtot st' i = wtot st i) /\ isweighted st' = isweighted st.
Lemma step_sim j st st' a : sim st st' -> inner_step fmin shape order lam data valid rf (Some s) j st = Ok a -> exists a', inner_step fmin shape order lam data' valid rf (Some s) j st' = Ok a' /\ sim a a'.
Proof.
  intros (SZ & SZ0 & ST & SS & SW & SI) E.
  destruct (step_ok fmin shape order lam data valid rf (Some s) order_ok unit_given j st) as (a1 & s1 & E1 & ES & _ & _ & SE & EZ & EZ0 & EW & EI & ET). rewrite E in E1. injection E1 as <-.
  destruct (step_ok fmin shape order lam data' valid rf (Some s) order_ok unit_given j st') as (a' & s1' & E1' & ES' & _ & _ & SE' & EZ' & EZ0' & EW' & EI' & ET'). exists a'. split; [exact E1'|].
  rewrite (SE s eq_refl) in *. rewrite (SE' s eq_refl) in *.
  assert (Z : forall i, In i (indices shape) -> z a' i = k * z a i).
  { intros i I. rewrite EZ, EZ', (SZ i I). rewrite (sm_ext shape (pen lam order s) (pen lam order s) (pull (wtot st') data' (z st')) (fun j => k * pull (wtot st) data (z st) j + 0 * pull (wtot st) data (z st) j)); [|reflexivity| |exact I].
    - rewrite sm_linear by exact I. ring.
    - intros q Q. unfold pull. rewrite (SW q Q), (data_ok q Q), (SZ q Q). ring. }
  split; [exact Z|]. split; [intros i I; rewrite EZ0, EZ0'; apply Z, I|]. split; [rewrite ET, ET', SI; apply (next_tol_scale shape _ valid k); assumption|]. split; [congruence|]. split; [intros i I; rewrite EW, EW'; apply SW, I|congruence].
Qed.
Lemma inner_sim fuel : forall j st st' a, sim st st' -> inner fmin shape order lam data valid rf (Some s) tolz fuel j st = Ok a -> exists a', inner fmin shape order lam data' valid rf (Some s) tolz fuel j st' = Ok a' /\ sim a a'.
Proof.
  induction fuel as [|f IH]; intros j st st' a S0 E; cbn [inner] in *; [injection E as <-; exists st'; auto|].
  pose proof S0 as (_ & _ & ST & _). rewrite ST. destruct (exceeds (tol st) tolz); [|injection E as <-; exists st'; auto].
  destruct (inner_step fmin shape order lam data valid rf (Some s) j st) as [b|] eqn:B; [|discriminate]. cbn [bindR] in E.
  destruct (step_sim j st st' b S0 B) as (b' & B' & S1). rewrite B'. cbn [bindR]. apply (IH (S j) b b' a S1 E).
Qed.
Lemma outer_sim robust maxiter rounds : forall i flag st st' a fl, sim st st' -> outer fmin shape order lam data valid weights rf (Some s) tolz robust maxiter rounds i flag st = Ok (a, fl) ->
  exists a', outer fmin shape order lam data' valid weights rf (Some s) tolz robust maxiter rounds i flag st' = Ok (a', fl) /\ sim a a'.
Proof.
  induction rounds as [|r IH]; intros i flag st st' a fl S0 E; cbn [outer] in *; [injection E as <- <-; exists st'; auto|].
  destruct (inner fmin shape order lam data valid rf (Some s) tolz maxiter 0 st) as [b|] eqn:B; [|discriminate]. cbn [bindR] in E.
  destruct (inner_sim maxiter 0%nat st st' b S0 B) as (b' & B' & S1). rewrite B'. cbn [bindR]. pose proof S1 as (SZ & SZ0 & ST & SS & SW & SI). rewrite ST.
  destruct robust; [|injection E as <- <-; exists b'; auto]. rewrite SS. destruct (smooth b) as [sb|]; [|discriminate].
  match type of E with outer _ _ _ _ _ _ _ _ _ _ _ _ _ _ _ ?x = _ => apply (IH _ _ x) end; [|exact E].
  split; [exact SZ|]. split; [exact SZ0|]. split; [reflexivity|]. split; [reflexivity|]. split; [|reflexivity]. intros q Q. cbn [wtot]. f_equal.
  apply (weights_scale shape k); [exact k_ok| |exact Q]. intros p P. rewrite (data_ok p P), (SZ p P). ring.
Qed.
End Unit.

Section Run10.
Variable fmin : (R -> option R) -> R -> R -> R -> R.
Variable nearest : list nat -> arr bool -> index -> index.
Variable keep : nat -> nat.
Notation run := (smoothn fmin nearest keep).
Lemma run_scaled shape d o s k : usable shape d o -> o_smooth o = Some s -> o_gap o = None -> 0 < k ->
  exists out out' zz zz' fw fw', run shape d o = Ok out /\ run shape (scaled k d) (scaled_options k o) = Ok out' /\ r_z out = Some zz /\ r_z out' = Some zz' /\ r_weights out = Some fw /\ r_weights out' = Some fw' /\
    r_flag out' = r_flag out /\ r_smooth out' = r_smooth out /\ forall i, In i (indices shape) -> zz' i = omap (Rmult k) (zz i) /\ fw' i = fw i.
Proof.
  intros U SO GN K. set (o' := scaled_options k o). set (d' := scaled k d).
  assert (VE : valid_at o' d' = valid_at o d). { apply functional_extensionality. intros i. unfold valid_at, o', d', scaled_options, scaled. cbn [o_gap o_exclude]. rewrite GN. destruct (d i); reflexivity. }
  assert (U' : usable shape d' o').
  { destruct U as (A & B & C & D & E & F & G & H & J). split; [exact A|]. split; [exact B|]. split; [exact C|]. split; [exact D|]. split.
    { intros sh g X. unfold o', scaled_options in X. cbn [o_init] in X. destruct (o_init o) as [[sh1 g1]|]; [|discriminate]. cbn in X. injection X as <- _. apply (E sh1 g1 eq_refl). }
    split. { intros i I X. left. unfold d' in *. rewrite X. unfold o'. cbn [scaled_options o_gap]. symmetry. exact GN. }
    split; [exact G|]. split; [exact H|exact J]. }
  assert (WE : wv o' shape d' = wv o shape d). { apply functional_extensionality. intros i. unfold wv. rewrite VE. reflexivity. }
  assert (WW : weightedv o' shape d' = weightedv o shape d) by (unfold weightedv; rewrite WE; reflexivity).
  assert (YE : forall i, yv o' d' i = k * yv o d i). { intros i. unfold yv. rewrite VE. destruct (valid_at o d i); [|ring]. unfold d', scaled. destruct (d i); cbn; ring. }
  assert (SE : forall i, In i (indices shape) -> startv nearest keep o' shape d' i = k * startv nearest keep o shape d i).
  { intros i I. unfold startv. rewrite WW, VE. unfold o' at 1, scaled_options. cbn [o_init]. destruct (o_init o) as [[sh g]|]; [reflexivity|]. cbn [omap]. destruct (weightedv o shape d); [|ring].
    unfold calc_init_guess. set (f := fun i => if negb (valid_at o d i) then yv o d (nearest shape (fun i => negb (valid_at o d i)) i) else yv o d i).
    transitivity (idctNd shape (fun q => k * (if inside keep shape q then dctNd shape f q else 0) + 0 * (if inside keep shape q then dctNd shape f q else 0)) i); [|rewrite idct_linear by exact I; ring].
    apply idct_ext; [|exact I]. intros q Q. destruct (inside keep shape q); [|ring].
    transitivity (dctNd shape (fun j => k * f j + 0 * f j) q); [|rewrite dct_linear by exact Q; ring]. apply dct_ext; [|exact Q]. intros j J. unfold f. destruct (negb (valid_at o d j)); rewrite YE; ring. }
  destruct (run_ind fmin nearest keep shape d o (fun _ => True) (fun _ => True) U (fun _ _ _ _ _ _ _ => Logic.I) (fun _ _ _ _ _ => or_introl Logic.I) Logic.I) as (st & flag & s1 & E & ES & SP & SEQ & _ & _).
  destruct (usable_ready shape d o U) as (lam & RD & L). destruct (usable_ready shape d' o' U') as (lam' & RD' & L').
  assert (LE : lam' = lam). { destruct RD as (_ & _ & _ & _ & A & _), RD' as (_ & _ & _ & _ & B & _). change (o_axis o') with (o_axis o) in B. congruence. } subst lam'.
  rewrite (smoothn_ready fmin nearest keep o shape d lam RD) in E |- *. rewrite (smoothn_ready fmin nearest keep o' shape d' lam RD').
  unfold outerv in *. destruct (outer fmin shape (o_order o) lam (yv o d) (valid_at o d) (wv o shape d) (rfv (weightedv o shape d)) (o_smooth o) (o_tolz o) (o_robust o) (o_maxiter o) 3 0 1 _) as [[st1 fl]|] eqn:EO; [|discriminate].
  pose proof U as (_ & _ & OR & _ & _ & _ & _ & _ & SMP). rewrite SO in EO.
  assert (SIM : sim shape k (St (startv nearest keep o shape d) (startv nearest keep o shape d) (TolNum 1) 0 (Some s) (wv o shape d) None (weightedv o shape d))
     (St (startv nearest keep o' shape d') (startv nearest keep o' shape d') (TolNum 1) 0 (Some s) (wv o shape d) None (weightedv o shape d))).
  { split; [exact SE|]. split; [exact SE|]. repeat split; reflexivity. }
  destruct (outer_sim fmin shape (o_order o) lam (yv o d) (yv o' d') (valid_at o d) (wv o shape d) (rfv (weightedv o shape d)) s (o_tolz o) k OR (SMP s SO) K (fun i _ => YE i) (o_robust o) (o_maxiter o) 3 0%nat 1%Z _ _ st1 fl SIM EO) as (st' & EO' & (SZ & _ & _ & SS & SW & _)).
  change (o_order o') with (o_order o). change (o_tolz o') with (o_tolz o). change (o_robust o') with (o_robust o). change (o_maxiter o') with (o_maxiter o). change (o_smooth o') with (o_smooth o).
  rewrite VE, WE, WW, SO, EO'. cbn [bindR fst snd].
  exists (outv nearest keep o shape d st1 fl), (outv nearest keep o' shape d' st' fl), (zoutv o st1), (zoutv o' st'), (wtot st1), (wtot st').
  repeat split; try reflexivity; [exact SS| |apply SW; assumption]. unfold zoutv. change (o_exclude o') with (o_exclude o). change (o_gap o') with (o_gap o).
  destruct (o_exclude o) as [m|]; [destruct (m i); [rewrite GN; reflexivity|]|]; cbn [omap]; rewrite (SZ i H); reflexivity.
Qed.
End Run10.
