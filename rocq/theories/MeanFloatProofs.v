(* Which values collocation by means averages in double arithmetic. *)
From Verif Require Import Base BaseProofs TemporalModel TemporalSpec TemporalProofs.
From Coq Require Import ZArith Reals List Lia Lra Bool ZifyBool ZifyNat.
From Flocq Require Import Core IEEE754.BinarySingleNaN.
From Verif Require Import Calendar FloatModel FloatSpec FloatProofs FloatProps JdModel JdSpec JdProofs JdProofs2 MeanFloatModel MeanFloatSpec.
Import ListNotations.
Open Scope Z_scope.

(* the positions found by the loop over exact times: the slice is the window *)
Lemma rm_slice {X} oob (obs : list (Z * X)) half st t :
  obs <> [] ->
  StronglySorted Z.le (map fst obs) ->
  rm_inv (map fst obs) (t - half) (t + half) st ->
  let st' := fst (rm_step oob (map fst obs) [] half st t) in
  window_obs t half obs = firstn (Z.to_nat (snd st' + 1 - Z.of_nat (fst st'))) (skipn (fst st') obs) /\
  (Z.max (snd st' - Z.of_nat (fst st') + 1) 0 = 0 -> window_obs t half obs = []) /\
  rm_inv (map fst obs) (t - half) (t + half) st'.
Proof.
  intros Hne Hs (Hlen & Hup & Hlo & Hhi). destruct st as [lower upper]; cbn [fst snd] in *.
  unfold rm_step. cbv zeta. cbn [fst snd].
  assert (Hne' : map fst obs <> []) by (destruct obs; [congruence|discriminate]).
  set (times := map fst obs) in *.
  destruct (adv_lower_spec (t - half) (skipn lower times) lower) as (A & B & HAB & Hl & HA & HB).
  rewrite Hl.
  assert (E1 : times = (firstn lower times ++ A) ++ B).
  { rewrite <- app_assoc, <- HAB. symmetry; apply firstn_skipn. }
  assert (HlenA : List.length (firstn lower times ++ A) = (lower + List.length A)%nat).
  { rewrite app_length, firstn_length. lia. }
  assert (F1 : firstn (lower + List.length A) times = firstn lower times ++ A).
  { rewrite E1 at 1. rewrite <- HlenA. apply firstn_app_len. }
  assert (F2 : skipn (lower + List.length A) times = B).
  { rewrite E1 at 1. rewrite <- HlenA. apply skipn_app_len. }
  assert (HlowAll : forall x, In x (firstn (lower + List.length A) times) -> x < t - half).
  { rewrite F1. intros x Hx. apply in_app_or in Hx as [Hx|Hx].
    - rewrite Forall_forall in Hlo; auto.
    - rewrite Forall_forall in HA; auto. }
  assert (HgeAll : forall x, In x (skipn (lower + List.length A) times) -> t - half <= x).
  { pose proof (SSorted_skipn _ (lower + List.length A)%nat _ Hs) as Hsk.
    rewrite F2 in *. destruct B as [|y r]; [intros x []|].
    intros x Hx. pose proof (SSorted_hd_le _ y r Hsk eq_refl x Hx). lia. }
  assert (Hl'len : (lower + List.length A <= List.length times)%nat).
  { rewrite E1. rewrite app_length, HlenA. lia. }
  set (l' := (lower + List.length A)%nat) in *.
  (* upper *)
  set (u' := if t + half <? rm_last oob times then _ else _).
  assert (Hu : exists b : nat, u' = Z.of_nat b - 1 /\ (b <= List.length times)%nat /\
             (forall x, In x (firstn b times) -> x <= t + half) /\
             (forall x, In x (skipn b times) -> t + half < x)).
  { subst u'. unfold rm_last. destruct (t + half <? last times oob) eqn:E.
    - set (k := Z.to_nat (Z.max 0 upper)) in *.
      assert (HE : Exists (fun x => t + half < x) (skipn k times)).
      { apply Exists_exists. exists (last times oob). split; [|lia].
        pose proof (last_in times oob Hne') as Hin.
        rewrite <- (firstn_skipn k times) in Hin at 2. apply in_app_or in Hin as [Hin|Hin]; [|exact Hin].
        rewrite Forall_forall in Hhi. specialize (Hhi _ Hin). lia. }
      destruct (adv_upper_spec (t + half) _ (Z.max 0 upper) upper HE) as (P & y & R & HP & Hv & HPle & Hy).
      assert (Hk : (k <= List.length times)%nat).
      { destruct (Nat.le_gt_cases k (List.length times)) as [|Hgt]; [assumption|].
        rewrite skipn_all2 in HE by lia. inversion HE. }
      assert (E2 : times = (firstn k times ++ P) ++ y :: R).
      { rewrite <- app_assoc, <- HP. symmetry; apply firstn_skipn. }
      assert (HlenP : List.length (firstn k times ++ P) = (k + List.length P)%nat).
      { rewrite app_length, firstn_length. lia. }
      exists (k + List.length P)%nat.
      assert (G1 : firstn (k + List.length P) times = firstn k times ++ P).
      { rewrite E2 at 1. rewrite <- HlenP. apply firstn_app_len. }
      assert (G2 : skipn (k + List.length P) times = y :: R).
      { rewrite E2 at 1. rewrite <- HlenP. apply skipn_app_len. }
      repeat split.
      + rewrite Hv. subst k. lia.
      + rewrite E2. rewrite app_length, HlenP. lia.
      + rewrite G1. intros x Hx. apply in_app_or in Hx as [Hx|Hx].
        * rewrite Forall_forall in Hhi; auto.
        * rewrite Forall_forall in HPle; auto.
      + pose proof (SSorted_skipn _ (k + List.length P)%nat _ Hs) as Hsk. rewrite G2 in *.
        intros x Hx. pose proof (SSorted_hd_le _ y R Hsk eq_refl x Hx). lia.
    - exists (List.length times). repeat split; [lia| |].
      + rewrite firstn_all. intros x Hx. pose proof (last_max _ oob Hs x Hx). lia.
      + rewrite skipn_all. intros x []. }
  destruct Hu as (b & Hb & Hblen & Hble & Hbgt).
  split; cbn [fst snd]; [|split].
  - assert (Hslice : window_obs t half obs = firstn (b - l') (skipn l' obs)).
    { unfold window_obs.
      rewrite (slice_filter (fun o => t - half <=? fst o) (fun o => fst o <=? t + half) obs l' b).
      - reflexivity.
      - intros x Hx. apply (in_map fst) in Hx. rewrite <- firstn_map in Hx.
        specialize (HlowAll _ Hx). lia.
      - intros x Hx. apply (in_map fst) in Hx. rewrite <- skipn_map in Hx.
        specialize (HgeAll _ Hx). lia.
      - intros x Hx. apply (in_map fst) in Hx. rewrite <- firstn_map in Hx.
        specialize (Hble _ Hx). lia.
      - intros x Hx. apply (in_map fst) in Hx. rewrite <- skipn_map in Hx.
        specialize (Hbgt _ Hx). lia. }
    rewrite Hslice, Hb. f_equal. lia.
  - intros Z0. unfold window_obs. rewrite (slice_filter (fun o => t - half <=? fst o) (fun o => fst o <=? t + half) obs l' b).
    + rewrite Hb in Z0. replace (b - l')%nat with 0%nat by lia. reflexivity.
    + intros x Hx. apply (in_map fst) in Hx. rewrite <- firstn_map in Hx. specialize (HlowAll _ Hx). lia.
    + intros x Hx. apply (in_map fst) in Hx. rewrite <- skipn_map in Hx. specialize (HgeAll _ Hx). lia.
    + intros x Hx. apply (in_map fst) in Hx. rewrite <- firstn_map in Hx. specialize (Hble _ Hx). lia.
    + intros x Hx. apply (in_map fst) in Hx. rewrite <- skipn_map in Hx. specialize (Hbgt _ Hx). lia.
  - repeat split; cbn [fst snd].
    + exact Hl'len.
    + lia.
    + apply Forall_forall; exact HlowAll.
    + apply Forall_forall. intros x Hx. apply Hble. rewrite Hb in Hx.
      destruct b as [|b]; [cbn in Hx; exact Hx|].
      replace (Z.to_nat (Z.max 0 (Z.of_nat (S b) - 1))) with b in Hx by lia.
      assert (Hsub : firstn b times = firstn b (firstn (S b) times)).
      { rewrite firstn_firstn. f_equal. lia. }
      rewrite Hsub in Hx. eapply firstn_in; eauto.
Qed.


Notation dbl f := (f 53 1024 p53 e1024).
Notation jd := (dbl julian_date).
Lemma lower_eq lo loz (l : list stamp) j : (forall s, In s l -> Bleb lo (jd s) = (loz <=? ns_time s)) ->
  f_adv_lower 53 1024 lo (map jd l) j = adv_lower loz (map ns_time l) j.
Proof.
  revert j. induction l as [|s l IH]; intros j H; cbn [map f_adv_lower adv_lower]; [reflexivity|]. rewrite (H s (or_introl eq_refl)).
  destruct (loz <=? ns_time s); [reflexivity|]. apply IH. intros x X. apply H. right. exact X.
Qed.
Lemma upper_eq hi hiz (l : list stamp) j u : (forall s, In s l -> Bltb hi (jd s) = (hiz <? ns_time s)) ->
  f_adv_upper 53 1024 hi (map jd l) j u = adv_upper hiz (map ns_time l) j u.
Proof.
  revert j u. induction l as [|s l IH]; intros j u H; cbn [map f_adv_upper adv_upper]; [reflexivity|]. rewrite (H s (or_introl eq_refl)).
  destruct (hiz <? ns_time s); [reflexivity|]. apply IH. intros x X. apply H. right. exact X.
Qed.
Lemma last_map {A B} (f : A -> B) l d d' : l <> [] -> last (map f l) d = f (last l d').
Proof.
  induction l as [|x l IH]; [congruence|]. intros _. destruct l as [|y l]; [reflexivity|]. change (last (map f (x :: y :: l)) d) with (last (map f (y :: l)) d).
  rewrite IH by discriminate. reflexivity.
Qed.

Lemma half_near w : 0 <= w <= 2 ^ 61 -> near (dbl half_window w) (IZR w / 86400000000000)%R ewin.
Proof.
  intros W. unfold half_window. destruct (z_exact 2 ltac:(lia)) as [F2 E2]. pose proof (window_near (2 * w) ltac:(lia)) as N. rewrite mult_IZR in N.
  assert (WR : (0 <= IZR w <= 2305843009213693952)%R) by (split; apply IZR_le; lia).
  replace (IZR w / 86400000000000)%R with (2 * IZR w / 86400000000000 / 2)%R by field.
  apply near_div with (e := ewin) (M := 26700%R); try assumption; try lra; try (unfold ewin, u; lra). apply quo_small; lra.
Qed.
Lemma half_part w k : 0 <= w <= 2 ^ 61 -> 0 <= k <= 6832127 -> w = k * (675 * 10 ^ 9) -> B2R (dbl half_window w) = (IZR k / 128)%R.
Proof.
  intros W K E. unfold half_window. destruct (z_exact 2 ltac:(lia)) as [F2 E2]. change (675 * 10 ^ 9) with 675000000000 in E.
  assert (K2 : 0 <= 2 * k <= 6832127) by lia. destruct (window_part (2 * k) K2) as [Fw Ew]. change (675 * 10 ^ 9) with 675000000000 in Fw, Ew.
  replace (2 * w) with (2 * k * 675000000000) by lia. assert (KR : (0 <= IZR k <= 6832127)%R) by (split; apply IZR_le; lia).
  assert (QQ : (IZR (2 * k) / 128 / 2 = IZR k / 128)%R) by (rewrite mult_IZR; field).
  assert (G2 : generic_format radix2 (FLT_exp (3 - 1024 - 53) 53) (IZR k / 128)%R).
  { apply generic_format_FLT. exists (Float radix2 k (-7)); cbn [Fnum Fexp]; [|change (Zpower radix2 53) with (2 ^ 53)%Z; lia|lia].
    unfold F2R. cbn [Fnum Fexp]. change (bpow radix2 (-7)) with (/ 128)%R. reflexivity. }
  assert (Rk : rnd (IZR k / 128) = (IZR k / 128)%R) by (apply round_generic; auto with typeclass_instances).
  destruct (fdiv_cases 53 1024 p53 e1024 (dbl window_days (2 * k * 675000000000)) (of_z 2) Fw ltac:(rewrite E2; lra)) as [[_ [FF VV]]|[O _]]; rewrite Ew, E2, QQ, Rk in *.
  - exact VV.
  - exfalso. assert (S : (Rabs (IZR k / 128) <= 2 ^ 100)%R) by (rewrite Rabs_pos_eq by lra; lra). pose proof (round_small _ S) as X. rewrite Rk in X. lra.
Qed.
Lemma true_eq (x y : bool) : (x = true <-> y = true) -> x = y.
Proof. destruct x, y; intros [A B]; try reflexivity; [symmetry; apply A; reflexivity|apply B; reflexivity]. Qed.

Lemma nanmean_mean l : dbl f_nanmean l = mean_of l.
Proof. unfold f_nanmean, mean_of. fold (present l). destruct (present l) as [|x r]; [vm_compute; reflexivity|reflexivity]. Qed.

Section Run.
Variable oob : double.
Variable other : list stamp.
Variable values : list double.
Variable w : Z.
Hypothesis LEN : List.length other = List.length values.
Hypothesis VO : Forall valid_stamp other.
Hypothesis ORD : in_order other.
Hypothesis WR : 200000 <= w <= 2 ^ 61.

Notation obs := (combine (map ns_time other) values).
Lemma obs_fst : map fst obs = map ns_time other.
Proof. clear - LEN. revert values LEN. induction other as [|s l IH]; intros [|v vs] L; cbn in *; try discriminate; [reflexivity|]. f_equal. apply IH. lia. Qed.
Lemma obs_snd : map snd obs = values.
Proof. clear - LEN. revert values LEN. induction other as [|s l IH]; intros [|v vs] L; cbn in *; try discriminate; [reflexivity|]. f_equal. apply IH. lia. Qed.
Lemma sorted_times : StronglySorted Z.le (map ns_time other).
Proof.
  clear - ORD. induction other as [|s l IH]; cbn [map]; constructor.
  - apply IH. intros i j a b L Ea Eb. exact (ORD (S i) (S j) a b ltac:(lia) Ea Eb).
  - apply Forall_forall. intros x X. apply in_map_iff in X. destruct X as (b & <- & B). apply In_nth_error in B. destruct B as (j & B). exact (ORD 0%nat (S j) s b ltac:(lia) eq_refl B).
Qed.
Lemma window_is (a : stamp) : map snd (window_obs (ns_time a) w obs) = in_window a w other values.
Proof.
  unfold window_obs, in_window. clear. revert values. induction other as [|s l IH]; intros [|v vs]; cbn [map combine filter]; try reflexivity. cbn [fst].
  replace ((ns_time a - w <=? ns_time s) && (ns_time s <=? ns_time a + w))%bool with (Z.abs (ns_time s - ns_time a) <=? w) by lia.
  destruct (Z.abs (ns_time s - ns_time a) <=? w); cbn [map snd]; rewrite IH; reflexivity.
Qed.
Section Target.
Variable a : stamp.
Hypothesis Va : valid_stamp a.
Hypothesis CL : forall b, In b other -> clear_of w a b.
Lemma low_agree s : In s other -> Bleb (fsub (jd a) (dbl half_window w)) (jd s) = (ns_time a - w <=? ns_time s).
Proof.
  intros I. apply true_eq. rewrite Z.leb_le. rewrite Forall_forall in VO.
  destruct (lower_test_wd w (dbl half_window w) a s ltac:(lia) (half_near w ltac:(lia)) (fun k K E => half_part w k ltac:(lia) K E) Va (VO s I) (CL s I)) as [H _]. exact H.
Qed.
Lemma up_agree s : In s other -> Bltb (fadd (jd a) (dbl half_window w)) (jd s) = (ns_time a + w <? ns_time s).
Proof.
  intros I. apply true_eq. rewrite Z.ltb_lt. rewrite Forall_forall in VO.
  exact (upper_test_wd w (dbl half_window w) a s ltac:(lia) (half_near w ltac:(lia)) (fun k K E => half_part w k ltac:(lia) K E) Va (VO s I) (CL s I)).
Qed.
Lemma step_state st : other <> [] -> fst (dbl f_rm_step oob (map jd other) values (dbl half_window w) st (jd a)) = fst (rm_step 0 (map fst obs) [] w st (ns_time a)).
Proof.
  intros NE. rewrite obs_fst. destruct st as [lo up]. unfold f_rm_step, rm_step, rm_last. cbn [fst].
  assert (S0 : stamp) by (destruct other; [congruence|assumption]).
  assert (LL : In (last other S0) other) by (apply last_in; exact NE).
  rewrite (last_map jd other oob S0 NE), (last_map ns_time other 0 S0 NE), (up_agree _ LL), !map_length, !skipn_map.
  rewrite (lower_eq _ (ns_time a - w)) by (intros s I; apply low_agree; exact (skipn_in _ _ _ I)).
  rewrite (upper_eq _ (ns_time a + w)) by (intros s I; apply up_agree; exact (skipn_in _ _ _ I)). reflexivity.
Qed.
Lemma step_value st : other <> [] -> rm_inv (map fst obs) (ns_time a - w) (ns_time a + w) st ->
  snd (dbl f_rm_step oob (map jd other) values (dbl half_window w) st (jd a)) = mean_of (in_window a w other values) /\
  rm_inv (map fst obs) (ns_time a - w) (ns_time a + w) (fst (dbl f_rm_step oob (map jd other) values (dbl half_window w) st (jd a))).
Proof.
  intros NE I. assert (NO : obs <> []) by (destruct other as [|s l]; [congruence|]; destruct values; [discriminate LEN|discriminate]).
  pose proof (rm_slice 0 obs w st (ns_time a) NO ltac:(rewrite obs_fst; exact sorted_times) I) as RS. cbv zeta in RS. rewrite <- (step_state st NE) in RS.
  destruct RS as (S1 & S2 & S3). split; [|exact S3]. clear I S3.
  assert (V : snd (dbl f_rm_step oob (map jd other) values (dbl half_window w) st (jd a)) =
    let st' := fst (dbl f_rm_step oob (map jd other) values (dbl half_window w) st (jd a)) in
    if Z.max (snd st' - Z.of_nat (fst st') + 1) 0 =? 0 then B754_nan else dbl f_nanmean (firstn (Z.to_nat (snd st' + 1 - Z.of_nat (fst st'))) (skipn (fst st') values))) by (destruct st; reflexivity).
  rewrite V. cbv zeta. clear V. set (st' := fst (dbl f_rm_step oob (map jd other) values (dbl half_window w) st (jd a))) in *. rewrite <- window_is.
  destruct (Z.eqb_spec (Z.max (snd st' - Z.of_nat (fst st') + 1) 0) 0) as [E|E].
  - rewrite (S2 E). reflexivity.
  - rewrite S1. rewrite <- firstn_map, <- skipn_map, obs_snd. apply nanmean_mean.
Qed.
End Target.

Lemma loop_value ref : forall st, other <> [] -> Forall valid_stamp ref -> (forall a b, In a ref -> In b other -> clear_of w a b) -> StronglySorted Z.le (map ns_time ref) ->
  (forall a r, ref = a :: r -> rm_inv (map fst obs) (ns_time a - w) (ns_time a + w) st) ->
  dbl f_rm_loop oob (map jd other) values (dbl half_window w) st (map jd ref) = map (fun a => mean_of (in_window a w other values)) ref.
Proof.
  induction ref as [|a r IH]; intros st NE V CL SS INV; [reflexivity|]. cbn [map f_rm_loop].
  destruct (step_value a (Forall_inv V) (fun b B => CL a b (or_introl eq_refl) B) st NE (INV a r eq_refl)) as [S1 S2].
  destruct (dbl f_rm_step oob (map jd other) values (dbl half_window w) st (jd a)) as [st' out]. cbn [fst snd] in S1, S2. rewrite S1. f_equal.
  cbn [map] in SS. inversion SS as [|x l SL SF]; subst. apply IH; [exact NE|exact (Forall_inv_tail V)|intros a' b A B; apply CL; [right; exact A|exact B]|exact SL|].
  intros a2 r2 ->. inversion SF; subst. eapply rm_inv_mono; [| |exact S2]; lia.
Qed.
End Run.
Lemma empty_loop oob half ts : forall st, dbl f_rm_loop oob [] [] half st ts = map (fun _ => B754_nan) ts.
Proof.
  induction ts as [|t ts IH]; intros [lo up]; [reflexivity|]. cbn [f_rm_loop map]. unfold f_rm_step. rewrite !skipn_nil, firstn_nil.
  assert (E : dbl f_nanmean [] = B754_nan) by (vm_compute; reflexivity). rewrite E, IH. f_equal. destruct (_ =? 0); reflexivity.
Qed.
Lemma in_order_sorted l : in_order l -> StronglySorted Z.le (map ns_time l).
Proof. exact (sorted_times l). Qed.
Lemma collocate_windows oob ref other values w : List.length other = List.length values -> Forall valid_stamp ref -> Forall valid_stamp other -> in_order ref -> in_order other ->
  200000 <= w <= 2 ^ 61 -> (forall a b, In a ref -> In b other -> clear_of w a b) ->
  dbl f_collocate_mean oob ref other values w = map (fun a => mean_of (in_window a w other values)) ref.
Proof.
  intros L VR VO OR OO W CL. unfold f_collocate_mean. destruct other as [|s l] eqn:E.
  - destruct values; [|discriminate]. cbn [map]. rewrite empty_loop, map_map. reflexivity.
  - rewrite <- E in *. apply loop_value; try assumption; [congruence|exact (sorted_times ref OR)|]. intros a r _. repeat split; cbn; try lia; constructor.
Qed.
