(* Bootstrap intervals at different levels and on another scale. *)
From Coq Require Import Reals List Lra Lia Psatz.
From Verif Require Import Base BaseProofs RStats RStatsProofs MetricsModel MetricsSpec MetricsProofs MetricsProofs2
  TcolModel ConfintModel ConfintSpec ConfintProofs ConfintProofs2 ConfNestSpec ConfNestProofs.
Open Scope R_scope.

Lemma vals_omap (g : R -> R) l : vals (map (omap g) l) = map g (vals l).
Proof. induction l as [|[v|] l IH]; [reflexivity| |]; cbn; [f_equal|]; exact IH. Qed.
Lemma quantile_moved_up k c l q : 0 < k -> l <> [] -> 0 <= q <= 1 -> quantile (map (fun v => k * v + c) l) q = k * quantile l q + c.
Proof.
  intros K NE Q. apply (linear_quantile_unique (map (fun v => k * v + c) l) q); [apply quantile_linear; [destruct l; [congruence|discriminate]|exact Q]|]. apply quantile_up; [exact K|]. apply quantile_linear; assumption.
Qed.
Lemma quantile_moved_down k c l q : k < 0 -> l <> [] -> 0 <= q <= 1 -> quantile (map (fun v => k * v + c) l) q = k * quantile l (1 - q) + c.
Proof.
  intros K NE Q. apply (linear_quantile_unique (map (fun v => k * v + c) l) q); [apply quantile_linear; [destruct l; [congruence|discriminate]|exact Q]|].
  replace q with (1 - (1 - q)) at 1 by ring. apply quantile_down; [exact K|lra|]. apply quantile_linear; [exact NE|lra].
Qed.
Lemma nanquantile_up k c l q : 0 < k -> nanquantile (map (omap (fun v => k * v + c)) l) q = mapR (omap (fun v => k * v + c)) (nanquantile l q).
Proof.
  intros K. unfold nanquantile. destruct q as [q|]; [|reflexivity]. destruct (Rlt_dec q 0); [reflexivity|]. destruct (Rlt_dec 1 q); [reflexivity|]. rewrite vals_omap.
  destruct (vals l) as [|v w]; [reflexivity|]. change (map (fun v0 => k * v0 + c) (v :: w)) with ((k * v + c) :: map (fun v0 => k * v0 + c) w). cbv beta iota. unfold mapR, bindR. cbn [omap]. f_equal. f_equal.
  apply (quantile_moved_up k c (v :: w) q K); [discriminate|lra].
Qed.
Lemma nanquantile_down k c l q : k < 0 -> nanquantile (map (omap (fun v => k * v + c)) l) (Some q) = mapR (omap (fun v => k * v + c)) (nanquantile l (Some (1 - q))).
Proof.
  intros K. unfold nanquantile. destruct (Rlt_dec q 0); [destruct (Rlt_dec (1 - q) 0); [lra|destruct (Rlt_dec 1 (1 - q)); [reflexivity|lra]]|]. destruct (Rlt_dec 1 q); [destruct (Rlt_dec (1 - q) 0); [reflexivity|lra]|].
  destruct (Rlt_dec (1 - q) 0); [lra|]. destruct (Rlt_dec 1 (1 - q)); [lra|]. rewrite vals_omap.
  destruct (vals l) as [|v w]; [reflexivity|]. change (map (fun v0 => k * v0 + c) (v :: w)) with ((k * v + c) :: map (fun v0 => k * v0 + c) w). cbv beta iota. unfold mapR, bindR. cbn [omap]. f_equal. f_equal.
  apply (quantile_moved_down k c (v :: w) q K); [discriminate|lra].
Qed.

Lemma reflect_moved k c m q : reflect (omap (fun v => k * v + c) m) (omap (fun v => k * v + c) q) = omap (fun v => k * v + c) (reflect m q).
Proof. destruct m, q; cbn; try reflexivity. f_equal. ring. Qed.
Definition moved2 (k c : R) (lu : option R * option R) : option R * option R :=
  let g := omap (fun v => k * v + c) in if Rlt_dec 0 k then (g (fst lu), g (snd lu)) else (g (snd lu), g (fst lu)).
Lemma nanq_err l q e : nanquantile l (Some q) = Err e -> e = EValue /\ ~ 0 <= q <= 1.
Proof. unfold nanquantile. destruct (Rlt_dec q 0); [intros E; split; [congruence|lra]|]. destruct (Rlt_dec 1 q); [intros E; split; [congruence|lra]|]. destruct (vals l); discriminate. Qed.
Lemma nanq_out l q : ~ 0 <= q <= 1 -> nanquantile l (Some q) = Err EValue.
Proof. intros N. unfold nanquantile. destruct (Rlt_dec q 0); [reflexivity|]. destruct (Rlt_dec 1 q); [reflexivity|]. lra. Qed.

Lemma percentile_moved bs m k c alpha : k <> 0 -> percentile_bs_ci (map (omap (fun v => k * v + c)) bs) (omap (fun v => k * v + c) m) alpha = mapR (moved2 k c) (percentile_bs_ci bs m alpha).
Proof.
  intros K. unfold percentile_bs_ci, moved2. destruct (Rlt_dec 0 k) as [P|P].
  - rewrite !nanquantile_up by exact P. destruct (nanquantile bs (Some (alpha / 2))), (nanquantile bs (Some (1 - alpha / 2))); reflexivity.
  - rewrite !nanquantile_down by lra. replace (1 - (1 - alpha / 2)) with (alpha / 2) by ring.
    destruct (nanquantile bs (Some (alpha / 2))) as [a|e1] eqn:E1, (nanquantile bs (Some (1 - alpha / 2))) as [b|e2] eqn:E2; try reflexivity.
    apply nanq_err in E1 as [-> _]. apply nanq_err in E2 as [-> _]. reflexivity.
Qed.
Lemma basic_moved bs m k c alpha : k <> 0 -> basic_bs_ci (map (omap (fun v => k * v + c)) bs) (omap (fun v => k * v + c) m) alpha = mapR (moved2 k c) (basic_bs_ci bs m alpha).
Proof.
  intros K. unfold basic_bs_ci, moved2. destruct (Rlt_dec 0 k) as [P|P].
  - rewrite !nanquantile_up by exact P. destruct (nanquantile bs (Some (1 - alpha / 2))), (nanquantile bs (Some (alpha / 2))); cbn; rewrite ?reflect_moved; reflexivity.
  - rewrite !nanquantile_down by lra. replace (1 - (1 - alpha / 2)) with (alpha / 2) by ring.
    destruct (nanquantile bs (Some (alpha / 2))) as [a|e1] eqn:E1, (nanquantile bs (Some (1 - alpha / 2))) as [b|e2] eqn:E2; cbn.
    + rewrite !reflect_moved. reflexivity.
    + exfalso. apply nanq_err in E2 as [_ N]. assert (N' : ~ 0 <= alpha / 2 <= 1) by lra. rewrite (nanq_out bs _ N') in E1. discriminate.
    + exfalso. apply nanq_err in E1 as [_ N]. assert (N' : ~ 0 <= 1 - alpha / 2 <= 1) by lra. rewrite (nanq_out bs _ N') in E2. discriminate.
    + apply nanq_err in E1 as [-> _]. apply nanq_err in E2 as [-> _]. reflexivity.
Qed.

(* ---- BCa on another scale ---- *)
Lemma fdiv_scaled a x y : a <> 0 -> fdiv (a * x) (a * y) = fdiv x y.
Proof.
  intros A. unfold fdiv. destruct (Req_EM_T y 0) as [Z|Z], (Req_EM_T (a * y) 0) as [Z'|Z']; try reflexivity.
  - exfalso. apply Z'. rewrite Z. ring.
  - exfalso. apply Rmult_integral in Z' as [Z'|Z']; contradiction.
  - f_equal. field. split; assumption.
Qed.
Lemma all_some_omap (g : R -> R) l : all_some (map (omap g) l) = omap (map g) (all_some l).
Proof. induction l as [|[v|] l IH]; cbn; [reflexivity| |reflexivity]. rewrite IH. destruct (all_some l); reflexivity. Qed.
Lemma acceleration_moved k c jk : 0 < k -> acceleration (map (omap (fun v => k * v + c)) jk) = acceleration jk.
Proof.
  intros K. unfold acceleration. rewrite all_some_omap. destruct (all_some jk) as [v|]; [|reflexivity]. cbn [omap obind].
  destruct v as [|v0 w]; [reflexivity|]. set (v := v0 :: w). assert (NE : v <> []) by discriminate. assert (L : rlen v <> 0) by (apply rlen_ne, NE).
  unfold np_mean. rewrite rlen_map, !fdiv_some by exact L. cbn [obind]. fold (rmean v).
  assert (M : rsum (map (fun v1 => k * v1 + c) v) / rlen v = k * rmean v + c) by (rewrite <- (rmean_affine k c v NE); unfold rmean; rewrite rlen_map; reflexivity). rewrite M.
  rewrite !map_map. rewrite (rsum_ext (fun x => (k * rmean v + c - (k * x + c)) ^ 2) (fun x => k ^ 2 * (rmean v - x) ^ 2)) by (intros; ring).
  rewrite (rsum_ext (fun x => (k * rmean v + c - (k * x + c)) ^ 3) (fun x => k ^ 3 * (rmean v - x) ^ 3)) by (intros; ring). rewrite !rsum_scal.
  set (s2 := rsum (map (fun x => (rmean v - x) ^ 2) v)). set (s3 := rsum (map (fun x => (rmean v - x) ^ 3) v)).
  assert (P : 0 <= s2) by (apply rsum_nonneg; intros; apply pow2_ge_0).
  rewrite (sqrt_mult (k ^ 2)) by (try apply pow2_ge_0; exact P). replace (k ^ 2) with (Rsqr k) at 2 by (unfold Rsqr; ring). rewrite sqrt_Rsqr by lra.
  replace (6 * (k ^ 2 * s2 * (k * sqrt s2))) with (k ^ 3 * (6 * (s2 * sqrt s2))) by ring. apply fdiv_scaled. apply pow_nonzero. lra.
Qed.
Lemma share_moved k c bs m : 0 < k -> share_not_above (map (omap (fun v => k * v + c)) bs) (omap (fun v => k * v + c) m) = share_not_above bs m.
Proof.
  intros K. unfold share_not_above. rewrite map_map. f_equal. apply map_ext. intros b. destruct m as [m|], b as [b|]; try reflexivity. cbn. destruct (Rle_dec b m), (Rle_dec (k * b + c) (k * m + c)); try reflexivity; exfalso; nra.
Qed.
Lemma bca_moved ppf cdf bs m k c alpha jk : 0 < k ->
  BCa_bs_ci ppf cdf (map (omap (fun v => k * v + c)) bs) (omap (fun v => k * v + c) m) alpha (map (omap (fun v => k * v + c)) jk) = mapR (moved2 k c) (BCa_bs_ci ppf cdf bs m alpha jk).
Proof.
  intros K. unfold BCa_bs_ci. rewrite acceleration_moved, share_moved by exact K. cbv zeta. rewrite !nanquantile_up by exact K. unfold moved2. destruct (Rlt_dec 0 k); [|lra].
  repeat match goal with |- context [nanquantile bs ?q] => destruct (nanquantile bs q) end; reflexivity.
Qed.

(* ---- whole bootstrap ---- *)
Lemma take_all x : take x (seq 0 (List.length x)) = x.
Proof. unfold take. induction x as [|a x IH]; [reflexivity|]. cbn [List.length seq map nth]. f_equal. rewrite <- seq_shift, map_map. exact IH. Qed.
Lemma leave_out_take x i : (i < List.length x)%nat -> leave_out i x = take x (seq 0 i ++ seq (S i) (List.length x - S i)).
Proof.
  intros H. unfold leave_out, take. rewrite map_app. f_equal.
  - rewrite <- (take_all x) at 1. unfold take. rewrite <- map_firstn || rewrite firstn_map. f_equal. rewrite firstn_seq_len || idtac.
    replace (List.length x) with (i + (List.length x - i))%nat by lia. rewrite seq_app, firstn_app, seq_length, Nat.sub_diag. cbn [firstn]. rewrite app_nil_r. rewrite <- (seq_length i 0) at 1. apply firstn_all.
  - rewrite <- (take_all x) at 1. unfold take. rewrite <- map_skipn || rewrite skipn_map. f_equal.
    replace (List.length x) with (S i + (List.length x - S i))%nat at 1 by lia. rewrite seq_app, skipn_app, seq_length, Nat.sub_diag. rewrite <- (seq_length (S i) 0) at 1. rewrite skipn_all. reflexivity.
Qed.
Lemma boot_moved ppf cdf k c metric metric' x y x' y' alpha method minimum draws :
  k <> 0 -> List.length x = List.length y -> same_metric k c metric metric' x y x' y' -> Forall (draw_of (List.length x)) draws -> (method = "BCa"%string -> 0 < k) ->
  with_bootstrapped_ci ppf cdf (fun v => v) metric' x' y' alpha method minimum draws =
  mapR (moved k c) (with_bootstrapped_ci ppf cdf (fun v => v) metric x y alpha method minimum draws).
Proof.
  intros K LXY (LX & LY & SM) DR BC. unfold with_bootstrapped_ci. rewrite LX. destruct (Nat.ltb (List.length x) minimum); [reflexivity|].
  assert (OR : metric' x' y' = omap (fun v => k * v + c) (metric x y)).
  { assert (H : metric' (take x' (seq 0 (List.length x))) (take y' (seq 0 (List.length x))) = omap (fun v => k * v + c) (metric (take x (seq 0 (List.length x))) (take y (seq 0 (List.length x))))) by (apply SM; apply Forall_forall; intros i I; apply in_seq in I; lia).
    rewrite (take_all x) in H. rewrite <- LX, (take_all x'), LX, LXY, (take_all y), <- LY, (take_all y') in H. exact H. }
  assert (BS : map (fun idx => metric' (take x' idx) (take y' idx)) draws = map (omap (fun v => k * v + c)) (map (fun idx => metric (take x idx) (take y idx)) draws)).
  { rewrite map_map. apply map_ext_in. intros idx I. apply SM. rewrite Forall_forall in DR. apply (DR idx I). }
  assert (JK : jackknife (fun v => v) metric' x' y' = map (omap (fun v => k * v + c)) (jackknife (fun v => v) metric x y)).
  { unfold jackknife. rewrite LX, map_map. apply map_ext_in. intros i I. apply in_seq in I. rewrite !leave_out_take by lia. rewrite LX, LY, <- LXY. apply SM.
    apply Forall_app. split; apply Forall_forall; intros j J; apply in_seq in J; lia. }
  cbv zeta. rewrite OR, BS, JK.
  assert (FIN : forall r, mapR (fun lu => (omap (fun v => k * v + c) (metric x y), fst lu, snd lu)) (mapR (moved2 k c) r) = mapR (moved k c) (mapR (fun lu => (metric x y, fst lu, snd lu)) r)).
  { intros [[lo up]|e]; [|reflexivity]. unfold moved, moved2. cbn. destruct (Rlt_dec 0 k); reflexivity. }
  assert (CI : (if String.eqb method "percentile" then percentile_bs_ci (map (omap (fun v => k * v + c)) (map (fun idx => metric (take x idx) (take y idx)) draws)) (omap (fun v => k * v + c) (metric x y)) alpha
      else if String.eqb method "basic" then basic_bs_ci (map (omap (fun v => k * v + c)) (map (fun idx => metric (take x idx) (take y idx)) draws)) (omap (fun v => k * v + c) (metric x y)) alpha
      else if String.eqb method "BCa" then BCa_bs_ci ppf cdf (map (omap (fun v => k * v + c)) (map (fun idx => metric (take x idx) (take y idx)) draws)) (omap (fun v => k * v + c) (metric x y)) alpha (map (omap (fun v => k * v + c)) (jackknife (fun v => v) metric x y))
      else Err EOther) =
     mapR (moved2 k c) (if String.eqb method "percentile" then percentile_bs_ci (map (fun idx => metric (take x idx) (take y idx)) draws) (metric x y) alpha
      else if String.eqb method "basic" then basic_bs_ci (map (fun idx => metric (take x idx) (take y idx)) draws) (metric x y) alpha
      else if String.eqb method "BCa" then BCa_bs_ci ppf cdf (map (fun idx => metric (take x idx) (take y idx)) draws) (metric x y) alpha (jackknife (fun v => v) metric x y)
      else Err EOther)).
  { destruct (String.eqb method "percentile"); [apply percentile_moved, K|]. destruct (String.eqb method "basic"); [apply basic_moved, K|]. destruct (String.eqb method "BCa") eqn:E; [|reflexivity]. apply bca_moved, BC, String.eqb_eq, E. }
  rewrite CI. destruct (List.length x); [destruct draws; [apply FIN|reflexivity]|apply FIN].
Qed.

(* ---- nested levels ---- *)
Lemma percentile_nested bs m alpha alpha' : 0 <= alpha' -> alpha' <= alpha -> alpha <= 1 ->
  exists i i', percentile_bs_ci bs m alpha = Ok i /\ percentile_bs_ci bs m alpha' = Ok i' /\ within i i'.
Proof.
  intros A B C. destruct (vals bs) as [|v w] eqn:V.
  - exists (None, None), (None, None). unfold percentile_bs_ci. rewrite !nanquantile_none by (try exact V; lra). split; [reflexivity|]. split; [reflexivity|]. split; exact Logic.I.
  - assert (NE : vals bs <> []) by (rewrite V; discriminate). rewrite !percentile_ok by (try exact NE; lra). eexists _, _. split; [reflexivity|]. split; [reflexivity|]. split; cbn [fst snd bound_le]; apply quantile_mono; try exact NE; lra.
Qed.
Lemma basic_nested bs m alpha alpha' : 0 <= alpha' -> alpha' <= alpha -> alpha <= 1 ->
  exists i i', basic_bs_ci bs m alpha = Ok i /\ basic_bs_ci bs m alpha' = Ok i' /\ within i i'.
Proof.
  intros A B C. unfold basic_bs_ci. destruct (vals bs) as [|v w] eqn:V.
  - rewrite !nanquantile_none by (try exact V; lra). eexists _, _. split; [reflexivity|]. split; [reflexivity|]. destruct m; split; exact Logic.I.
  - assert (NE : vals bs <> []) by (rewrite V; discriminate). rewrite !nanquantile_ok by (try exact NE; lra). eexists _, _. split; [reflexivity|]. split; [reflexivity|]. destruct m as [m|]; [|split; exact Logic.I].
    pose proof (quantile_mono (vals bs) (alpha' / 2) (alpha / 2) NE ltac:(lra) ltac:(lra) ltac:(lra)). pose proof (quantile_mono (vals bs) (1 - alpha / 2) (1 - alpha' / 2) NE ltac:(lra) ltac:(lra) ltac:(lra)).
    split; cbn [fst snd bound_le reflect obind omap]; lra.
Qed.
Lemma boot_nested ppf cdf store metric x y method alpha alpha' minimum draws : method = "percentile"%string \/ method = "basic"%string -> x <> [] -> (minimum <= List.length x)%nat ->
  0 <= alpha' -> alpha' <= alpha -> alpha <= 1 ->
  exists lo up lo' up', with_bootstrapped_ci ppf cdf store metric x y alpha method minimum draws = Ok (metric x y, lo, up) /\
    with_bootstrapped_ci ppf cdf store metric x y alpha' method minimum draws = Ok (metric x y, lo', up') /\ within (lo, up) (lo', up').
Proof.
  intros M NE L A B C. rewrite !boot_run by assumption. cbv zeta. destruct M; subst method; cbn [String.eqb Ascii.eqb Bool.eqb].
  - match goal with |- context [percentile_bs_ci ?bs ?m alpha] => destruct (percentile_nested bs m alpha alpha' A B C) as ((lo & up) & (lo' & up') & -> & -> & W) end. exists lo, up, lo', up'. split; [reflexivity|]. split; [reflexivity|exact W].
  - match goal with |- context [basic_bs_ci ?bs ?m alpha] => destruct (basic_nested bs m alpha alpha' A B C) as ((lo & up) & (lo' & up') & -> & -> & W) end. exists lo, up, lo', up'. split; [reflexivity|]. split; [reflexivity|exact W].
Qed.

(* ---- the acceleration is at most 1/6 ---- *)
Lemma acceleration_small jk a : acceleration jk = Some a -> Rabs a <= 1 / 6.
Proof.
  unfold acceleration. destruct (all_some jk) as [v|]; [|discriminate]. cbn [obind]. destruct (np_mean v) as [jm|]; [|discriminate]. cbn [obind].
  set (s2 := rsum (map (fun j => (jm - j) ^ 2) v)). set (s3 := rsum (map (fun j => (jm - j) ^ 3) v)).
  assert (P : 0 <= s2) by (apply rsum_nonneg; intros; apply pow2_ge_0). unfold fdiv. destruct (Req_EM_T (6 * (s2 * sqrt s2)) 0) as [Z|Z]; [discriminate|]. intros E. injection E as <-.
  assert (S0 : 0 <= sqrt s2) by apply sqrt_pos. assert (D : 0 < 6 * (s2 * sqrt s2)) by (assert (0 <= s2 * sqrt s2) by (apply Rmult_le_pos; assumption); lra).
  assert (ONE : forall j, In j v -> Rabs (jm - j) <= sqrt s2).
  { intros j I. rewrite <- sqrt_Rsqr_abs. apply sqrt_le_1_alt. replace (Rsqr (jm - j)) with ((jm - j) ^ 2) by (unfold Rsqr; ring). unfold s2. clear - I.
    induction v as [|u v IH]; [destruct I|]. cbn [map rsum]. assert (0 <= rsum (map (fun j => (jm - j) ^ 2) v)) by (apply rsum_nonneg; intros; apply pow2_ge_0). pose proof (pow2_ge_0 (jm - u)). destruct I as [->|I]; [lra|]. specialize (IH I). lra. }
  assert (B : Rabs s3 <= sqrt s2 * s2).
  { unfold s3. apply Rle_trans with (rsum (map (fun j => sqrt s2 * (jm - j) ^ 2) v)); [|rewrite rsum_scal; apply Rle_refl]. clear - ONE. revert ONE. generalize (sqrt s2) as r. intros r ONE.
    induction v as [|u v IH]; [cbn; rewrite Rabs_R0; lra|]. cbn [map rsum]. eapply Rle_trans; [apply Rabs_triang|]. apply Rplus_le_compat; [|apply IH; intros j I; apply ONE; right; exact I].
    replace ((jm - u) ^ 3) with ((jm - u) ^ 2 * (jm - u)) by ring. rewrite Rabs_mult, (Rabs_right ((jm - u) ^ 2)) by (apply Rle_ge, pow2_ge_0). pose proof (ONE u (or_introl eq_refl)). pose proof (pow2_ge_0 (jm - u)). nra. }
  unfold Rdiv at 1. rewrite Rabs_mult, (Rabs_right (/ _)) by (left; apply Rinv_0_lt_compat, D). apply (Rmult_le_reg_r (6 * (s2 * sqrt s2))); [exact D|]. rewrite Rmult_assoc, Rinv_l by lra. lra.
Qed.
Lemma adjusted_mono cdf z0 a z z' : (forall u v, u <= v -> cdf u <= cdf v) -> z <= z' -> a * (z0 + z) < 1 -> a * (z0 + z') < 1 -> adjusted cdf z0 a z <= adjusted cdf z0 a z'.
Proof.
  intros M H A A'. unfold adjusted. destruct (Req_EM_T (1 - a * (z0 + z)) 0); [lra|]. destruct (Req_EM_T (1 - a * (z0 + z')) 0); [lra|]. apply M. apply Rplus_le_compat_l.
  set (u := z0 + z) in *. set (u' := z0 + z') in *. assert (U : u <= u') by (unfold u, u'; lra).
  apply (Rmult_le_reg_r ((1 - a * u) * (1 - a * u'))); [apply Rmult_lt_0_compat; lra|]. 
  replace (u / (1 - a * u) * ((1 - a * u) * (1 - a * u'))) with (u * (1 - a * u')) by (field; lra). replace (u' / (1 - a * u') * ((1 - a * u) * (1 - a * u'))) with (u' * (1 - a * u)) by (field; lra). lra.
Qed.
Lemma bca_nested ppf cdf bs m alpha alpha' jk p z0 a zl zu wl wu : (forall u v, u <= v -> cdf u <= cdf v) -> (forall u, 0 <= cdf u <= 1) -> vals bs <> [] ->
  share_not_above bs m = Some p -> ppf p = Some z0 -> acceleration jk = Some a ->
  ppf alpha = Some zl -> ppf (1 - alpha) = Some zu -> ppf alpha' = Some wl -> ppf (1 - alpha') = Some wu -> wl <= zl -> zl <= zu -> zu <= wu -> Rabs (z0 + wl) < 6 -> Rabs (z0 + wu) < 6 ->
  exists i i', BCa_bs_ci ppf cdf bs m alpha jk = Ok i /\ BCa_bs_ci ppf cdf bs m alpha' jk = Ok i' /\ within i i' /\ bound_le (fst i) (snd i).
Proof.
  intros M RG NE SH Z0 AC P1 P2 P3 P4 W1 W2 W3 B1 B2. pose proof (acceleration_small jk a AC) as A6.
  assert (ALL : forall z, wl <= z <= wu -> a * (z0 + z) < 1).
  { intros z Hz. assert (U : Rabs (z0 + z) < 6) by (apply Rabs_def2 in B1, B2; apply Rabs_def1; lra). apply Rle_lt_trans with (Rabs (a * (z0 + z))); [apply Rle_abs|]. rewrite Rabs_mult. pose proof (Rabs_pos a). pose proof (Rabs_pos (z0 + z)). nra. }
  unfold BCa_bs_ci. rewrite SH, AC, P1, P2, P3, P4. cbn [obind omap]. rewrite Z0. cbn [obind omap].
  assert (LV : forall z, wl <= z <= wu -> 0 <= adjusted cdf z0 a z <= 1) by (intros z Hz; unfold adjusted; destruct (Req_EM_T _ 0); [destruct (Rlt_dec _ _); lra|apply RG]).
  rewrite !nanquantile_ok by (try exact NE; apply LV; lra). eexists _, _. split; [reflexivity|]. split; [reflexivity|].
  assert (Q : forall z z', wl <= z -> z <= z' -> z' <= wu -> quantile (vals bs) (adjusted cdf z0 a z) <= quantile (vals bs) (adjusted cdf z0 a z')).
  { intros z z' H1 H2 H3. apply quantile_mono; [exact NE|apply LV; lra| |apply LV; lra]. apply adjusted_mono; [exact M|exact H2|apply ALL; lra|apply ALL; lra]. }
  split; [split; cbn [fst snd bound_le]; apply Q; lra|cbn [fst snd bound_le]; apply Q; lra].
Qed.
