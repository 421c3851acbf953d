(* Pearson correlation, efficiency scores, recursive correlation, one-pass covariance matrix. *)
From Coq Require Import Reals List Lra Lia Psatz Permutation Sorted.
From Verif Require Import RStats RStatsProofs MetricsModel MetricsSpec MetricsProofs.

(* ---- Pearson ---- *)
Lemma std_pos l : l <> [] -> ~ constant l -> 0 < std l.
Proof.
  intros H C. destruct (std_nonneg l) as [P|E]; [exact P|]. exfalso. apply C, (std_zero l H). symmetry; exact E.
Qed.
Lemma var_ne0 l : l <> [] -> ~ constant l -> var l <> 0.
Proof. intros H C E. apply C, (var_zero l H), E. Qed.

Lemma correlation_bound d : d <> [] -> ~ constant (xs d) -> ~ constant (ys d) -> -1 <= correlation d <= 1.
Proof.
  intros H CX CY. pose proof (std_pos _ (xs_ne d H) CX) as PX. pose proof (std_pos _ (ys_ne d H) CY) as PY.
  pose proof (cov_abs d) as A. unfold correlation. set (s := std (xs d) * std (ys d)) in *. assert (S0 : 0 < s) by (apply Rmult_lt_0_compat; assumption).
  pose proof (Rle_abs (cov d)). pose proof (Rle_abs (- cov d)) as B. rewrite Rabs_Ropp in B.
  split; apply (Rmult_le_reg_r s); try exact S0; unfold Rdiv; rewrite Rmult_assoc, Rinv_l by lra; lra.
Qed.

Definition p_value (betainc : R -> R -> R -> R) (r n : R) : R :=
  if Req_EM_T (Rabs r) 1 then 0 else betainc (1 / 2 * (n - 2)) (1 / 2) (p_arg r (n - 2)).

Lemma pearson_some betainc d : d <> [] -> ~ constant (xs d) -> ~ constant (ys d) ->
  pearson_of betainc d = Some (correlation d, p_value betainc (correlation d) (rlen d)).
Proof.
  intros H CX CY. unfold pearson_of. rewrite welford_correct by exact H. cbn [obind m_vx m_vy m_cov].
  unfold pearsonr_from_moments. pose proof (var_ne0 _ (xs_ne d H) CX). pose proof (var_ne0 _ (ys_ne d H) CY).
  destruct (Req_EM_T (var (xs d)) 0); [contradiction|]. destruct (Req_EM_T (var (ys d)) 0); [contradiction|].
  rewrite sqrt_mult by apply var_nonneg. fold (std (xs d)) (std (ys d)). fold (correlation d).
  pose proof (correlation_bound d H CX CY) as [L U]. rewrite Rmin_left by exact U. rewrite Rmax_right by exact L.
  unfold p_value. destruct (Req_EM_T (Rabs (correlation d)) 1); reflexivity.
Qed.

Lemma pearson_none betainc d : pearson_of betainc d = None <-> d = [] \/ constant (xs d) \/ constant (ys d).
Proof.
  destruct d as [|p d]; [split; intros; [left; reflexivity|unfold pearson_of; rewrite welford_empty; reflexivity]|].
  set (e := p :: d). assert (H : e <> []) by discriminate.
  unfold pearson_of. rewrite welford_correct by exact H. cbn [obind m_vx m_vy m_cov]. unfold pearsonr_from_moments.
  pose proof (var_zero _ (xs_ne e H)) as ZX. pose proof (var_zero _ (ys_ne e H)) as ZY.
  destruct (Req_EM_T (var (xs e)) 0) as [E|E]; [split; [intros _; right; left; apply ZX, E|reflexivity]|].
  destruct (Req_EM_T (var (ys e)) 0) as [E'|E']; [split; [intros _; right; right; apply ZY, E'|reflexivity]|].
  split; [|intros [X|[X|X]]; [contradiction|apply ZX in X; contradiction|apply ZY in X; contradiction]].
  destruct (Req_EM_T _ 1); discriminate.
Qed.

Lemma p_arg_eq r n : -1 < r < 1 -> 2 < n -> p_arg r (n - 2) = 1 - r * r.
Proof.
  intros R1 N. unfold p_arg. assert (A : 0 < (1 - r) * (1 + r)) by nra.
  assert (B : 0 < n - 2) by lra. set (df := n - 2) in *.
  assert (E : df / (df + r * r * (df / ((1 - r) * (1 + r)))) = 1 - r * r).
  { replace (df + r * r * (df / ((1 - r) * (1 + r)))) with (df / (1 - r * r)).
    - field. split; nra.
    - field. repeat split; nra. }
  rewrite E. apply Rmin_left. nra.
Qed.

Lemma constant_one (x : R) : constant [x].
Proof. intros u v [<-|[]] [<-|[]]. reflexivity. Qed.

Lemma two_points d : List.length d = 2%nat -> ~ constant (xs d) -> ~ constant (ys d) -> Rabs (correlation d) = 1.
Proof.
  destruct d as [|[x1 y1] [|[x2 y2] [|]]]; try discriminate. intros _ CX CY. set (d := [(x1, y1); (x2, y2)]) in *.
  assert (H : d <> []) by discriminate.
  assert (VX : var (xs d) = (x1 - x2) * (x1 - x2) / 4) by (unfold var, rmean, rlen; cbn; field).
  assert (VY : var (ys d) = (y1 - y2) * (y1 - y2) / 4) by (unfold var, rmean, rlen; cbn; field).
  assert (CV : cov d = (x1 - x2) * (y1 - y2) / 4) by (unfold cov, rmean, rlen; cbn; field).
  pose proof (std_pos _ (xs_ne d H) CX) as PX. pose proof (std_pos _ (ys_ne d H) CY) as PY.
  assert (Q : correlation d * correlation d = 1).
  { unfold correlation.
    replace (cov d / (std (xs d) * std (ys d)) * (cov d / (std (xs d) * std (ys d))))
      with (cov d * cov d / ((std (xs d) * std (xs d)) * (std (ys d) * std (ys d)))) by (field; split; lra).
    rewrite !std_sqr. pose proof (var_ne0 _ (xs_ne d H) CX) as NX. pose proof (var_ne0 _ (ys_ne d H) CY) as NY.
    rewrite VX in NX |- *. rewrite VY in NY |- *. rewrite CV. field. split; intros Z; [apply NY|apply NX]; nra. }
  unfold Rabs. destruct (Rcase_abs (correlation d)); nra.
Qed.

Lemma three_points d : d <> [] -> ~ constant (xs d) -> ~ constant (ys d) -> Rabs (correlation d) <> 1 -> 2 < rlen d.
Proof.
  intros H CX CY NE. destruct d as [|p [|q [|r d]]]; [congruence| | |].
  - exfalso. apply CX. apply constant_one.
  - exfalso. apply NE, two_points; [reflexivity|assumption|assumption].
  - rewrite !rlen_cons. pose proof (rlen_nonneg d). lra.
Qed.

Lemma correlation_swap d : correlation (swap d) = correlation d.
Proof. unfold correlation. rewrite cov_swap, xs_swap, ys_swap, (Rmult_comm (std (ys d))). reflexivity. Qed.

Lemma const_affine a b l : a <> 0 -> (constant (map (fun v => a * v + b) l) <-> constant l).
Proof.
  intros A. split; intros C u v Hu Hv.
  - assert (E : a * u + b = a * v + b) by (apply C; [apply (in_map (fun v => a * v + b)), Hu|apply (in_map (fun v => a * v + b)), Hv]).
    apply (Rmult_eq_reg_l a); [lra|exact A].
  - apply in_map_iff in Hu as (u' & <- & Hu). apply in_map_iff in Hv as (v' & <- & Hv). rewrite (C u' v' Hu Hv). reflexivity.
Qed.

Lemma correlation_scale a b d : d <> [] -> a <> 0 -> ~ constant (xs d) -> ~ constant (ys d) ->
  correlation (scale_x a b d) = (if Rlt_dec 0 a then correlation d else - correlation d).
Proof.
  intros H A CX CY. pose proof (std_pos _ (xs_ne d H) CX) as PX. pose proof (std_pos _ (ys_ne d H) CY) as PY.
  unfold correlation. rewrite cov_scale_x, xs_scale_x, ys_scale_x, std_affine by (try apply xs_ne; exact H).
  destruct (Rlt_dec 0 a).
  - rewrite (Rabs_pos_eq a) by lra. field. repeat split; lra.
  - assert (a < 0) by lra. rewrite (Rabs_left a) by lra. field. repeat split; lra.
Qed.

Lemma p_value_opp betainc r n : p_value betainc (- r) n = p_value betainc r n.
Proof.
  unfold p_value. rewrite Rabs_Ropp. destruct (Req_EM_T (Rabs r) 1); [reflexivity|]. f_equal. unfold p_arg.
  replace (- r * - r) with (r * r) by ring. replace ((1 - - r) * (1 + - r)) with ((1 - r) * (1 + r)) by ring. reflexivity.
Qed.

Lemma pearson_swap betainc d : pearson_of betainc (swap d) = pearson_of betainc d.
Proof.
  destruct (pearson_of betainc d) eqn:E.
  - assert (~ (d = [] \/ constant (xs d) \/ constant (ys d))) as N by (rewrite <- pearson_none with (betainc := betainc); rewrite E; discriminate).
    assert (H : d <> []) by tauto. assert (CX : ~ constant (xs d)) by tauto. assert (CY : ~ constant (ys d)) by tauto.
    rewrite pearson_some in E by assumption. rewrite <- E. rewrite pearson_some; [|apply swap_ne, H|rewrite xs_swap; exact CY|rewrite ys_swap; exact CX].
    rewrite correlation_swap, rlen_swap. reflexivity.
  - apply pearson_none. apply pearson_none in E. rewrite xs_swap, ys_swap. destruct E as [->|E]; [left; reflexivity|tauto].
Qed.

Lemma pearson_scale_x betainc a b d : a <> 0 ->
  pearson_of betainc (scale_x a b d) = omap (fun rp => ((if Rlt_dec 0 a then fst rp else - fst rp), snd rp)) (pearson_of betainc d).
Proof.
  intros A. destruct (pearson_of betainc d) eqn:E.
  - assert (~ (d = [] \/ constant (xs d) \/ constant (ys d))) as N by (rewrite <- pearson_none with (betainc := betainc); rewrite E; discriminate).
    assert (H : d <> []) by tauto. assert (CX : ~ constant (xs d)) by tauto. assert (CY : ~ constant (ys d)) by tauto.
    rewrite pearson_some in E by assumption. injection E as <-. cbn [omap fst snd].
    rewrite pearson_some; [|apply scale_x_ne, H|rewrite xs_scale_x, const_affine by exact A; exact CX|rewrite ys_scale_x; exact CY].
    rewrite correlation_scale by assumption. unfold scale_x at 1. rewrite rlen_map.
    destruct (Rlt_dec 0 a); [reflexivity|]. rewrite p_value_opp. reflexivity.
  - apply pearson_none. apply pearson_none in E. rewrite xs_scale_x, ys_scale_x, const_affine by exact A.
    destruct E as [->|E]; [left; reflexivity|tauto].
Qed.

Lemma pearson_scale_y betainc a b d : a <> 0 ->
  pearson_of betainc (scale_y a b d) = omap (fun rp => ((if Rlt_dec 0 a then fst rp else - fst rp), snd rp)) (pearson_of betainc d).
Proof. intros A. rewrite scale_y_swap, pearson_swap, pearson_scale_x, pearson_swap by exact A. reflexivity. Qed.

(* ---- efficiency scores ---- *)
Lemma nse_correct d : d <> [] -> ~ constant (xs d) ->
  nash_sutcliffe d = Some (1 - mean_square_diff d / var (xs d)).
Proof.
  intros H CX. unfold nash_sutcliffe. rewrite np_mean_some by (apply xs_ne, H). cbn [obind].
  pose proof (rlen_ne d H) as N. pose proof (var_ne0 _ (xs_ne d H) CX) as V.
  assert (EV : rsum (map (fun q => (fst q - rmean (xs d)) ^ 2) d) = rlen d * var (xs d)).
  { unfold var. set (m := rmean (xs d)). unfold rmean. rewrite rlen_map, rlen_xs. unfold xs. rewrite map_map.
    rewrite (rsum_ext _ (fun x => (fst x - m) * (fst x - m))) by (intros; ring). field. exact N. }
  assert (ES : rsum (map (fun q => (fst q - snd q) ^ 2) d) = rlen d * mean_square_diff d).
  { rewrite Rmult_comm, msdiff_RSS, RSS_sum by exact H. apply rsum_ext. intros; ring. }
  rewrite EV, ES, fdiv_some by (apply Rmult_integral_contrapositive; split; assumption). cbn [omap]. f_equal. f_equal.
  field. split; assumption.
Qed.

Lemma nse_none d : nash_sutcliffe d = None <-> d = [] \/ constant (xs d).
Proof.
  split.
  - intros E. destruct d as [|p d]; [left; reflexivity|]. right. set (e := p :: d) in *. assert (H : e <> []) by discriminate.
    unfold nash_sutcliffe in E. rewrite np_mean_some in E by (apply xs_ne, H). cbn [obind] in E.
    destruct (fdiv _ _) eqn:F in E; [discriminate|]. apply fdiv_none in F. apply (var_zero _ (xs_ne e H)).
    unfold var. set (m := rmean (xs e)) in *. unfold rmean. rewrite rlen_map. unfold xs at 1. rewrite map_map.
    rewrite (rsum_ext _ (fun q => (fst q - m) ^ 2)) by (intros; ring). rewrite F. unfold Rdiv. ring.
  - intros [->|C]; [unfold nash_sutcliffe, np_mean, fdiv, rlen; cbn; destruct (Req_EM_T 0 0); [reflexivity|congruence]|].
    destruct d as [|p d]; [unfold nash_sutcliffe, np_mean, fdiv, rlen; cbn; destruct (Req_EM_T 0 0); [reflexivity|congruence]|].
    set (e := p :: d) in *. assert (H : e <> []) by discriminate. unfold nash_sutcliffe. rewrite np_mean_some by (apply xs_ne, H). cbn [obind].
    assert (M : rmean (xs e) = fst p). { apply rmean_constant; [apply xs_ne, H|]. intros v Hv. apply C; [exact Hv|]. left; reflexivity. }
    rewrite M. assert (Z : rsum (map (fun q => (fst q - fst p) ^ 2) e) = 0).
    { rewrite (rsum_ext _ (fun _ => 0)); [rewrite rsum_const; ring|]. intros q Hq. replace (fst q) with (fst p); [ring|].
      apply C; [left; reflexivity|apply in_map, Hq]. }
    rewrite Z. unfold fdiv. destruct (Req_EM_T 0 0); [reflexivity|congruence].
Qed.

Lemma nse_range d v : nash_sutcliffe d = Some v -> v <= 1 /\ (v = 1 <-> same d).
Proof.
  intros E. assert (~ (d = [] \/ constant (xs d))) as N by (rewrite <- nse_none; rewrite E; discriminate).
  assert (H : d <> []) by tauto. assert (CX : ~ constant (xs d)) by tauto. rewrite nse_correct in E by assumption.
  assert (EV : v = 1 - mean_square_diff d / var (xs d)) by congruence. clear E.
  pose proof (var_ne0 _ (xs_ne d H) CX) as V. pose proof (var_nonneg (xs d)) as VN. assert (VP : 0 < var (xs d)) by lra.
  pose proof (msdiff_nonneg d) as MN. pose proof (Rinv_0_lt_compat _ VP) as IP. unfold Rdiv in EV.
  rewrite <- (msdiff_zero d H). subst v. split; [nra|]. split; intros X.
  - assert (Z : mean_square_diff d * / var (xs d) = 0) by lra. apply Rmult_integral in Z. lra.
  - rewrite X. ring.
Qed.

Lemma ioa_term o p m : (o - p) ^ 2 <= (Rabs (p - m) + Rabs (o - m)) ^ 2.
Proof.
  assert (A : Rabs (o - p) <= Rabs (p - m) + Rabs (o - m)).
  { replace (o - p) with (- (p - m) + (o - m)) by ring. eapply Rle_trans; [apply Rabs_triang|]. rewrite Rabs_Ropp. lra. }
  rewrite <- (pow2_abs (o - p)). pose proof (Rabs_pos (o - p)). apply pow_incr. split; assumption.
Qed.

Lemma ioa_range d v : index_of_agreement d = Some v -> 0 <= v <= 1 /\ (v = 1 <-> same d).
Proof.
  intros E. unfold index_of_agreement in E. destruct (np_mean (xs d)) as [m|] eqn:M; [|discriminate]. cbn [obind] in E.
  set (den := rsum _) in E. destruct (fdiv (RSS d) den) as [q|] eqn:F; [|discriminate]. cbn [omap] in E.
  assert (EV : v = 1 - q) by congruence. clear E. unfold fdiv in F. destruct (Req_EM_T den 0) as [|D]; [discriminate|].
  assert (EQ : q = RSS d / den) by congruence. clear F.
  assert (DN : 0 <= den) by (apply rsum_nonneg; intros; apply pow2_ge_0). assert (DP : 0 < den) by lra.
  assert (LE : RSS d <= den).
  { rewrite RSS_sum. rewrite (rsum_ext _ (fun p => (fst p - snd p) ^ 2)) by (intros; ring). apply rsum_le. intros p _. apply ioa_term. }
  pose proof (RSS_nonneg d) as RN. pose proof (Rinv_0_lt_compat _ DP) as IP.
  assert (Q : q * den = RSS d) by (rewrite EQ; field; exact D).
  rewrite <- RSS_zero. subst v. split; [|split; intros X].
  - split; [|nra]. assert (q <= 1); [|lra]. apply (Rmult_le_reg_r den); [exact DP|]. rewrite Q. lra.
  - assert (Z : q = 0) by lra. rewrite <- Q, Z. ring.
  - assert (Z : q = 0); [|lra]. rewrite EQ, X. unfold Rdiv. ring.
Qed.

Lemma ioa_none d : index_of_agreement d = None <-> (exists c, forall p, In p d -> fst p = c /\ snd p = c).
Proof.
  destruct d as [|p0 d0].
  { split; [intros _; exists 0; intros p []|intros _]. unfold index_of_agreement, np_mean, fdiv, rlen; cbn. destruct (Req_EM_T 0 0); [reflexivity|congruence]. }
  set (d := p0 :: d0). assert (H : d <> []) by discriminate.
  unfold index_of_agreement. rewrite np_mean_some by (apply xs_ne, H). cbn [obind]. set (m := rmean (xs d)).
  split.
  - intros E. destruct (fdiv _ _) eqn:F in E; [discriminate|]. apply fdiv_none in F. exists m. intros p Hp.
    pose proof (rsum_zero (fun q => (Rabs (snd q - m) + Rabs (fst q - m)) ^ 2) d (fun q _ => pow2_ge_0 _) F p Hp) as Z. cbn in Z.
    pose proof (Rabs_pos (snd p - m)). pose proof (Rabs_pos (fst p - m)).
    assert (A : Rabs (snd p - m) = 0) by nra. assert (B : Rabs (fst p - m) = 0) by nra.
    split; apply Rminus_diag_uniq.
    + destruct (Req_dec (fst p - m) 0) as [Q|Q]; [exact Q|apply Rabs_no_R0 in Q; contradiction].
    + destruct (Req_dec (snd p - m) 0) as [Q|Q]; [exact Q|apply Rabs_no_R0 in Q; contradiction].
  - intros (c & C). assert (M : m = c).
    { apply rmean_constant; [apply xs_ne, H|]. intros v Hv. apply in_map_iff in Hv as (p & <- & Hp). apply C, Hp. }
    assert (Z : rsum (map (fun q => (Rabs (snd q - m) + Rabs (fst q - m)) ^ 2) d) = 0).
    { rewrite (rsum_ext _ (fun _ => 0)); [rewrite rsum_const; ring|]. intros q Hq. destruct (C q Hq) as [-> ->]. rewrite M.
      replace (c - c) with 0 by ring. rewrite Rabs_R0. ring. }
    rewrite Z. unfold fdiv. destruct (Req_EM_T 0 0); [reflexivity|congruence].
Qed.

(* ---- normalised RMSD ---- *)
Lemma r_max_ge x l : x <= r_max x l /\ forall v, In v l -> v <= r_max x l.
Proof.
  revert x. induction l as [|y l IH]; intros x; cbn; [split; [lra|contradiction]|].
  destruct (IH (Rmax x y)) as [A B]. pose proof (Rmax_l x y). pose proof (Rmax_r x y). split; [lra|].
  intros v [<-|Hv]; [lra|apply B, Hv].
Qed.
Lemma r_min_le x l : r_min x l <= x /\ forall v, In v l -> r_min x l <= v.
Proof.
  revert x. induction l as [|y l IH]; intros x; cbn; [split; [lra|contradiction]|].
  destruct (IH (Rmin x y)) as [A B]. pose proof (Rmin_l x y). pose proof (Rmin_r x y). split; [lra|].
  intros v [<-|Hv]; [lra|apply B, Hv].
Qed.

Lemma nrmsd_range d v : nrmsd d 0 = Some v -> 0 <= v <= 1.
Proof.
  unfold nrmsd. destruct (xs d ++ ys d) as [|u r] eqn:EL; [discriminate|]. intros E.
  assert (H : d <> []). { intros ->. discriminate EL. }
  rewrite rmsd_correct in E by exact H. cbn [obind] in E. set (hi := r_max u r) in *. set (lo := r_min u r) in *.
  unfold fdiv in E. destruct (Req_EM_T (hi - lo) 0) as [|D]; [discriminate|].
  assert (EV : v = sqrt (mean_square_diff d) / (hi - lo)) by congruence. clear E.
  assert (B : forall w, In w (xs d ++ ys d) -> lo <= w <= hi).
  { intros w Hw. rewrite EL in Hw. destruct (r_max_ge u r) as [A1 A2]. destruct (r_min_le u r) as [B1 B2]. fold hi in A1, A2. fold lo in B1, B2.
    destruct Hw as [<-|Hw]; [lra|]. split; [apply B2, Hw|apply A2, Hw]. }
  assert (R0 : 0 < hi - lo). { destruct (B u); [rewrite EL; left; reflexivity|]. lra. }
  assert (LE : mean_square_diff d <= (hi - lo) * (hi - lo)).
  { pose proof (rlen_pos d H) as N. apply (Rmult_le_reg_r (rlen d)); [exact N|]. rewrite msdiff_RSS, RSS_sum by exact H.
    rewrite <- (rsum_const ((hi - lo) * (hi - lo)) d). apply rsum_le. intros p Hp.
    destruct (B (fst p)); [apply in_or_app; left; apply in_map, Hp|]. destruct (B (snd p)); [apply in_or_app; right; apply in_map, Hp|]. nra. }
  assert (SQ : sqrt (mean_square_diff d) <= hi - lo).
  { rewrite <- (sqrt_Rsqr (hi - lo)) by lra. apply sqrt_le_1_alt. exact LE. }
  pose proof (sqrt_pos (mean_square_diff d)). pose proof (Rinv_0_lt_compat _ R0).
  rewrite EV. split; [unfold Rdiv; nra|]. apply (Rmult_le_reg_r (hi - lo)); [exact R0|].
  unfold Rdiv. rewrite Rmult_assoc, Rinv_l by lra. lra.
Qed.

(* ---- median ---- *)
Lemma r_insert_perm x l : Permutation (x :: l) (r_insert x l).
Proof.
  induction l as [|y l IH]; cbn; [reflexivity|]. destruct (Rle_dec x y); [reflexivity|].
  rewrite perm_swap. constructor. exact IH.
Qed.
Lemma r_sort_perm l : Permutation l (r_sort l).
Proof. induction l as [|x l IH]; cbn; [constructor|]. rewrite <- r_insert_perm. constructor. exact IH. Qed.
Lemma r_insert_sorted x l : StronglySorted Rle l -> StronglySorted Rle (r_insert x l).
Proof.
  induction l as [|y l IH]; intros S0; cbn; [repeat constructor|]. destruct (Rle_dec x y) as [L|L].
  - constructor; [exact S0|]. inversion S0 as [|? ? S1 F]; subst. constructor; [exact L|].
    eapply Forall_impl; [|exact F]. intros z Z. cbn in Z. lra.
  - inversion S0 as [|? ? S1 F]; subst. constructor; [apply IH, S1|]. rewrite Forall_forall in F |- *.
    intros z Hz. apply (Permutation_in _ (Permutation_sym (r_insert_perm x l))) in Hz. destruct Hz as [<-|Hz]; [lra|apply F, Hz].
Qed.
Lemma r_sort_sorted l : StronglySorted Rle (r_sort l).
Proof. induction l as [|x l IH]; cbn; [constructor|]. apply r_insert_sorted, IH. Qed.

Definition leb (a b : R) : bool := if Rle_dec a b then true else false.
Lemma leb_true a b : a <= b -> leb a b = true.
Proof. intros H. unfold leb. destruct (Rle_dec a b); [reflexivity|contradiction]. Qed.

Lemma count_perm {A} (f : A -> bool) l m : Permutation l m -> List.length (filter f l) = List.length (filter f m).
Proof.
  induction 1; cbn; [reflexivity| | |congruence].
  - destruct (f x); cbn; congruence.
  - destruct (f x), (f y); reflexivity.
Qed.
Lemma count_all {A} (f : A -> bool) l : (forall x, In x l -> f x = true) -> List.length (filter f l) = List.length l.
Proof. induction l as [|x l IH]; intros H; cbn; [reflexivity|]. rewrite (H x (or_introl eq_refl)). cbn. rewrite IH; [reflexivity|]. intros; apply H; right; assumption. Qed.

Lemma sorted_nth s i j : StronglySorted Rle s -> (i <= j)%nat -> (j < List.length s)%nat -> nth i s 0 <= nth j s 0.
Proof.
  intros S0. revert i j. induction S0 as [|x s S1 IH F]; intros i j I J; cbn in *; [lia|].
  destruct i as [|i], j as [|j]; cbn; [lra| |lia|apply IH; lia].
  rewrite Forall_forall in F. apply F, nth_In. lia.
Qed.

Lemma count_le s m k : StronglySorted Rle s -> (k < List.length s)%nat -> nth k s 0 <= m ->
  (S k <= List.length (filter (fun v => leb v m) s))%nat.
Proof.
  intros S0 K L. rewrite <- (firstn_skipn (S k) s) at 1. rewrite filter_app, app_length.
  rewrite count_all; [rewrite firstn_length; lia|].
  intros x Hx. apply leb_true. destruct (In_nth _ _ 0 Hx) as (i & I & <-). rewrite firstn_length in I.
  assert (E : nth i (firstn (S k) s) 0 = nth i s 0). { rewrite <- (firstn_skipn (S k) s) at 2. rewrite app_nth1; [reflexivity|]. rewrite firstn_length. lia. }
  rewrite E. eapply Rle_trans; [|exact L]. apply sorted_nth; [exact S0|lia|exact K].
Qed.
Lemma count_ge s m k : StronglySorted Rle s -> (k < List.length s)%nat -> m <= nth k s 0 ->
  (List.length s - k <= List.length (filter (fun v => leb m v) s))%nat.
Proof.
  intros S0 K L. rewrite <- (firstn_skipn k s) at 2. rewrite filter_app, app_length.
  rewrite (count_all _ (skipn k s)); [rewrite skipn_length; lia|].
  intros x Hx. apply leb_true. destruct (In_nth _ _ 0 Hx) as (i & I & <-). rewrite skipn_length in I.
  assert (E : nth i (skipn k s) 0 = nth (k + i) s 0).
  { rewrite <- (firstn_skipn k s) at 2. rewrite app_nth2; rewrite firstn_length; [|lia]. f_equal. lia. }
  rewrite E. eapply Rle_trans; [exact L|]. apply sorted_nth; [exact S0|lia|lia].
Qed.

Lemma median_halves l m : np_median l = Some m ->
  (List.length l <= 2 * List.length (filter (fun v => leb v m) l))%nat /\
  (List.length l <= 2 * List.length (filter (fun v => leb m v) l))%nat.
Proof.
  intros E. unfold np_median in E. destruct l as [|x l0]; [discriminate|]. set (l := x :: l0) in *.
  pose proof (r_sort_perm l) as P. pose proof (r_sort_sorted l) as S0. set (s := r_sort l) in *.
  pose proof (Permutation_length P) as LN. assert (NZ : (0 < List.length l)%nat) by (cbn; lia).
  rewrite (count_perm _ _ _ P). rewrite (count_perm (fun v => leb m v) _ _ P).
  pose proof (Nat.div2_odd (List.length l)) as DV. remember (List.length l) as n eqn:En. clear En. 
  destruct (Nat.even n) eqn:EV.
  - rewrite <- Nat.negb_even, EV in DV. cbn [negb Nat.b2n] in DV. set (h := Nat.div2 n) in *.
    assert (EM : m = (nth (h - 1) s 0 + nth h s 0) / 2) by congruence.
    pose proof (sorted_nth s (h - 1) h S0 ltac:(lia) ltac:(lia)) as O.
    pose proof (count_le s m (h - 1) S0 ltac:(lia) ltac:(lra)) as A. pose proof (count_ge s m h S0 ltac:(lia) ltac:(lra)) as B.
    change (fun v => leb v m) with (fun v => leb v m) in A. lia.
  - rewrite <- Nat.negb_even, EV in DV. cbn [negb Nat.b2n] in DV. set (h := Nat.div2 n) in *.
    assert (EM : m = nth h s 0) by congruence.
    pose proof (count_le s m h S0 ltac:(lia) ltac:(lra)) as A. pose proof (count_ge s m h S0 ltac:(lia) ltac:(lra)) as B. lia.
Qed.

(* ---- recursive correlation ---- *)
Definition prec_add (s : prec) (d : pairs) : prec := snd (pearsonr_recursive s d).
Definition prec_r (s : prec) : option R :=
  obind (np_sqrt (p_n s * p_x2 s - p_sx s ^ 2)) (fun a =>
  obind (np_sqrt (p_n s * p_y2 s - p_sy s ^ 2)) (fun b => fdiv (p_n s * p_xy s - p_sx s * p_sy s) (a * b))).
Lemma recursive_split s d : pearsonr_recursive s d = (prec_r (prec_add s d), prec_add s d).
Proof. reflexivity. Qed.
Lemma prec_add_app s d e : prec_add (prec_add s d) e = prec_add s (d ++ e).
Proof.
  unfold prec_add, pearsonr_recursive; cbn [snd p_n p_xy p_sx p_sy p_x2 p_y2]. unfold xs, ys. rewrite !map_app, !rsum_app.
  f_equal; try ring. unfold rlen. rewrite app_length, plus_INR. ring.
Qed.

Lemma chunks_fold cs r s : fold_left (fun rs d => pearsonr_recursive (snd rs) d) cs (r, s) =
  (match cs with [] => r | _ => prec_r (prec_add s (List.concat cs)) end, match cs with [] => s | _ => prec_add s (List.concat cs) end).
Proof.
  revert r s. induction cs as [|d cs IH]; intros r s; cbn [fold_left]; [reflexivity|]. cbn [snd]. rewrite recursive_split, IH.
  cbn [List.concat]. destruct cs as [|e cs]; [cbn [List.concat]; rewrite app_nil_r; reflexivity|]. rewrite prec_add_app. reflexivity.
Qed.
Lemma chunks_correct cs : cs <> [] -> pearsonr_chunks cs = pearsonr_recursive prec0 (List.concat cs).
Proof. intros H. unfold pearsonr_chunks. rewrite chunks_fold. destruct cs; [congruence|]. symmetry. apply recursive_split. Qed.

Lemma xs_sq d : rsum (map (fun x => x ^ 2) (xs d)) = sxx d.
Proof. unfold xs, sxx. rewrite map_map. apply rsum_ext. intros; ring. Qed.
Lemma ys_sq d : rsum (map (fun x => x ^ 2) (ys d)) = syy d.
Proof. unfold ys, syy. rewrite map_map. apply rsum_ext. intros; ring. Qed.

Lemma recursive_correct d : d <> [] -> fst (pearsonr_recursive prec0 d) =
  (if Req_EM_T (std (xs d) * std (ys d)) 0 then None else Some (correlation d)).
Proof.
  intros H. unfold pearsonr_recursive, prec0; cbn [fst p_n p_xy p_sx p_sy p_x2 p_y2]. rewrite !Rplus_0_l, xs_sq, ys_sq. fold (sxy d).
  pose proof (rlen_pos d H) as N. pose proof (cov_sums d H) as EC. pose proof (varx_sums d H) as EX. pose proof (vary_sums d H) as EY.
  pose proof (rmean_sum (xs d) (xs_ne d H)) as MX. rewrite rlen_xs in MX. pose proof (rmean_sum (ys d) (ys_ne d H)) as MY. rewrite rlen_ys in MY.
  set (n := rlen d) in *. set (mx := rmean (xs d)) in *. set (my := rmean (ys d)) in *. rewrite MX, MY.
  replace (n * sxx d - (mx * n) ^ 2) with ((n * std (xs d))²) by (unfold Rsqr; replace (n * std (xs d) * (n * std (xs d))) with (n * (n * (std (xs d) * std (xs d)))) by ring; rewrite std_sqr, EX; ring).
  replace (n * syy d - (my * n) ^ 2) with ((n * std (ys d))²) by (unfold Rsqr; replace (n * std (ys d) * (n * std (ys d))) with (n * (n * (std (ys d) * std (ys d)))) by ring; rewrite std_sqr, EY; ring).
  pose proof (std_nonneg (xs d)). pose proof (std_nonneg (ys d)).
  rewrite !np_sqrt_some by apply Rle_0_sqr. cbn [obind]. rewrite !sqrt_Rsqr by nra.
  replace (n * sxy d - mx * n * (my * n)) with (n * (n * cov d)) by (rewrite EC; ring).
  unfold fdiv. destruct (Req_EM_T (std (xs d) * std (ys d)) 0) as [E|E].
  - destruct (Req_EM_T (n * std (xs d) * (n * std (ys d))) 0) as [E'|E']; [reflexivity|]. exfalso. apply E'.
    replace (n * std (xs d) * (n * std (ys d))) with (n * n * (std (xs d) * std (ys d))) by ring. rewrite E. ring.
  - destruct (Req_EM_T (n * std (xs d) * (n * std (ys d))) 0) as [E'|E'].
    + exfalso. apply E. replace (n * std (xs d) * (n * std (ys d))) with (n * n * (std (xs d) * std (ys d))) in E' by ring.
      apply Rmult_integral in E' as [E'|E']; [nra|exact E'].
    + f_equal. unfold correlation. assert (std (xs d) <> 0 /\ std (ys d) <> 0) as [A B] by (split; intros Z; apply E; rewrite Z; ring).
      field. repeat split; try assumption. lra.
Qed.

(* ---- deprecated.mse ---- *)
Lemma np_std_0 l : l <> [] -> np_std l 0 = Some (std l).
Proof.
  intros H. unfold np_std. rewrite np_mean_some by exact H. cbn [obind]. rewrite Rminus_0_r, fdiv_some by (apply rlen_ne, H). cbn [obind].
  rewrite (rsum_ext _ (fun x => (x - rmean l) * (x - rmean l))) by (intros; ring).
  replace (rsum (map (fun x => (x - rmean l) * (x - rmean l)) l) / rlen l) with (var l) by (unfold var, rmean at 1; rewrite rlen_map; reflexivity).
  apply np_sqrt_some, var_nonneg.
Qed.

Lemma sum_sq_std l : l <> [] -> sqrt (rsum (map (fun x => (x - rmean l) ^ 2) l)) = sqrt (rlen l) * std l.
Proof.
  intros H. unfold std. rewrite <- sqrt_mult; [|apply rlen_nonneg|apply var_nonneg]. f_equal.
  rewrite (rsum_ext _ (fun x => (x - rmean l) * (x - rmean l))) by (intros; ring). unfold var. unfold rmean at 3. rewrite rlen_map.
  field. apply rlen_ne, H.
Qed.

Lemma sp_pearsonr_correct d : d <> [] -> ~ constant (xs d) -> ~ constant (ys d) -> sp_pearsonr d = Some (correlation d).
Proof.
  intros H CX CY. unfold sp_pearsonr. rewrite (np_mean_some (xs d)), (np_mean_some (ys d)) by (apply map_ne, H). cbn [obind].
  rewrite (sum_sq_std (xs d) (xs_ne d H)), (sum_sq_std (ys d) (ys_ne d H)), rlen_xs, rlen_ys.
  pose proof (std_pos _ (xs_ne d H) CX) as PX. pose proof (std_pos _ (ys_ne d H) CY) as PY. pose proof (rlen_pos d H) as N.
  pose proof (sqrt_lt_R0 _ N) as SN.
  replace (sqrt (rlen d) * std (xs d) * (sqrt (rlen d) * std (ys d))) with (rlen d * (std (xs d) * std (ys d)))
    by (rewrite <- (sqrt_sqrt (rlen d)) at 1 by lra; ring).
  assert (EC : rsum (map (fun p => (fst p - rmean (xs d)) * (snd p - rmean (ys d))) d) = rlen d * cov d).
  { unfold cov. unfold rmean at 3. rewrite rlen_map. field. lra. }
  assert (P : 0 < std (xs d) * std (ys d)) by (apply Rmult_lt_0_compat; assumption).
  rewrite EC, fdiv_some by nra. cbn [omap]. f_equal.
  replace (rlen d * cov d / (rlen d * (std (xs d) * std (ys d)))) with (correlation d) by (unfold correlation; field; repeat split; lra).
  destruct (correlation_bound d H CX CY) as [L U]. rewrite Rmin_left by exact U. apply Rmax_right, L.
Qed.

Lemma old_mse_correct d : d <> [] -> ~ constant (xs d) -> ~ constant (ys d) -> old_mse d 0 = mse_decomposition d.
Proof.
  intros H CX CY. unfold old_mse. rewrite (np_std_0 (xs d)), (np_std_0 (ys d)) by (apply map_ne, H). cbn [obind].
  rewrite sp_pearsonr_correct, bias_correct by assumption. cbn [obind omap].
  destruct (mse_decomposition_eq d H) as (c & b & v & E & _ & _ & _ & _ & _ & _ & S1 & Ec & Eb & Ev). rewrite E.
  pose proof (std_pos _ (xs_ne d H) CX) as PX. pose proof (std_pos _ (ys_ne d H) CY) as PY.
  assert (C' : 2 * std (xs d) * std (ys d) * (1 - correlation d) = c).
  { rewrite Ec. unfold correlation. field. split; lra. }
  rewrite C', <- Eb, <- Ev. f_equal. f_equal. f_equal. f_equal. lra.
Qed.
