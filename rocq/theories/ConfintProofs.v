(* Quantiles and bootstrap intervals. *)
From Coq Require Import Reals List Lra Lia Psatz.
From Verif Require Import Base BaseProofs RStats RStatsProofs MetricsModel MetricsProofs MetricsProofs2 TcolModel ConfintModel ConfintSpec.
Open Scope R_scope.

Lemma r_sort_length l : List.length (r_sort l) = List.length l.
Proof. symmetry. apply Permutation_length, r_sort_perm. Qed.

(* ---- quantile ---- *)
Lemma floor_spec h : 0 <= h -> INR (Z.to_nat (Int_part h)) <= h < INR (Z.to_nat (Int_part h)) + 1.
Proof.
  intros H. destruct (base_Int_part h) as [A B].
  assert (P : (0 <= Int_part h)%Z).
  { assert (IZR (-1) < IZR (Int_part h)) by (simpl; lra). apply lt_IZR in H0. lia. }
  rewrite INR_IZR_INZ, Z2Nat.id by exact P. lra.
Qed.

Definition q_pos (n : nat) (q : R) : R := q * INR (n - 1).
Definition q_idx (n : nat) (q : R) : nat := Z.to_nat (Int_part (q_pos n q)).
Lemma q_idx_spec n q : 0 <= q <= 1 -> (0 < n)%nat ->
  INR (q_idx n q) <= q_pos n q < INR (q_idx n q) + 1 /\ (q_idx n q <= n - 1)%nat.
Proof.
  intros Q N. pose proof (pos_INR (n - 1)) as P.
  assert (H : 0 <= q_pos n q <= INR (n - 1)) by (unfold q_pos; split; nra).
  pose proof (floor_spec (q_pos n q) ltac:(lra)) as F. fold (q_idx n q) in F. split; [exact F|].
  apply INR_le. lra.
Qed.
Lemma quantile_unfold l q : quantile l q =
  nth (q_idx (List.length l) q) (r_sort l) 0 + (q_pos (List.length l) q - INR (q_idx (List.length l) q)) *
  (nth (Nat.min (q_idx (List.length l) q + 1) (List.length l - 1)) (r_sort l) 0 - nth (q_idx (List.length l) q) (r_sort l) 0).
Proof. reflexivity. Qed.

Lemma quantile_between l q : l <> [] -> 0 <= q <= 1 ->
  nth (q_idx (List.length l) q) (r_sort l) 0 <= quantile l q <=
  nth (Nat.min (q_idx (List.length l) q + 1) (List.length l - 1)) (r_sort l) 0.
Proof.
  intros NE Q. assert (N : (0 < List.length l)%nat) by (destruct l; [congruence|cbn; lia]).
  destruct (q_idx_spec _ q Q N) as [F I]. rewrite quantile_unfold.
  set (i := q_idx (List.length l) q) in *. set (h := q_pos (List.length l) q) in *.
  pose proof (sorted_nth (r_sort l) i (Nat.min (i + 1) (List.length l - 1)) (r_sort_sorted l) ltac:(lia)
    ltac:(rewrite r_sort_length; lia)) as O.
  split; nra.
Qed.

Lemma quantile_mono l q1 q2 : l <> [] -> 0 <= q1 -> q1 <= q2 -> q2 <= 1 -> quantile l q1 <= quantile l q2.
Proof.
  intros NE Q1 Q Q2. assert (N : (0 < List.length l)%nat) by (destruct l; [congruence|cbn; lia]).
  destruct (q_idx_spec (List.length l) q1 ltac:(lra) N) as [F1 I1].
  destruct (q_idx_spec (List.length l) q2 ltac:(lra) N) as [F2 I2].
  destruct (quantile_between l q1 NE ltac:(lra)) as [_ U1]. destruct (quantile_between l q2 NE ltac:(lra)) as [L2 _].
  assert (HH : q_pos (List.length l) q1 <= q_pos (List.length l) q2).
  { unfold q_pos. apply Rmult_le_compat_r; [apply pos_INR|exact Q]. }
  assert (II : (q_idx (List.length l) q1 <= q_idx (List.length l) q2)%nat).
  { apply Nat.lt_succ_r. apply INR_lt. rewrite S_INR. lra. }
  destruct (Nat.eq_dec (q_idx (List.length l) q1) (q_idx (List.length l) q2)) as [E|D].
  - rewrite !quantile_unfold, <- E. rewrite <- E in F2.
    pose proof (sorted_nth (r_sort l) (q_idx (List.length l) q1) (Nat.min (q_idx (List.length l) q1 + 1) (List.length l - 1))
      (r_sort_sorted l) ltac:(lia) ltac:(rewrite r_sort_length; lia)) as O. nra.
  - eapply Rle_trans; [exact U1|]. eapply Rle_trans; [|exact L2].
    apply sorted_nth; [apply r_sort_sorted|lia|rewrite r_sort_length; lia].
Qed.

Lemma quantile_range l q : l <> [] -> 0 <= q <= 1 -> exists a b, In a l /\ In b l /\ a <= quantile l q <= b.
Proof.
  intros NE Q. assert (N : (0 < List.length l)%nat) by (destruct l; [congruence|cbn; lia]).
  destruct (q_idx_spec _ q Q N) as [F I]. pose proof (quantile_between l q NE Q) as B.
  eexists _, _. split; [|split; [|exact B]]; apply (Permutation_in _ (Permutation_sym (r_sort_perm l))), nth_In;
    rewrite r_sort_length; lia.
Qed.

Lemma quantile_linear l q : l <> [] -> 0 <= q <= 1 -> linear_quantile l q (quantile l q).
Proof.
  intros NE Q. assert (N : (0 < List.length l)%nat) by (destruct l; [congruence|cbn; lia]).
  destruct (q_idx_spec _ q Q N) as [F I].
  assert (OS : forall k, (k < List.length l)%nat -> order_statistic k l (nth k (r_sort l) 0)).
  { intros k K. exists (r_sort l). split; [apply r_sort_perm|]. split; [apply r_sort_sorted|].
    apply nth_error_nth'. rewrite r_sort_length. exact K. }
  exists (q_idx (List.length l) q), (nth (q_idx (List.length l) q) (r_sort l) 0),
    (nth (Nat.min (q_idx (List.length l) q + 1) (List.length l - 1)) (r_sort l) 0).
  assert (EN : q * (rlen l - 1) = q_pos (List.length l) q).
  { unfold q_pos, rlen. rewrite minus_INR by lia. reflexivity. }
  split; [apply OS; lia|]. split; [|split; [rewrite EN; exact F|rewrite EN; apply quantile_unfold]].
  destruct (Nat.eq_dec (S (q_idx (List.length l) q)) (List.length l)) as [E|D].
  - right. split; [exact E|]. f_equal. lia.
  - left. replace (Nat.min (q_idx (List.length l) q + 1) (List.length l - 1)) with (S (q_idx (List.length l) q)) by lia.
    apply OS. lia.
Qed.

(* the quantile is determined by the values *)
Lemma order_statistic_unique k l a b : order_statistic k l a -> order_statistic k l b -> a = b.
Proof.
  intros (s1 & P1 & S1 & E1) (s2 & P2 & S2 & E2).
  assert (E : s1 = s2).
  { assert (P : Permutation s1 s2) by (rewrite <- P1; exact P2). clear - P S1 S2. revert s2 P S2.
    induction S1 as [|x s1 S1 IH F]; intros s2 P S2.
    - apply Permutation_nil in P. congruence.
    - destruct S2 as [|y s2 S2 F2]; [apply Permutation_sym, Permutation_nil in P; discriminate|].
      assert (E : x = y).
      { rewrite Forall_forall in F, F2.
        pose proof (Permutation_in x P (or_introl eq_refl)) as [E|I]; [congruence|].
        pose proof (Permutation_in y (Permutation_sym P) (or_introl eq_refl)) as [E|J]; [congruence|].
        apply Rle_antisym; [apply F, J|apply F2, I]. }
      subst y. f_equal. apply IH; [|exact S2]. eapply Permutation_cons_inv. exact P. }
  congruence.
Qed.
Lemma linear_quantile_unique l q u v : linear_quantile l q u -> linear_quantile l q v -> u = v.
Proof.
  intros (k & a & b & A & B & H & U) (k' & a' & b' & A' & B' & H' & V). cbv zeta in *.
  assert (K : k = k').
  { destruct H as [H1 H2], H' as [H3 H4].
    assert (INR k < INR k' + 1) by lra. assert (INR k' < INR k + 1) by lra.
    rewrite <- S_INR in *. apply INR_lt in H, H0. lia. }
  subst k'. pose proof (order_statistic_unique _ _ _ _ A A') as E. subst a'.
  assert (EB : b = b').
  { assert (LEN : forall v0, order_statistic (S k) l v0 -> (S k < List.length l)%nat).
    { intros v0 (s & P & _ & E). rewrite (Permutation_length P). apply nth_error_Some. congruence. }
    destruct B as [B|[B1 B2]], B' as [B'|[B1' B2']].
    - exact (order_statistic_unique _ _ _ _ B B').
    - apply LEN in B. lia.
    - apply LEN in B'. lia.
    - congruence. }
  congruence.
Qed.

(* ---- nanquantile and the intervals ---- *)
Lemma nanquantile_ok l q : 0 <= q <= 1 -> vals l <> [] -> nanquantile l (Some q) = Ok (Some (quantile (vals l) q)).
Proof.
  intros Q NE. unfold nanquantile. destruct (Rlt_dec q 0); [lra|]. destruct (Rlt_dec 1 q); [lra|].
  destruct (vals l); [congruence|reflexivity].
Qed.
Lemma nanquantile_none l q : 0 <= q <= 1 -> vals l = [] -> nanquantile l (Some q) = Ok None.
Proof.
  intros Q NE. unfold nanquantile. destruct (Rlt_dec q 0); [lra|]. destruct (Rlt_dec 1 q); [lra|].
  rewrite NE. reflexivity.
Qed.

Lemma percentile_ok bs m alpha : 0 <= alpha <= 2 -> vals bs <> [] ->
  percentile_bs_ci bs m alpha = Ok (Some (quantile (vals bs) (alpha / 2)), Some (quantile (vals bs) (1 - alpha / 2))).
Proof.
  intros A NE. unfold percentile_bs_ci. rewrite !nanquantile_ok by (try exact NE; lra). reflexivity.
Qed.
Lemma basic_ok bs m alpha : 0 <= alpha <= 2 -> vals bs <> [] ->
  basic_bs_ci bs (Some m) alpha =
  Ok (Some (2 * m - quantile (vals bs) (1 - alpha / 2)), Some (2 * m - quantile (vals bs) (alpha / 2))).
Proof.
  intros A NE. unfold basic_bs_ci. rewrite !nanquantile_ok by (try exact NE; lra). reflexivity.
Qed.

(* ---- samples ---- *)
Lemma take_length x idx : List.length (take x idx) = List.length idx.
Proof. apply map_length. Qed.
Lemma take_resample x y idx : List.length x = List.length y -> draw_of (List.length x) idx ->
  resample_of x y (take x idx, take y idx).
Proof.
  intros L [D F]. cbn. unfold resample_of. cbn [fst snd]. rewrite !take_length. split; [exact D|]. split; [lia|].
  intros p I. apply (In_nth _ _ (0, 0)) in I as [j [J E]]. rewrite combine_length, !take_length, Nat.min_id in J.
  rewrite combine_nth in E by (rewrite !take_length; reflexivity). subst p.
  unfold take.
  rewrite (nth_indep (map (fun i => nth i x 0) idx) 0 (nth 0 x 0)) by (rewrite map_length; lia).
  rewrite (nth_indep (map (fun i => nth i y 0) idx) 0 (nth 0 y 0)) by (rewrite map_length; lia).
  rewrite (map_nth (fun i => nth i x 0)), (map_nth (fun i => nth i y 0)).
  rewrite <- combine_nth by exact L. apply nth_In. rewrite combine_length.
  rewrite Forall_forall in F. specialize (F _ (nth_In idx 0%nat J)). lia.
Qed.

Section Boot.
Variable ppf : R -> option R.
Variable cdf : R -> R.
Variable store : option R -> option R.

Lemma boot_few metric x y alpha method minimum draws : (List.length x < minimum)%nat ->
  with_bootstrapped_ci ppf cdf store metric x y alpha method minimum draws = Err EValue.
Proof. intros L. unfold with_bootstrapped_ci. apply Nat.ltb_lt in L. rewrite L. reflexivity. Qed.

Definition samples (x y : list R) (draws : list (list nat)) : list (list R * list R) :=
  map (fun idx => (take x idx, take y idx)) draws.
Lemma samples_resample x y draws : List.length x = List.length y -> Forall (draw_of (List.length x)) draws ->
  Forall (resample_of x y) (samples x y draws).
Proof.
  intros L F. apply Forall_forall. intros s I. apply in_map_iff in I as [idx [<- I]].
  apply take_resample; [exact L|]. rewrite Forall_forall in F. apply F, I.
Qed.

Lemma boot_run metric x y alpha method minimum draws : x <> [] -> (minimum <= List.length x)%nat ->
  with_bootstrapped_ci ppf cdf store metric x y alpha method minimum draws =
  let bs := map (fun s => metric (fst s) (snd s)) (samples x y draws) in
  mapR (fun lu => (metric x y, fst lu, snd lu))
    (if String.eqb method "percentile" then percentile_bs_ci bs (metric x y) alpha
     else if String.eqb method "basic" then basic_bs_ci bs (metric x y) alpha
     else if String.eqb method "BCa" then BCa_bs_ci ppf cdf bs (metric x y) alpha (jackknife store metric x y)
     else Err EOther).
Proof.
  intros NE L. unfold with_bootstrapped_ci. apply Nat.ltb_ge in L. rewrite L.
  assert (E : map (fun s : list R * list R => metric (fst s) (snd s)) (samples x y draws) =
              map (fun idx => metric (take x idx) (take y idx)) draws)
    by (unfold samples; rewrite map_map; reflexivity).
  cbv zeta. rewrite E. destruct x; [congruence|]. destruct draws; reflexivity.
Qed.

Lemma boot_percentile metric x y alpha minimum draws : x <> [] -> List.length x = List.length y ->
  (minimum <= List.length x)%nat -> 0 <= alpha <= 1 -> Forall (draw_of (List.length x)) draws ->
  exists ss, List.length ss = List.length draws /\ Forall (resample_of x y) ss /\
    let v := vals (map (fun s => metric (fst s) (snd s)) ss) in
    (v = [] -> with_bootstrapped_ci ppf cdf store metric x y alpha "percentile" minimum draws = Ok (metric x y, None, None)) /\
    (v <> [] -> exists lo up, with_bootstrapped_ci ppf cdf store metric x y alpha "percentile" minimum draws =
        Ok (metric x y, Some lo, Some up) /\
      linear_quantile v (alpha / 2) lo /\ linear_quantile v (1 - alpha / 2) up /\ lo <= up /\
      exists a b, In a v /\ In b v /\ a <= lo /\ up <= b).
Proof.
  intros NE L M A F. exists (samples x y draws). split; [apply map_length|]. split; [apply samples_resample; assumption|].
  cbv zeta. set (bs := map _ (samples x y draws)).
  assert (RUN : with_bootstrapped_ci ppf cdf store metric x y alpha "percentile" minimum draws =
    mapR (fun lu => (metric x y, fst lu, snd lu)) (percentile_bs_ci bs (metric x y) alpha))
    by (rewrite boot_run by assumption; reflexivity).
  split.
  - intros V. rewrite RUN. unfold percentile_bs_ci. rewrite !nanquantile_none by (try exact V; lra). reflexivity.
  - intros V. exists (quantile (vals bs) (alpha / 2)), (quantile (vals bs) (1 - alpha / 2)).
    rewrite RUN, percentile_ok by (try exact V; lra).
    split; [reflexivity|]. split; [apply quantile_linear; [exact V|lra]|]. split; [apply quantile_linear; [exact V|lra]|].
    split; [apply quantile_mono; [exact V|lra|lra|lra]|].
    destruct (quantile_range (vals bs) (alpha / 2) V ltac:(lra)) as (a & _ & IA & _ & QA & _).
    destruct (quantile_range (vals bs) (1 - alpha / 2) V ltac:(lra)) as (_ & b & _ & IB & _ & QB).
    exists a, b. auto.
Qed.

Lemma boot_basic metric x y alpha minimum draws : x <> [] -> List.length x = List.length y ->
  (minimum <= List.length x)%nat -> 0 <= alpha <= 1 -> Forall (draw_of (List.length x)) draws ->
  exists ss, List.length ss = List.length draws /\ Forall (resample_of x y) ss /\
    forall m, metric x y = Some m ->
    let v := vals (map (fun s => metric (fst s) (snd s)) ss) in
    v <> [] -> exists lo up, with_bootstrapped_ci ppf cdf store metric x y alpha "basic" minimum draws =
        Ok (Some m, Some lo, Some up) /\
      linear_quantile v (1 - alpha / 2) (2 * m - lo) /\ linear_quantile v (alpha / 2) (2 * m - up) /\ lo <= up.
Proof.
  intros NE L M A F. exists (samples x y draws). split; [apply map_length|]. split; [apply samples_resample; assumption|].
  intros m EM. cbv zeta. set (bs := map _ (samples x y draws)). intros V.
  assert (RUN : with_bootstrapped_ci ppf cdf store metric x y alpha "basic" minimum draws =
    mapR (fun lu => (Some m, fst lu, snd lu)) (basic_bs_ci bs (Some m) alpha))
    by (rewrite boot_run by assumption; rewrite EM; reflexivity).
  exists (2 * m - quantile (vals bs) (1 - alpha / 2)), (2 * m - quantile (vals bs) (alpha / 2)).
  rewrite RUN, basic_ok by (try exact V; lra). split; [reflexivity|].
  replace (2 * m - (2 * m - quantile (vals bs) (1 - alpha / 2))) with (quantile (vals bs) (1 - alpha / 2)) by ring.
  replace (2 * m - (2 * m - quantile (vals bs) (alpha / 2))) with (quantile (vals bs) (alpha / 2)) by ring.
  split; [apply quantile_linear; [exact V|lra]|]. split; [apply quantile_linear; [exact V|lra]|].
  pose proof (quantile_mono (vals bs) (alpha / 2) (1 - alpha / 2) V ltac:(lra) ltac:(lra) ltac:(lra)). lra.
Qed.

(* an unknown method *)
Lemma boot_unknown metric x y alpha method minimum draws : x <> [] -> (minimum <= List.length x)%nat ->
  method <> "percentile"%string -> method <> "basic"%string -> method <> "BCa"%string ->
  with_bootstrapped_ci ppf cdf store metric x y alpha method minimum draws = Err EOther.
Proof.
  intros NE L A B C. rewrite boot_run by assumption. cbv zeta.
  apply String.eqb_neq in A, B, C. rewrite A, B, C. reflexivity.
Qed.

(* ---- BCa ---- *)
(* without bias correction (half of the bootstrapped values not above the estimate) and without
   acceleration, the bounds are the quantiles at alpha and 1 - alpha *)
Hypothesis inverse : forall p, 0 < p < 1 -> exists z, ppf p = Some z /\ cdf z = p.
Hypothesis median : ppf (1 / 2) = Some 0.

Lemma adjusted_plain z : adjusted cdf 0 0 z = cdf z.
Proof.
  unfold adjusted. destruct (Req_EM_T _ 0) as [E|D]; [lra|]. f_equal. field.
Qed.
Lemma bca_plain bs m alpha jk : 0 < alpha < 1 -> vals bs <> [] ->
  share_not_above bs m = Some (1 / 2) -> acceleration jk = Some 0 ->
  BCa_bs_ci ppf cdf bs m alpha jk =
  Ok (Some (quantile (vals bs) alpha), Some (quantile (vals bs) (1 - alpha))).
Proof.
  intros A V S0 AC. unfold BCa_bs_ci. rewrite S0, AC. cbn [obind omap]. rewrite median. cbn [obind omap].
  destruct (inverse alpha A) as (z & E & C). destruct (inverse (1 - alpha) ltac:(lra)) as (z' & E' & C').
  rewrite E, E'. cbn [omap]. rewrite !adjusted_plain, C, C'. rewrite !nanquantile_ok by (try exact V; lra). reflexivity.
Qed.
(* that is the percentile interval of 2 alpha *)
Lemma bca_double bs m alpha jk : 0 < alpha < 1 -> vals bs <> [] ->
  share_not_above bs m = Some (1 / 2) -> acceleration jk = Some 0 ->
  BCa_bs_ci ppf cdf bs m alpha jk = percentile_bs_ci bs m (2 * alpha).
Proof.
  intros A V S0 AC. rewrite bca_plain by assumption. rewrite percentile_ok by (try exact V; lra).
  replace (2 * alpha / 2) with alpha by field. reflexivity.
Qed.
End Boot.

(* a series whose values all are on the same side of the estimate has no BCa interval *)
Lemma bca_one_sided ppf cdf bs m alpha jk : ppf 0 = None -> ppf 1 = None -> bs <> [] ->
  (forall b, In b bs -> exists v, b = Some v /\ v <= m) \/ (forall b, In b bs -> exists v, b = Some v /\ m < v) ->
  BCa_bs_ci ppf cdf bs (Some m) alpha jk = Err EValue.
Proof.
  intros P0 P1 NE H. unfold BCa_bs_ci.
  assert (E : exists p, share_not_above bs (Some m) = Some p /\ ppf p = None).
  { pose proof (rlen_pos bs NE) as RP.
    assert (RM : rlen (map (not_above (Some m)) bs) = rlen bs) by (unfold rlen; rewrite map_length; reflexivity).
    unfold share_not_above, np_mean. rewrite fdiv_some by (rewrite RM; lra). rewrite RM.
    destruct H as [H|H].
    - exists 1. split; [|exact P1]. f_equal.
      assert (SM : rsum (map (not_above (Some m)) bs) = rlen bs).
      { clear NE RP RM. induction bs as [|b bs IH]; [reflexivity|]. cbn [map rsum]. rewrite rlen_cons, IH
          by (intros b' I; apply H; right; exact I).
        destruct (H b (or_introl eq_refl)) as (v & -> & L). cbn. destruct (Rle_dec v m); lra. }
      rewrite SM. field. lra.
    - exists 0. split; [|exact P0]. f_equal.
      assert (SM : rsum (map (not_above (Some m)) bs) = 0).
      { clear NE RP RM. induction bs as [|b bs IH]; [reflexivity|]. cbn [map rsum]. rewrite IH
          by (intros b' I; apply H; right; exact I).
        destruct (H b (or_introl eq_refl)) as (v & -> & L). cbn. destruct (Rle_dec v m); lra. }
      rewrite SM. field. lra. }
  destruct E as (p & E & EP). rewrite E. cbn [obind]. rewrite EP. reflexivity.
Qed.
