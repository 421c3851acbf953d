(* The leverage of a long series is the average influence of a value, order 2. *)
From Coq Require Import Lra Lia.
From Verif Require Import Base RStats RStatsProofs MetricsModel MetricsProofs DctModel DctSpec DctProofs1 DctProofs2 DctProofs3 DctProofs4 DctAutoSpec DctAutoProofs DctAutoProofs2 DctAutoProofs3.
Open Scope R_scope.

(* a decreasing function on a grid, and its antiderivative *)
Section Grid.
Variables g G : R -> R.
Hypothesis der : forall x, derivable_pt_lim G x (g x).
Hypothesis decr : forall x y, 0 <= x -> x <= y -> y <= PI -> g y <= g x.
Hypothesis start : g 0 = 1.
Hypothesis pos : forall x, 0 < g x.
Lemma grid_step x y : 0 <= x -> x < y -> y <= PI -> g y * (y - x) <= G y - G x <= g x * (y - x).
Proof.
  intros A B C. destruct (MVT_cor2 G g x y B (fun c _ => der c)) as (c & E & CC). rewrite E.
  pose proof (decr x c A ltac:(lra) ltac:(lra)). pose proof (decr c y ltac:(lra) ltac:(lra) C). split; apply Rmult_le_compat_r; lra.
Qed.
Lemma grid_sum n m : (m <= n)%nat -> (0 < n)%nat ->
  rsum (map (fun k => g (PI * INR k / INR n)) (seq 0 m)) * (PI / INR n) - (1 - g (PI * INR m / INR n)) * (PI / INR n) <= G (PI * INR m / INR n) - G 0 <= rsum (map (fun k => g (PI * INR k / INR n)) (seq 0 m)) * (PI / INR n).
Proof.
  intros M N. pose proof PI_RGT_0 as P. assert (IN : 0 < INR n) by (apply lt_0_INR, N). induction m as [|m IH].
  - cbn [seq map]. replace (PI * INR 0 / INR n) with 0 by (cbn [INR]; field; lra). rewrite start. unfold rsum. cbn. lra.
  - specialize (IH ltac:(lia)). rewrite seq_S, map_app, rsum_app. cbn [map plus Nat.add]. replace (rsum [g (PI * INR m / INR n)]) with (g (PI * INR m / INR n)) by (unfold rsum; cbn; ring).
    assert (LM : INR m + 1 <= INR n) by (rewrite <- S_INR; apply le_INR; lia). pose proof (pos_INR m).
    assert (X0 : 0 <= PI * INR m / INR n) by (apply Rmult_le_pos; [apply Rmult_le_pos; lra|left; apply Rinv_0_lt_compat, IN]).
    assert (D : PI * INR (S m) / INR n - PI * INR m / INR n = PI / INR n) by (rewrite S_INR; field; lra). assert (0 < PI / INR n) by (apply Rdiv_lt_0_compat; lra).
    assert (X1 : PI * INR (S m) / INR n <= PI). { rewrite S_INR. apply (Rmult_le_reg_r (INR n)); [exact IN|]. unfold Rdiv. rewrite Rmult_assoc, Rinv_l by lra. rewrite Rmult_1_r. apply Rmult_le_compat_l; lra. }
    pose proof (grid_step (PI * INR m / INR n) (PI * INR (S m) / INR n) X0 ltac:(lra) X1) as GS. rewrite D in GS. lra.
Qed.
Lemma grid_average n u : (0 < n)%nat -> G PI - G 0 = PI * u -> u <= rsum (map (fun k => g (PI * INR k / INR n)) (seq 0 n)) / INR n <= u + 1 / INR n.
Proof.
  intros N GU. pose proof (grid_sum n n ltac:(lia) N) as B. assert (IN : 0 < INR n) by (apply lt_0_INR, N). pose proof PI_RGT_0 as P.
  replace (PI * INR n / INR n) with PI in B by (field; lra). rewrite GU in B.
  set (t := rsum _) in *. clearbody t.
  replace (t * (PI / INR n)) with (PI * (t / INR n)) in B by (field; lra). replace ((1 - g PI) * (PI / INR n)) with (PI * ((1 - g PI) / INR n)) in B by (field; lra). destruct B as [B1 B2].
  split; [apply (Rmult_le_reg_l PI); lra|]. rewrite <- Rmult_minus_distr_l in B1. apply Rmult_le_reg_l in B1; [|exact P].
  assert ((1 - g PI) / INR n <= 1 / INR n). { unfold Rdiv. apply Rmult_le_compat_r; [left; apply Rinv_0_lt_compat, IN|]. pose proof (pos PI). lra. } lra.
Qed.
End Grid.

(* the logarithm of 1 - r exp(ix) for r = al + i be with |r| < 1: real and imaginary part *)
Section Log.
Variables al be : R.
Hypothesis small : al ^ 2 + be ^ 2 < 1.
Definition lx (x : R) : R := 1 - al * cos x + be * sin x.
Definition ly (x : R) : R := al * sin x + be * cos x.
Definition ld (x : R) : R := lx x * lx x + ly x * ly x.
Lemma lx_pos x : 0 < lx x.
Proof.
  unfold lx. pose proof (sin2_cos2 x) as SC. unfold Rsqr in SC. set (c := cos x) in *. set (t := sin x) in *. clearbody c t.
  assert (Q : (al * c - be * t) ^ 2 < 1).
  { assert (E : (al * c - be * t) ^ 2 + (al * t + be * c) ^ 2 = (al ^ 2 + be ^ 2) * (t * t + c * c)) by ring. rewrite SC, Rmult_1_r in E. pose proof (pow2_ge_0 (al * t + be * c)). lra. }
  destruct (Rlt_or_le (al * c - be * t) 1) as [|X]; [lra|exfalso]. assert (1 * 1 <= (al * c - be * t) * (al * c - be * t)) by (apply Rmult_le_compat; lra). lra.
Qed.
Lemma ld_pos x : 0 < ld x.
Proof. unfold ld. pose proof (lx_pos x). pose proof (Rmult_lt_0_compat _ _ H H). pose proof (pow2_ge_0 (ly x)). lra. Qed.
Lemma lx_der x : derivable_pt_lim lx x (ly x).
Proof.
  unfold lx. replace (ly x) with (0 - al * - sin x + be * cos x) by (unfold ly; ring).
  apply (derivable_pt_lim_plus (fun x => 1 - al * cos x) (fun x => be * sin x)).
  - apply (derivable_pt_lim_minus (fun _ => 1) (fun x => al * cos x)); [apply derivable_pt_lim_const|]. apply (derivable_pt_lim_scal cos al x). apply derivable_pt_lim_cos.
  - apply (derivable_pt_lim_scal sin be x). apply derivable_pt_lim_sin.
Qed.
Lemma ly_der x : derivable_pt_lim ly x (1 - lx x).
Proof.
  unfold ly. replace (1 - lx x) with (al * cos x + be * - sin x) by (unfold lx; ring).
  apply (derivable_pt_lim_plus (fun x => al * sin x) (fun x => be * cos x)).
  - apply (derivable_pt_lim_scal sin al x). apply derivable_pt_lim_sin.
  - apply (derivable_pt_lim_scal cos be x). apply derivable_pt_lim_cos.
Qed.
Definition lp (x : R) : R := atan (ly x / lx x).
Definition ln2 (x : R) : R := / 2 * ln (ld x).
Lemma lp_der x : derivable_pt_lim lp x (lx x / ld x - 1).
Proof.
  pose proof (lx_pos x) as XP. pose proof (ld_pos x) as DP.
  replace (lx x / ld x - 1) with (/ (1 + (ly x / lx x) ^ 2) * (((1 - lx x) * lx x - ly x * ly x) / Rsqr (lx x))).
  - apply (derivable_pt_lim_comp (fun x => ly x / lx x) atan x); [|apply derivable_pt_lim_atan].
    apply (derivable_pt_lim_div ly lx x); [apply ly_der|apply lx_der|lra].
  - unfold ld in *. unfold Rsqr. field. lra.
Qed.
Lemma ln2_der x : derivable_pt_lim ln2 x (ly x / ld x).
Proof.
  pose proof (ld_pos x) as DP.
  replace (ly x / ld x) with (/ 2 * (/ ld x * (ly x * lx x + lx x * ly x + ((1 - lx x) * ly x + ly x * (1 - lx x))))) by (field; lra).
  apply (derivable_pt_lim_scal (fun x => ln (ld x)) (/ 2) x). apply (derivable_pt_lim_comp ld ln x); [|apply derivable_pt_lim_ln, DP].
  apply (derivable_pt_lim_plus (fun x => lx x * lx x) (fun x => ly x * ly x)).
  - apply (derivable_pt_lim_mult lx lx); apply lx_der.
  - apply (derivable_pt_lim_mult ly ly); apply ly_der.
Qed.
End Log.

(* the algebra of the order 2 filter: q = ka + i mu, 1 / q = u + i v, r = (q - 1) / (q + 1) = al + i be, sl is the
   product of the square root of the parameter and the eigenvalue *)
Lemma filter_algebra ka mu u v al be sl c t : t * t = 1 - c * c -> u * ka - v * mu = 1 -> u * mu + v * ka = 0 ->
  let e := 1 - 2 * al * c + al ^ 2 - be ^ 2 in let f := - 2 * be * c + 2 * al * be in
  ka * e - mu * f = (1 - al ^ 2 + be ^ 2) + 2 * al * be * sl ->
  ka * f + mu * e = (1 - al ^ 2 + be ^ 2) * sl - 2 * al * be ->
  let x1 := 1 - al * c + be * t in let y1 := al * t + be * c in let x2 := 1 - al * c - be * t in let y2 := - (al * t) + be * c in
  let d1 := x1 * x1 + y1 * y1 in let d2 := x2 * x2 + y2 * y2 in
  0 < d1 -> 0 < d2 -> u * (x1 / d1 + x2 / d2 - 1) - v * (y1 / d1 + y2 / d2) = 1 / (1 + sl ^ 2).
Proof.
  intros T U1 U2 e f Q1 Q2 x1 y1 x2 y2 d1 d2 P1 P2.
  assert (D1 : d1 = 1 - 2 * al * c + al ^ 2 + be ^ 2 + 2 * be * t).
  { unfold d1, x1, y1. replace ((1 - al * c + be * t) * (1 - al * c + be * t) + (al * t + be * c) * (al * t + be * c)) with (1 - 2 * al * c + 2 * be * t + (al ^ 2 + be ^ 2) * (c * c + t * t)) by ring. rewrite T. ring. }
  assert (D2 : d2 = 1 - 2 * al * c + al ^ 2 + be ^ 2 - 2 * be * t).
  { unfold d2, x2, y2. replace ((1 - al * c - be * t) * (1 - al * c - be * t) + (- (al * t) + be * c) * (- (al * t) + be * c)) with (1 - 2 * al * c - 2 * be * t + (al ^ 2 + be ^ 2) * (c * c + t * t)) by ring. rewrite T. ring. }
  assert (PR : d1 * d2 = e ^ 2 + f ^ 2).
  { rewrite D1, D2. replace ((1 - 2 * al * c + al ^ 2 + be ^ 2 + 2 * be * t) * (1 - 2 * al * c + al ^ 2 + be ^ 2 - 2 * be * t)) with ((1 - 2 * al * c + al ^ 2 + be ^ 2) ^ 2 - 4 * be ^ 2 * (t * t)) by ring. rewrite T. unfold e, f. ring. }
  assert (NR : x1 * d2 + x2 * d1 - d1 * d2 = (1 - al ^ 2 + be ^ 2) * e - 2 * al * be * f).
  { rewrite PR, D1, D2. unfold x1, x2.
    replace ((1 - al * c + be * t) * (1 - 2 * al * c + al ^ 2 + be ^ 2 - 2 * be * t) + (1 - al * c - be * t) * (1 - 2 * al * c + al ^ 2 + be ^ 2 + 2 * be * t)) with (2 * (1 - al * c) * (1 - 2 * al * c + al ^ 2 + be ^ 2) - 4 * be ^ 2 * (t * t)) by ring.
    rewrite T. unfold e, f. ring. }
  assert (NI : y1 * d2 + y2 * d1 = - 2 * al * be * e - (1 - al ^ 2 + be ^ 2) * f).
  { rewrite D1, D2. unfold y1, y2.
    replace ((al * t + be * c) * (1 - 2 * al * c + al ^ 2 + be ^ 2 - 2 * be * t) + (- (al * t) + be * c) * (1 - 2 * al * c + al ^ 2 + be ^ 2 + 2 * be * t)) with (2 * be * c * (1 - 2 * al * c + al ^ 2 + be ^ 2) - 4 * al * be * (t * t)) by ring.
    rewrite T. unfold e, f. ring. }
  clearbody e f x1 x2 y1 y2 d1 d2. clear D1 D2 T.
  set (A := 1 - al ^ 2 + be ^ 2) in *. set (B := al * be).
  replace (2 * al * be) with (2 * B) in * by (unfold B; ring). replace (- 2 * al * be) with (- (2 * B)) in * by (unfold B; ring). clearbody A B.
  assert (SL : 0 < 1 + sl ^ 2) by (pose proof (pow2_ge_0 sl); lra).
  assert (EA : A * (1 + sl ^ 2) = (ka * e - mu * f) + (ka * f + mu * e) * sl) by (rewrite Q1, Q2; ring).
  assert (EB : - (2 * B) * (1 + sl ^ 2) = (ka * f + mu * e) - (ka * e - mu * f) * sl) by (rewrite Q1, Q2; ring).
  assert (KEY : (u * (A * e - 2 * B * f) - v * (- (2 * B) * e - A * f)) * (1 + sl ^ 2) = e ^ 2 + f ^ 2).
  { replace ((u * (A * e - 2 * B * f) - v * (- (2 * B) * e - A * f)) * (1 + sl ^ 2)) with ((A * (1 + sl ^ 2)) * (u * e + v * f) + (- (2 * B) * (1 + sl ^ 2)) * (u * f - v * e)) by ring.
    rewrite EA, EB. replace ((ka * e - mu * f + (ka * f + mu * e) * sl) * (u * e + v * f) + (ka * f + mu * e - (ka * e - mu * f) * sl) * (u * f - v * e)) with ((u * ka - v * mu) * (e ^ 2 + f ^ 2) + (u * mu + v * ka) * (e ^ 2 + f ^ 2) * sl) by ring.
    rewrite U1, U2. ring. }
  rewrite <- NR, <- NI, <- PR in KEY.
  apply (Rmult_eq_reg_r ((d1 * d2) * (1 + sl ^ 2))); [|apply Rmult_integral_contrapositive_currified; [apply Rmult_integral_contrapositive_currified|]; lra].
  transitivity (d1 * d2); [|field; lra]. rewrite <- KEY at 2. field. lra.
Qed.

Lemma filter_values m c : 1 < m ->
  let ka := (m ^ 2 + 1) / (2 * m) in let mu := (m ^ 2 - 1) / (2 * m) in let al := (m - 1) ^ 2 / (m ^ 2 + 1) in let be := 2 * m * (m - 1) / ((m ^ 2 + 1) * (m + 1)) in
  let sl := ka * mu / 2 * (2 - 2 * c) in
  let e := 1 - 2 * al * c + al ^ 2 - be ^ 2 in let f := - 2 * be * c + 2 * al * be in
  ka * e - mu * f = (1 - al ^ 2 + be ^ 2) + 2 * al * be * sl /\ ka * f + mu * e = (1 - al ^ 2 + be ^ 2) * sl - 2 * al * be.
Proof.
  intros M. cbn zeta. assert (0 < m ^ 2) by (apply pow_lt; lra). split; field; lra.
Qed.

Section Average2.
Variable s : R.
Hypothesis sp : 0 < s.
Let a := sqrt (1 + 16 * s).
Let ka := sqrt ((1 + a) / 2).
Let mu := sqrt ((a - 1) / 2).
Let al := (ka - 1) / ka.
Let be := mu / (ka * (ka + 1)).
Let u := ka / a.
Let v := - (mu / a).
Definition g2 (x : R) : R := 1 / (1 + s * (2 - 2 * cos x) ^ 2).
Definition G2 (x : R) : R := u * (x + (lp al be x - lp al be (- x))) - v * (ln2 al be x - ln2 al be (- x)).
Lemma facts : 1 < a /\ a ^ 2 = 1 + 16 * s /\ 1 < ka /\ 0 < mu /\ ka ^ 2 = (1 + a) / 2 /\ mu ^ 2 = (a - 1) / 2 /\ ka ^ 2 = 1 + mu ^ 2 /\ (ka * mu) ^ 2 = 4 * s.
Proof.
  assert (A : 1 < a) by (apply root_above; lra). assert (A2 : a ^ 2 = 1 + 16 * s) by (unfold a; rewrite pow2_sqrt; lra).
  assert (K2 : ka ^ 2 = (1 + a) / 2) by (unfold ka; rewrite pow2_sqrt; lra). assert (M2 : mu ^ 2 = (a - 1) / 2) by (unfold mu; rewrite pow2_sqrt; lra).
  assert (0 < mu) by (apply sqrt_lt_R0; lra). assert (1 < ka) by (unfold ka; rewrite <- sqrt_1 at 1; apply sqrt_lt_1; lra).
  repeat (split; [assumption|]). split; [lra|]. replace ((ka * mu) ^ 2) with (ka ^ 2 * mu ^ 2) by ring. rewrite K2, M2. lra.
Qed.
Lemma r_small : al ^ 2 + be ^ 2 < 1.
Proof.
  destruct facts as (A & A2 & K & M & K2 & M2 & KM & P). unfold al, be.
  replace (((ka - 1) / ka) ^ 2 + (mu / (ka * (ka + 1))) ^ 2) with (((ka - 1) ^ 2 * (ka + 1) ^ 2 + mu ^ 2) / (ka ^ 2 * (ka + 1) ^ 2)) by (field; lra).
  replace (mu ^ 2) with ((ka - 1) * (ka + 1)) by lra.
  replace (((ka - 1) ^ 2 * (ka + 1) ^ 2 + (ka - 1) * (ka + 1)) / (ka ^ 2 * (ka + 1) ^ 2)) with (1 - 2 / (ka + 1)) by (field; lra).
  assert (0 < 2 / (ka + 1)) by (apply Rdiv_lt_0_compat; lra). lra.
Qed.
Lemma values c : let sl := ka * mu / 2 * (2 - 2 * c) in
  let e := 1 - 2 * al * c + al ^ 2 - be ^ 2 in let f := - 2 * be * c + 2 * al * be in
  ka * e - mu * f = (1 - al ^ 2 + be ^ 2) + 2 * al * be * sl /\ ka * f + mu * e = (1 - al ^ 2 + be ^ 2) * sl - 2 * al * be.
Proof.
  destruct facts as (A & A2 & K & M & K2 & M2 & KM & P). pose (m := ka + mu). assert (M1 : 1 < m) by (unfold m; lra).
  assert (IM : (ka - mu) * m = 1) by (unfold m; replace ((ka - mu) * (ka + mu)) with (ka ^ 2 - mu ^ 2) by ring; lra).
  assert (MQ : 0 < m ^ 2) by (apply pow_lt; lra).
  assert (E1 : ka = (m ^ 2 + 1) / (2 * m)). { apply (Rmult_eq_reg_r (2 * m)); [|lra]. transitivity (m ^ 2 + 1); [|field; lra]. rewrite <- IM. unfold m. ring. }
  assert (E2 : mu = (m ^ 2 - 1) / (2 * m)). { apply (Rmult_eq_reg_r (2 * m)); [|lra]. transitivity (m ^ 2 - 1); [|field; lra]. rewrite <- IM. unfold m. ring. }
  assert (E3 : al = (m - 1) ^ 2 / (m ^ 2 + 1)). { unfold al. rewrite E1. field. lra. }
  assert (E4 : be = 2 * m * (m - 1) / ((m ^ 2 + 1) * (m + 1))).
  { unfold be. rewrite E1, E2. field. split; [lra|]. split; [lra|]. split; [|lra]. assert (0 < (m + 1) ^ 2) by (apply pow_lt; lra). lra. }
  rewrite E3, E4. rewrite E1, E2. apply filter_values. exact M1.
Qed.
Lemma G2_der x : derivable_pt_lim G2 x (g2 x).
Proof.
  destruct facts as (A & A2 & K & M & K2 & M2 & KM & P). pose proof r_small as RS. destruct (values (cos x)) as [Q1 Q2].
  pose proof (sin2_cos2 x) as SC. unfold Rsqr in SC. assert (T : sin x * sin x = 1 - cos x * cos x) by lra.
  assert (AA : a = ka ^ 2 + mu ^ 2) by lra.
  assert (U1 : u * ka - v * mu = 1) by (unfold u, v; rewrite AA; field; lra).
  assert (U2 : u * mu + v * ka = 0) by (unfold u, v; rewrite AA; field; lra).
  pose proof (ld_pos al be RS x) as P1. pose proof (ld_pos al be RS (- x)) as P2. unfold ld in P1, P2.
  assert (LX : lx al be (- x) = 1 - al * cos x - be * sin x) by (unfold lx; rewrite cos_neg, sin_neg; ring).
  assert (LY : ly al be (- x) = - (al * sin x) + be * cos x) by (unfold ly; rewrite cos_neg, sin_neg; ring).
  pose proof (filter_algebra ka mu u v al be (ka * mu / 2 * (2 - 2 * cos x)) (cos x) (sin x) T U1 U2 Q1 Q2) as FA. cbn zeta in FA.
  rewrite LX, LY in P2. unfold lx, ly in P1. specialize (FA P1 P2).
  assert (E : g2 x = u * (1 + ((lx al be x / ld al be x - 1) - (lx al be (- x) / ld al be (- x) - 1) * -1)) - v * (ly al be x / ld al be x - ly al be (- x) / ld al be (- x) * -1)).
  { unfold g2. replace (s * (2 - 2 * cos x) ^ 2) with ((ka * mu / 2 * (2 - 2 * cos x)) ^ 2).
    - rewrite <- FA. unfold ld. rewrite LX, LY. unfold lx, ly. ring.
    - replace ((ka * mu / 2 * (2 - 2 * cos x)) ^ 2) with ((ka * mu) ^ 2 / 4 * (2 - 2 * cos x) ^ 2) by field. rewrite P. field. }
  rewrite E. assert (NEG : derivable_pt_lim (fun x => - x) x (-1)).
  { apply (derivable_pt_lim_opp (fun x => x)). apply derivable_pt_lim_id. }
  unfold G2.
  apply (derivable_pt_lim_minus (fun x => u * (x + (lp al be x - lp al be (- x)))) (fun x => v * (ln2 al be x - ln2 al be (- x)))).
  - apply (derivable_pt_lim_scal (fun x => x + (lp al be x - lp al be (- x))) u).
    apply (derivable_pt_lim_plus (fun x => x) (fun x => lp al be x - lp al be (- x))); [apply derivable_pt_lim_id|].
    apply (derivable_pt_lim_minus (lp al be) (fun x => lp al be (- x))); [apply lp_der, RS|].
    apply (derivable_pt_lim_comp (fun x => - x) (lp al be)); [exact NEG|apply lp_der, RS].
  - apply (derivable_pt_lim_scal (fun x => ln2 al be x - ln2 al be (- x)) v).
    apply (derivable_pt_lim_minus (ln2 al be) (fun x => ln2 al be (- x))); [apply ln2_der, RS|].
    apply (derivable_pt_lim_comp (fun x => - x) (ln2 al be)); [exact NEG|apply ln2_der, RS].
Qed.
Lemma G2_ends : G2 PI - G2 0 = PI * u.
Proof.
  unfold G2, lp, ln2, ld, lx, ly. rewrite !Ropp_0, !cos_neg, !sin_neg, sin_PI, cos_PI, sin_0, cos_0.
  replace (- (0)) with 0 by ring. ring.
Qed.
Lemma g2_decr x y : 0 <= x -> x <= y -> y <= PI -> g2 y <= g2 x.
Proof.
  intros A B C. assert (CC : cos y <= cos x) by (apply cos_decr_1; lra). unfold g2, Rdiv. rewrite !Rmult_1_l. pose proof (COS_bound x).
  assert (Q : (2 - 2 * cos x) ^ 2 <= (2 - 2 * cos y) ^ 2) by (apply pow_incr; lra). pose proof (pow2_ge_0 (2 - 2 * cos x)). apply Rinv_le_contravar.
  - assert (0 <= s * (2 - 2 * cos x) ^ 2) by (apply Rmult_le_pos; lra). lra.
  - assert (s * (2 - 2 * cos x) ^ 2 <= s * (2 - 2 * cos y) ^ 2) by (apply Rmult_le_compat_l; lra). lra.
Qed.
Lemma g2_pos x : 0 < g2 x.
Proof. unfold g2. pose proof (pow2_ge_0 (2 - 2 * cos x)). assert (0 <= s * (2 - 2 * cos x) ^ 2) by (apply Rmult_le_pos; lra). apply Rdiv_lt_0_compat; lra. Qed.
Lemma g2_start : g2 0 = 1.
Proof. unfold g2. rewrite cos_0. field. Qed.
Lemma u_leverage : u = leverage 2 s.
Proof.
  destruct facts as (A & _). unfold u, leverage. cbn [Nat.eqb]. fold a. unfold ka. rewrite sqrt_div_alt by lra. reflexivity.
Qed.
Lemma average2_bounds n : (0 < n)%nat -> leverage 2 s <= rsum (map (fun k => g2 (PI * INR k / INR n)) (seq 0 n)) / INR n <= leverage 2 s + 1 / INR n.
Proof. intros N. rewrite <- u_leverage. apply (grid_average g2 G2 G2_der g2_decr g2_start g2_pos n u N G2_ends). Qed.
End Average2.

Lemma influence_leverage2 n s t : (2 <= n)%nat -> 0 < s -> influence 2 [n] s t -> leverage 2 s <= t / INR n <= leverage 2 s + 1 / INR n.
Proof.
  intros N SP IN. apply (influence_gamma [n] (lamN [n]) 2 s) in IN; [|intros k _; reflexivity|lra|right; reflexivity]. subst t.
  replace (total [n] (gamma s (lamN [n]) 2)) with (rsum (map (fun k => g2 s (PI * INR k / INR n)) (seq 0 n))); [apply average2_bounds; [exact SP|lia]|].
  unfold total. cbn [indices]. rewrite (map_ext_in _ (fun k => gamma s (lamN [n]) 2 [k])).
  - clear. induction (seq 0 n) as [|k l IH]; [reflexivity|]. cbn [map flat_map app rsum]. rewrite IH. reflexivity.
  - intros k _. unfold gamma, g2. cbn [lamN]. unfold lambda1. rewrite Rplus_0_r. reflexivity.
Qed.
