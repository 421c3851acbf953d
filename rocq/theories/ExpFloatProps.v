(* C105: the exponential filter in floating point arithmetic. *)
From Coq Require Import ZArith Reals List Lia Lra Bool.
From Flocq Require Import Core IEEE754.BinarySingleNaN.
From Verif Require Import FloatModel FloatSpec FloatProofs FloatProofs4 TypedModel TypedProofs ExpFloatModel ExpFloatSpec ExpFloatProofs ExpFloatProofs2 ExpFloatProofs3 ExpFloatProofs4.
Import ListNotations.
Open Scope R_scope.

Lemma Forall_firstn {A} (P : A -> Prop) (l : list A) k : (forall j a, (j <= k)%nat -> nth_error l j = Some a -> P a) -> forall a, In a (firstn (S k) l) -> P a.
Proof.
  intros H a J. apply In_nth_error in J as [j E]. assert (L : (j < List.length (firstn (S k) l))%nat) by (apply nth_error_Some; rewrite E; discriminate).
  rewrite firstn_length in L. apply (H j); [lia|]. rewrite <- (firstn_skipn (S k) l). rewrite nth_error_app1 by (rewrite firstn_length; lia). exact E.
Qed.

(* a value for every date, NaN exactly at the missing ones; the others are numbers between the smallest and the largest valid
   value so far, up to four rounding errors of the largest magnitude, however long the series is *)
Theorem C105_range :
  forall (exp64 : double -> double) (nan : double) (ctime : Z) (pts : list (double * double)),
    exp_ok exp64 -> (1 <= ctime < 2 ^ 31)%Z -> chronological pts ->
    List.length (f_exp_filter exp64 nan ctime pts) = List.length pts /\
    forall k t x, nth_error pts k = Some (t, x) ->
      (f_missing nan x = true -> nth_error (f_exp_filter exp64 nan ctime pts) k = Some B754_nan) /\
      (f_missing nan x = false -> forall M lo hi, 0 <= M <= bpow radix2 1000 -> - M <= lo -> hi <= M ->
         (forall j tj xj, (j <= k)%nat -> nth_error pts j = Some (tj, xj) -> f_missing nan xj = false -> is_finite xj = true /\ lo <= B2R xj <= hi) ->
         exists y, nth_error (f_exp_filter exp64 nan ctime pts) k = Some y /\ is_finite y = true /\ lo - 4 * eps * M <= B2R y <= hi + 4 * eps * M).
Proof.
  intros exp64 nan ctime pts EO CT CH. split; [apply filter_length|]. intros k t x E. split.
  - intros MI. clear EO CT CH. revert k E. assert (HL : forall l k t0 last g, nth_error l k = Some (t, x) -> nth_error (f_exp_loop exp64 nan ctime t0 last g l) k = Some B754_nan).
    { induction l as [|[a b] r IH]; intros [|k] t0 last g E; try discriminate E; cbn [f_exp_loop].
      - injection E as -> ->. rewrite MI. reflexivity.
      - destruct (f_missing nan b); apply IH; exact E. }
    induction pts as [|[a b] r IH]; intros [|k] E; try discriminate E; cbn [f_exp_filter].
    + injection E as -> ->. rewrite MI. reflexivity.
    + destruct (f_missing nan b); [apply IH, E|apply HL, E].
  - intros MI M lo hi MB LO HI V. destruct (chrono_sorted_0 _ (chrono_firstn (S k) pts CH)) as [t0 S0].
    pose proof (filter_right exp64 nan ctime EO CT M lo hi MB LO HI (firstn (S k) pts) t0 S0) as H. rewrite eps_u.
    assert (W : forall a b, In (a, b) (firstn (S k) pts) -> f_missing nan b = false -> good_value lo hi b).
    { intros a b J. refine (Forall_firstn (fun p => f_missing nan (snd p) = false -> good_value lo hi (snd p)) pts k _ (a, b) J). intros j [pt px] JK E' Q. exact (V j pt px JK E' Q). }
    destruct (Forall2_nth _ _ _ (H W) k (t, x)) as (y & Y1 & Y2).
    { rewrite nth_firstn. exact E. }
    exists y. rewrite <- filter_firstn, nth_firstn in Y1. split; [exact Y1|]. unfold right_at in Y2. cbn [snd] in Y2. rewrite MI in Y2. exact Y2.
Qed.
Print Assumptions C105_range.

(* a series that is constant apart from gaps is returned unchanged, without any rounding error *)
Theorem C105_constant :
  forall (exp64 : double -> double) (nan : double) (ctime : Z) (pts : list (double * double)) (c : R),
    exp_ok exp64 -> (1 <= ctime < 2 ^ 31)%Z -> chronological pts -> Rabs c <= bpow radix2 1000 ->
    (forall t x, In (t, x) pts -> f_missing nan x = false -> is_finite x = true /\ B2R x = c) ->
    forall k t x, nth_error pts k = Some (t, x) -> f_missing nan x = false ->
      exists y, nth_error (f_exp_filter exp64 nan ctime pts) k = Some y /\ is_finite y = true /\ B2R y = c.
Proof.
  intros exp64 nan ctime pts c EO CT CH CB V k t x E MI. destruct (chrono_sorted_0 _ CH) as [t0 S0].
  destruct (Forall2_nth _ _ _ (filter_c exp64 nan ctime EO CT c CB pts t0 S0 V) k (t, x) E) as (y & Y1 & Y2). exists y. split; [exact Y1|].
  unfold c_at in Y2. cbn [snd] in Y2. rewrite MI in Y2. exact Y2.
Qed.
Print Assumptions C105_constant.

(* one step back in time by 89 characteristic times or more: from there on every valid date gets the last value before the
   step, whatever the data are, as long as dates do not move by more than 88 (back) or 100 (on) characteristic times *)
Theorem C105_step_back_refuted :
  forall (exp64 : double -> double) (nan : double) (ctime : Z) (pre : list (double * double)) (t1 x1 : double) (l : list (double * double)),
    exp_ok exp64 -> exp_grows exp64 -> (1 <= ctime < 2 ^ 31)%Z -> chronological (pre ++ [(t1, x1)]) -> f_missing nan x1 = false ->
    (forall t x, In (t, x) (pre ++ (t1, x1) :: l) -> good_time t /\ (f_missing nan x = false -> is_finite x = true /\ Rabs (B2R x) <= bpow radix2 999)) ->
    (forall t x, In (t, x) l -> f_missing nan x = false) ->
    (exists t x r, l = (t, x) :: r /\ B2R t <= B2R t1 - 89 * IZR ctime) ->
    (forall k p q, nth_error l k = Some p -> nth_error l (S k) = Some q -> B2R (fst p) - 88 * IZR ctime <= B2R (fst q) <= B2R (fst p) + 100 * IZR ctime) ->
    exists y, nth_error (f_exp_filter exp64 nan ctime (pre ++ (t1, x1) :: l)) (List.length pre) = Some y /\
      forall k, (k < List.length l)%nat -> exists z, nth_error (f_exp_filter exp64 nan ctime (pre ++ (t1, x1) :: l)) (List.length pre + 1 + k) = Some z /\ is_finite z = true /\ B2R z = B2R y.
Proof.
  intros exp64 nan ctime pre t1 x1 l EO EG CT CH M1 V VL J ST.
  assert (BB : bpow radix2 1000 = 2 * bpow radix2 999) by (change 1000%Z with (999 + 1)%Z; apply bp_succ). pose proof (bpow_gt_0 radix2 999) as BP.
  assert (MB : 0 <= bpow radix2 999 <= bpow radix2 1000) by lra.
  destruct (chrono_sorted_0 _ CH) as [t0 S0].
  assert (S1 : sorted_from t0 pre /\ (forall t x, In (t, x) pre -> B2R t <= B2R t1) /\ good_time t1).
  { destruct CH as [G C]. split; [|split; [|apply (G t1 x1); apply in_or_app; right; left; reflexivity]].
    - clear -S0. revert t0 S0. induction pre as [|[t x] r IH]; intros t0 S; [exact Logic.I|]. destruct S as (A & B & D). split; [exact A|]. split; [exact B|apply IH, D].
    - intros t x I0. apply In_nth_error in I0 as [i N]. assert (LT : (i < List.length pre)%nat) by (apply nth_error_Some; rewrite N; discriminate).
      apply (C i (List.length pre) (t, x) (t1, x1) LT); [rewrite nth_error_app1 by exact LT; exact N|]. rewrite nth_error_app2, Nat.sub_diag by lia. reflexivity. }
  destruct S1 as (S1 & L1 & T1).
  assert (GV : forall t x, In (t, x) (pre ++ (t1, x1) :: l) -> f_missing nan x = false -> good_value (- bpow radix2 999) (bpow radix2 999) x).
  { intros t x I0 Q. destruct (V t x I0) as [_ W]. destruct (W Q) as [F K]. split; [exact F|]. apply Rabs_le_inv in K. exact K. }
  destruct (filter_split exp64 nan ctime EO CT (bpow radix2 999) MB pre t0 S1 (fun t x I0 => GV t x (in_or_app _ _ _ (or_introl I0))) t1 x1 T1 L1 M1) with (l := l) as (outs & y & g & A & [Fy Ky] & G & E).
  { apply (GV t1 x1); [apply in_or_app; right; left; reflexivity|exact M1]. }
  pose proof (slack_0 (bpow radix2 999) MB) as SL. rewrite E, <- A. exists y. split; [rewrite nth_error_app2, Nat.sub_diag by lia; reflexivity|].
  destruct J as (t & x & r & -> & JB).
  assert (VT : forall a b, In (a, b) ((t, x) :: r) -> good_time a /\ is_finite b = true /\ Rabs (B2R b) <= bpow radix2 1000).
  { intros a b I0. destruct (V a b) as [W1 W2]; [apply in_or_app; right; right; exact I0|]. destruct (W2 (VL a b I0)) as [F K]. split; [exact W1|]. split; [exact F|lra]. }
  destruct (VT t x (or_introl eq_refl)) as (Tt & Fx & Kx).
  assert (MO : forall q ts, good_time ts -> (forall a b, In (a, b) q -> good_time a /\ is_finite b = true /\ Rabs (B2R b) <= bpow radix2 1000) -> (forall a b, In (a, b) q -> f_missing nan b = false) ->
    (forall k p p', nth_error ((ts, x) :: q) k = Some p -> nth_error ((ts, x) :: q) (S k) = Some p' -> B2R (fst p) - 88 * IZR ctime <= B2R (fst p') <= B2R (fst p) + 100 * IZR ctime) -> moderate nan ctime ts q).
  { induction q as [|[a b] q IH]; intros ts Ts HV HM HS; [exact Logic.I|]. cbn [moderate]. rewrite (HM a b (or_introl eq_refl)). destruct (HV a b (or_introl eq_refl)) as (Ta & Fb & Kb).
    pose proof (HS 0%nat (ts, x) (a, b) eq_refl eq_refl) as [B1 B2]. cbn [fst] in B1, B2.
    split; [apply exponent_val; assumption|]. split; [split; [change (-100) with (IZR (-100)); apply exponent_ge; try assumption; [lia|]|change 88 with (IZR 88); apply exponent_le; try assumption; [lia|]]; lra|].
    split; [exact Fb|]. split; [exact Kb|]. apply IH; [exact Ta|intros; apply HV; right; assumption|intros a0 b0 I0; apply (HM a0 b0); right; exact I0|].
    intros k p p' N1 N2. destruct k as [|k]; [injection N1 as <-; apply (HS 1%nat (a, b) p' eq_refl N2)|apply (HS (S (S k)) p p' N1 N2)]. }
  assert (MR : moderate nan ctime t r).
  { apply MO; [exact Tt|intros; apply VT; right; assumption|intros a b I0; apply (VL a b); right; exact I0|].
    intros k p p' N1 N2. destruct k as [|k]; [injection N1 as <-; apply (ST 0%nat (t, x) p' eq_refl N2)|apply (ST (S k) p p' N1 N2)]. }
  pose proof (jump_stuck exp64 nan ctime EG t1 y g t x r Fy ltac:(apply Rabs_le; lra) G (VL t x (or_introl eq_refl)) Fx Kx (proj1 (exponent_val ctime CT t1 t T1 Tt)) ltac:(change 89 with (IZR 89); apply exponent_ge; try assumption; [lia|lra]) MR) as H.
  intros k KL. destruct (nth_error ((t, x) :: r) k) as [[a b]|] eqn:N; [|apply nth_error_None in N; lia].
  destruct (Forall2_nth _ _ _ H k (a, b) N) as (z & Z1 & Z2). exists z. split.
  - rewrite nth_error_app2 by lia. replace (List.length outs + 1 + k - List.length outs)%nat with (S k) by lia. exact Z1.
  - unfold c_at in Z2. cbn [snd] in Z2. rewrite (VL a b) in Z2 by (apply nth_error_In in N; exact N). exact Z2.
Qed.
Print Assumptions C105_step_back_refuted.

(* the same, and then a gap of 105 characteristic times: everything after the gap is NaN *)
Theorem C105_step_back_gap_refuted :
  forall (exp64 : double -> double) (nan : double) (ctime : Z) (t1 x1 t2 x2 t3 x3 : double) (l : list (double * double)),
    exp_grows exp64 -> (1 <= ctime < 2 ^ 31)%Z -> good_time t1 -> good_time t2 -> good_time t3 ->
    f_missing nan x1 = false -> f_missing nan x2 = false -> f_missing nan x3 = false ->
    B2R t2 <= B2R t1 - 89 * IZR ctime -> B2R t2 + 105 * IZR ctime <= B2R t3 ->
    exists y1 y2, f_exp_filter exp64 nan ctime ((t1, x1) :: (t2, x2) :: (t3, x3) :: l) = y1 :: y2 :: map (fun _ => B754_nan) ((t3, x3) :: l).
Proof.
  intros exp64 nan ctime t1 x1 t2 x2 t3 x3 l EG CT T1 T2 T3 M1 M2 M3 J1 J2. cbn [f_exp_filter]. rewrite M1.
  remember ((t3, x3) :: l) as r eqn:Er. cbn [f_exp_loop]. rewrite M2. cbv zeta. eexists _, _. f_equal. f_equal. subst r.
  apply (jump_nan exp64 nan ctime EG); try assumption.
  - replace (f_ef exp64 ctime t1 t2) with (B754_infinity false : single); [apply gain_inf; apply one_gain|]. symmetry. apply ef_inf. apply EG; [apply (exponent_val ctime CT t1 t2 T1 T2)|].
    change 89 with (IZR 89). apply exponent_ge; try assumption; [lia|lra].
  - apply (exponent_val ctime CT t2 t3 T2 T3).
  - change (-105) with (IZR (-105)). apply exponent_le; try assumption; [lia|]. lra.
Qed.
Print Assumptions C105_step_back_gap_refuted.

(* ---- concrete cases ---- *)
Definition d_of (z : Z) : double := z64 z.
Definition tiny_minus : double := binary_normalize 53 1024 p53 e1024 mode_NE (-1) (-60) false.
(* without the allowance for rounding: -1, and -2^-60 after a long gap: the result is 0, above both *)
Theorem C105_exact_range_refuted :
  forall exp64, exp_grows exp64 ->
    let pts := [(d_of 0, d_of (-1)); (d_of 2000, tiny_minus)] in
    (forall t x, In (t, x) pts -> is_finite x = true /\ Bltb x (B754_zero false) = true /\ f_missing (d_of (-999999)) x = false) /\
    exists y1 y2, f_exp_filter exp64 (d_of (-999999)) 10 pts = [y1; y2] /\ Beqb y2 (B754_zero false) = true.
Proof.
  intros exp64 EG pts. split.
  - intros t x [E|[E|[]]]; injection E as <- <-; repeat split; vm_compute; reflexivity.
  - unfold pts. cbn [f_exp_filter f_exp_loop].
    replace (f_missing (d_of (-999999)) (d_of (-1))) with false by (vm_compute; reflexivity). replace (f_missing (d_of (-999999)) tiny_minus) with false by (vm_compute; reflexivity).
    eexists _, _. split; [reflexivity|].
    assert (Z : exists s, f_ef exp64 10 (d_of 0) (d_of 2000) = B754_zero s).
    { assert (F : is_finite (exponent 10 (d_of 0) (d_of 2000)) = true) by (vm_compute; reflexivity).
      assert (B : B2R (exponent 10 (d_of 0) (d_of 2000)) <= -105).
      { assert (G : forall z, (Z.abs z < 2 ^ 53)%Z -> is_finite (d_of z) = true /\ B2R (d_of z) = IZR z).
        { intros z Hz. unfold d_of. destruct (of_z_cases 53 1024 p53 e1024 z) as [[_ [F1 [V1 _]]]|[O _]]; [split; [exact F1|rewrite V1; apply rnd_fmt, int_fmt, Hz]|].
          exfalso. rewrite (rnd_fmt _ (int_fmt z Hz)) in O. rewrite <- abs_IZR in O. unfold big in O. assert (IZR (Z.abs z) <= bp 53) by (change (bp 53) with (IZR (2 ^ 53)); apply IZR_le; lia).
          assert (bp 53 < bp 1024) by (apply bpow_lt; lia). lra. }
        destruct (G 0%Z ltac:(lia)) as [A1 A2]. destruct (G 2000%Z ltac:(lia)) as [B1 B2].
        assert (GT : forall x, is_finite x = true -> Rabs (B2R x) <= 2000 -> good_time x) by (intros x Fx Kx; split; [exact Fx|]; apply Rle_trans with (bp 11); [change (bp 11) with 2048; lra|apply bpow_le; lia]).
        change (-105) with (IZR (-105)). apply exponent_le; [lia|apply GT; [exact A1|rewrite A2, Rabs_R0; lra]|apply GT; [exact B1|rewrite B2, Rabs_pos_eq by lra; lra]|lia|rewrite A2, B2; lra]. }
      destruct EG as (_ & _ & E3). destruct (E3 _ F B) as [Fy By]. destruct (ef_zero _ Fy By) as [Fs Zs]. change (to_single (exp64 (exponent 10 (d_of 0) (d_of 2000)))) with (f_ef exp64 10 (d_of 0) (d_of 2000)) in Fs, Zs.
      destruct (f_ef exp64 10 (d_of 0) (d_of 2000)) as [s|s| |s m ex H]; try discriminate Fs; [exists s; reflexivity|]. exfalso. revert Zs. cbn [B2R]. apply F2R_neq_0. destruct s; discriminate. }
    destruct Z as [s ->]. destruct s; vm_compute; reflexivity.
Qed.
Print Assumptions C105_exact_range_refuted.

(* the first valid value is returned as it is, and what comes later in the series changes nothing before *)
Theorem C105_first_and_past :
  forall (exp64 : double -> double) (nan : double) (ctime : Z) (pts more : list (double * double)),
    (forall k t x, nth_error pts k = Some (t, x) -> f_missing nan x = false ->
       (forall j tj xj, (j < k)%nat -> nth_error pts j = Some (tj, xj) -> f_missing nan xj = true) -> nth_error (f_exp_filter exp64 nan ctime pts) k = Some x) /\
    firstn (List.length pts) (f_exp_filter exp64 nan ctime (pts ++ more)) = f_exp_filter exp64 nan ctime pts.
Proof.
  intros exp64 nan ctime pts more. split.
  - induction pts as [|[a b] r IH]; intros [|k] t x E MI V; try discriminate E; cbn [f_exp_filter].
    + injection E as -> ->. rewrite MI. reflexivity.
    + rewrite (V 0%nat a b ltac:(lia) eq_refl). apply (IH k t x E MI). intros j tj xj J N. apply (V (S j) tj xj); [lia|exact N].
  - rewrite filter_firstn, firstn_app, Nat.sub_diag, firstn_all, app_nil_r. reflexivity.
Qed.
Print Assumptions C105_first_and_past.

(* the correctly rounded exponential function is such an exp *)
Theorem C105_exp_met : exp_ok exp_rounded /\ exp_grows exp_rounded.
Proof. exact (conj exp_rounded_ok exp_rounded_grows). Qed.
Print Assumptions C105_exp_met.

(* ---- the hypotheses are met ---- *)
Lemma d_of_val z : (Z.abs z < 2 ^ 53)%Z -> is_finite (d_of z) = true /\ B2R (d_of z) = IZR z.
Proof.
  intros Hz. unfold d_of. destruct (of_z_cases 53 1024 p53 e1024 z) as [[_ [F1 [V1 _]]]|[O _]]; [split; [exact F1|rewrite V1; apply rnd_fmt, int_fmt, Hz]|].
  exfalso. rewrite (rnd_fmt _ (int_fmt z Hz)) in O. rewrite <- abs_IZR in O. unfold big in O. assert (IZR (Z.abs z) <= bp 53) by (change (bp 53) with (IZR (2 ^ 53)); apply IZR_le; lia).
  assert (bp 53 < bp 1024) by (apply bpow_lt; lia). lra.
Qed.
Lemma d_of_time z : (Z.abs z < 2 ^ 53)%Z -> good_time (d_of z).
Proof.
  intros Hz. destruct (d_of_val z Hz) as [F V]. split; [exact F|]. rewrite V, <- abs_IZR. apply Rle_trans with (bp 53); [change (bp 53) with (IZR (2 ^ 53)); apply IZR_le; lia|apply bpow_le; lia].
Qed.
(* a series given in whole numbers *)
Definition series (l : list (Z * Z)) : list (double * double) := map (fun p => (d_of (fst p), d_of (snd p))) l.
Lemma series_chrono l : (forall t x, In (t, x) l -> (Z.abs t < 2 ^ 53)%Z) -> (forall i j p q, (i < j)%nat -> nth_error l i = Some p -> nth_error l j = Some q -> (fst p <= fst q)%Z) -> chronological (series l).
Proof.
  intros B S. split.
  - intros t x J. apply in_map_iff in J as ([a b] & E & J). injection E as <- <-. apply d_of_time, (B a b J).
  - intros i j p q IJ E1 E2. unfold series in *. rewrite nth_error_map in E1, E2. destruct (nth_error l i) as [[a b]|] eqn:N1; [|discriminate]. destruct (nth_error l j) as [[c d]|] eqn:N2; [|discriminate].
    injection E1 as <-. injection E2 as <-. cbn [fst]. rewrite (proj2 (d_of_val a (B a b (nth_error_In _ _ N1)))), (proj2 (d_of_val c (B c d (nth_error_In _ _ N2)))). apply IZR_le. apply (S i j (a, b) (c, d) IJ N1 N2).
Qed.
Lemma series_in l t x : In (t, x) (series l) -> exists a b, In (a, b) l /\ t = d_of a /\ x = d_of b.
Proof. intros J. apply in_map_iff in J as ([a b] & E & J). exists a, b. cbn [fst snd] in E. split; [exact J|]. split; congruence. Qed.
Lemma series_nth l k p : nth_error (series l) k = Some p -> exists a b, nth_error l k = Some (a, b) /\ p = (d_of a, d_of b).
Proof. unfold series. rewrite nth_error_map. destruct (nth_error l k) as [[a b]|]; [|discriminate]. cbn [option_map fst snd]. intros E. exists a, b. split; [reflexivity|congruence]. Qed.
Example C105_range_met :
  let pts := series [(0, 5); (1, -999999); (3, 9)]%Z in
  chronological pts /\ map (fun p => f_missing (d_of (-999999)) (snd p)) pts = [false; true; false] /\
  exists y1 y3, f_exp_filter exp_rounded (d_of (-999999)) 10 pts = [y1; B754_nan; y3] /\ is_finite y3 = true /\ 5 - 36 * eps <= B2R y3 <= 9 + 36 * eps.
Proof.
  intros pts. assert (CH : chronological pts).
  { apply series_chrono.
    - intros t x [E|[E|[E|[]]]]; injection E as <- <-; reflexivity.
    - intros [|[|[|i]]] [|[|[|j]]] p q IJ E1 E2; try lia; cbn in E1, E2; try (injection E1 as <-; injection E2 as <-; cbn; lia); destruct j; discriminate. }
  assert (MM : map (fun p => f_missing (d_of (-999999)) (snd p)) pts = [false; true; false]) by (vm_compute; reflexivity).
  split; [exact CH|]. split; [exact MM|].
  assert (M1 : f_missing (d_of (-999999)) (d_of 5) = false) by (vm_compute; reflexivity). assert (M2 : f_missing (d_of (-999999)) (d_of (-999999)) = true) by (vm_compute; reflexivity).
  assert (M3 : f_missing (d_of (-999999)) (d_of 9) = false) by (vm_compute; reflexivity).
  destruct (C105_range exp_rounded (d_of (-999999)) 10 pts exp_rounded_ok ltac:(lia) CH) as [L H].
  destruct (H 2%nat (d_of 3) (d_of 9) eq_refl) as [_ H2]. destruct (H 1%nat (d_of 1) (d_of (-999999)) eq_refl) as [H1 _]. specialize (H1 M2).
  destruct (H2 M3 9 5 9) as (y & Y1 & Y2 & Y3); try lra.
  - split; [lra|]. apply Rle_trans with (bp 4); [change (bp 4) with 16; lra|apply bpow_le; lia].
  - intros j tj xj J E MI. destruct (d_of_val 5 ltac:(lia)) as [F5 V5]. destruct (d_of_val 9 ltac:(lia)) as [F9 V9]. destruct j as [|[|[|j]]]; [| | |lia].
    + change (Some (d_of 0, d_of 5) = Some (tj, xj)) in E. assert (X : xj = d_of 5) by congruence. rewrite X, V5. split; [exact F5|lra].
    + change (Some (d_of 1, d_of (-999999)) = Some (tj, xj)) in E. assert (X : xj = d_of (-999999)) by congruence. rewrite X, M2 in MI. discriminate.
    + change (Some (d_of 3, d_of 9) = Some (tj, xj)) in E. assert (X : xj = d_of 9) by congruence. rewrite X, V9. split; [exact F9|lra].
  - change (List.length pts) with 3%nat in L. destruct (f_exp_filter exp_rounded (d_of (-999999)) 10 pts) as [|a [|b [|c [|? ?]]]]; try discriminate L. cbn in H1, Y1. injection H1 as ->. injection Y1 as ->.
    exists a, y. split; [reflexivity|]. split; [exact Y2|]. lra.
Qed.
(* ctime 10, a step back from day 1000 to day 0: 7, 8, ... are ignored *)
Example C105_step_back_met :
  let f := f_exp_filter exp_rounded (d_of (-999999)) 10 (series [(1000, 5); (0, 7); (1, 8); (2, 9)]%Z) in
  exists y, nth_error f 0 = Some y /\ forall k, (k < 3)%nat -> exists z, nth_error f (1 + k) = Some z /\ is_finite z = true /\ B2R z = B2R y.
Proof.
  assert (MM : forall z, In z [5; 7; 8; 9]%Z -> f_missing (d_of (-999999)) (d_of z) = false) by (intros z [E|[E|[E|[E|[]]]]]; subst z; vm_compute; reflexivity).
  refine (C105_step_back_refuted exp_rounded (d_of (-999999)) 10 [] (d_of 1000) (d_of 5) (series [(0, 7); (1, 8); (2, 9)]%Z) exp_rounded_ok exp_rounded_grows ltac:(lia) _ _ _ _ _ _).
  - apply (series_chrono [(1000, 5)%Z]); [intros t x [E|[]]; injection E as <- <-; reflexivity|]. intros [|i] [|j] p q IJ E1 E2; try lia; destruct j; discriminate.
  - apply MM. left. reflexivity.
  - assert (G : forall z, (Z.abs z <= 1000)%Z -> is_finite (d_of z) = true /\ Rabs (B2R (d_of z)) <= bpow radix2 999).
    { intros z Hz. destruct (d_of_val z ltac:(lia)) as [F V]. split; [exact F|]. rewrite V, <- abs_IZR. apply Rle_trans with (bp 10); [change (bp 10) with (IZR 1024); apply IZR_le; lia|apply bpow_le; lia]. }
    intros t x J. apply (series_in [(1000, 5); (0, 7); (1, 8); (2, 9)]%Z) in J as (a & b & J & -> & ->). cbn [In] in J.
    assert (B : (0 <= a <= 1000 /\ 0 <= b <= 1000)%Z) by (destruct J as [E|[E|[E|[E|[]]]]]; injection E as <- <-; lia). split; [apply d_of_time; lia|intros _; apply G; lia].
  - intros t x J. apply series_in in J as (a & b & J & -> & ->). apply MM. cbn [In] in *. destruct J as [E|[E|[E|[]]]]; injection E as <- <-; auto.
  - exists (d_of 0), (d_of 7), (series [(1, 8); (2, 9)]%Z). split; [reflexivity|]. rewrite (proj2 (d_of_val 0 ltac:(lia))), (proj2 (d_of_val 1000 ltac:(lia))). lra.
  - intros k p q E1 E2. apply series_nth in E1 as (a & b & E1 & ->). apply series_nth in E2 as (c & d & E2 & ->). cbn [fst].
    assert (B : (c = a + 1 /\ 0 <= a <= 2)%Z) by (destruct k as [|[|k]]; cbn in E1, E2; [| |destruct k; discriminate]; injection E1 as <- <-; injection E2 as <- <-; lia).
    rewrite (proj2 (d_of_val a ltac:(lia))), (proj2 (d_of_val c ltac:(lia))). destruct B as [-> _]. rewrite plus_IZR. lra.
Qed.
Example C105_step_back_gap_met :
  exists y1 y2, f_exp_filter exp_rounded (d_of (-999999)) 10 (series [(1000, 5); (0, 7); (2000, 8); (2001, 9)]%Z) = [y1; y2; B754_nan; B754_nan].
Proof.
  refine (C105_step_back_gap_refuted exp_rounded (d_of (-999999)) 10 (d_of 1000) (d_of 5) (d_of 0) (d_of 7) (d_of 2000) (d_of 8) (series [(2001, 9)]%Z) exp_rounded_grows ltac:(lia)
    (d_of_time 1000 eq_refl) (d_of_time 0 eq_refl) (d_of_time 2000 eq_refl) _ _ _ _ _); try (vm_compute; reflexivity);
    rewrite (proj2 (d_of_val 0 ltac:(lia))); [rewrite (proj2 (d_of_val 1000 ltac:(lia)))|rewrite (proj2 (d_of_val 2000 ltac:(lia)))]; lra.
Qed.
Example C105_constant_met :
  let pts := series [(0, 5); (1, -999999); (3, 5)]%Z in
  chronological pts /\ (forall t x, In (t, x) pts -> f_missing (d_of (-999999)) x = false -> is_finite x = true /\ B2R x = 5).
Proof.
  split.
  - apply series_chrono.
    + intros t x [E|[E|[E|[]]]]; injection E as <- <-; reflexivity.
    + intros [|[|[|i]]] [|[|[|j]]] p q IJ E1 E2; try lia; cbn in E1, E2; try (injection E1 as <-; injection E2 as <-; cbn; lia); destruct j; discriminate.
  - intros t x J M. apply series_in in J as (a & b & J & -> & ->). cbn [In] in J. assert (B : b = 5%Z \/ b = (-999999)%Z) by (destruct J as [E|[E|[E|[]]]]; injection E as <- <-; auto).
    destruct B as [->| ->]; [apply (d_of_val 5); lia|]. exfalso. revert M. replace (f_missing (d_of (-999999)) (d_of (-999999))) with true by (vm_compute; reflexivity). discriminate.
Qed.
