(* Julian dates in double precision: whole days, and the tests of the windows. *)
From Coq Require Import ZArith Reals List Lia Lra Bool.
From Flocq Require Import Core IEEE754.BinarySingleNaN.
From Verif Require Import Calendar FloatModel FloatSpec FloatProofs FloatProofs4 FloatProps JdModel JdSpec JdProofs.
From Verif Require RollingModel.
Import ListNotations.
Open Scope R_scope.

(* ---- rounding commutes with adding whole days ---- *)
Lemma floor_shift x n : Zfloor (x + IZR n) = (Zfloor x + n)%Z.
Proof. apply Zfloor_imp. pose proof (Zfloor_lb x). pose proof (Zfloor_ub x). rewrite !plus_IZR. lra. Qed.
Lemma ceil_shift x n : Zceil (x + IZR n) = (Zceil x + n)%Z.
Proof. unfold Zceil. replace (- (x + IZR n)) with (- x + IZR (- n)) by (rewrite opp_IZR; ring). rewrite floor_shift. lia. Qed.
Lemma nearest_shift x m : ZnearestE (x + IZR (2 * m)) = (ZnearestE x + 2 * m)%Z.
Proof.
  unfold Znearest. rewrite floor_shift, ceil_shift. replace (x + IZR (2 * m) - IZR (Zfloor x + 2 * m)) with (x - IZR (Zfloor x)) by (rewrite plus_IZR; ring).
  assert (EV : Z.even (Zfloor x + 2 * m) = Z.even (Zfloor x)) by (rewrite Z.even_add, Z.even_mul; cbn; destruct (Z.even (Zfloor x)); reflexivity).
  destruct (Rcompare _ _); [rewrite EV; destruct (negb _); reflexivity|reflexivity|reflexivity].
Qed.
Lemma round_binade x : 2097152 <= x < 4194304 -> rnd x = IZR (ZnearestE (x * 2147483648)) * / 2147483648.
Proof.
  intros L. unfold FloatProofs.rnd, round, scaled_mantissa, cexp. assert (M : mag radix2 x = 22%Z :> Z).
  { apply mag_unique. rewrite Rabs_pos_eq by lra. change (bpow radix2 (22 - 1)) with 2097152. change (bpow radix2 22) with 4194304. lra. }
  rewrite M. unfold F2R. cbn [Fnum Fexp]. replace (FLT_exp (3 - 1024 - 53) 53 22) with (-31)%Z by reflexivity. reflexivity.
Qed.
Lemma round_shift x k : 2097152 <= x < 4194304 -> 2097152 <= x + IZR k < 4194304 -> rnd (x + IZR k) = rnd x + IZR k.
Proof.
  intros A B. rewrite !round_binade by assumption. replace ((x + IZR k) * 2147483648) with (x * 2147483648 + IZR (2 * (k * 1073741824))) by (rewrite !mult_IZR; ring).
  rewrite nearest_shift, plus_IZR, !mult_IZR. field.
Qed.

(* time stamps that are a number of whole days apart *)
Lemma same_time a b k : valid_stamp a -> valid_stamp b -> (ns_time b = ns_time a + k * (24 * 60 * 60 * 10 ^ 9))%Z ->
  ordinal (st_date b) = (ordinal (st_date a) + k)%Z /\ st_h a = st_h b /\ st_mi a = st_mi b /\ st_s a = st_s b /\ st_us a = st_us b /\ st_ns a = st_ns b.
Proof.
  intros (_ & _ & A1 & A2 & A3 & A4 & A5) (_ & _ & B1 & B2 & B3 & B4 & B5). unfold ns_time, ns_of_day. intros E.
  change (24 * 60 * 60 * 10 ^ 9)%Z with 86400000000000%Z in *. change (10 ^ 9)%Z with 1000000000%Z in *. change (10 ^ 6)%Z with 1000000%Z in *.
  assert (D : ordinal (st_date b) = (ordinal (st_date a) + k)%Z) by lia. split; [exact D|].
  assert (E2 : (((st_h b * 60 + st_mi b) * 60 + st_s b) * 1000000000 + st_us b * 1000 + st_ns b = ((st_h a * 60 + st_mi a) * 60 + st_s a) * 1000000000 + st_us a * 1000 + st_ns a)%Z) by lia.
  lia.
Qed.
Lemma whole_days a b k : valid_stamp a -> valid_stamp b -> (ns_time b = ns_time a + k * (24 * 60 * 60 * 10 ^ 9))%Z ->
  B2R (julian_date 53 1024 p53 e1024 b) = B2R (julian_date 53 1024 p53 e1024 a) + IZR k.
Proof.
  intros Va Vb E. destruct (same_time a b k Va Vb E) as (D & Q1 & Q2 & Q3 & Q4 & Q5).
  assert (FE : jd_fraction 53 1024 p53 e1024 b = jd_fraction 53 1024 p53 e1024 a) by (unfold jd_fraction; rewrite Q1, Q2, Q3, Q4, Q5; reflexivity).
  destruct (jd_near a Va) as [Fa _]. destruct (jd_near b Vb) as [Fb _]. unfold julian_date in *. rewrite (fadd_val 53 1024 p53 e1024 _ _ Fa), (fadd_val 53 1024 p53 e1024 _ _ Fb).
  destruct (half_day a Va) as [_ Ha]. destruct (half_day b Vb) as [_ Hb]. rewrite Ha, Hb, FE.
  destruct (fraction_near a Va) as [[_ N] Fr]. apply Rabs_le_inv in N. set (f := B2R (jd_fraction 53 1024 p53 e1024 a)) in *.
  pose proof (day_range a Va) as DA. pose proof (day_range b Vb) as DB. assert (DD : jd_days (st_date b) = (jd_days (st_date a) + k)%Z).
  { rewrite !jd_ordinal by (first [apply Va|apply Vb]). lia. }
  rewrite DD in *. assert (NA : 2333000 <= IZR (jd_days (st_date a)) <= 2548000) by (split; apply IZR_le; lia).
  assert (NB : 2333000 <= IZR (jd_days (st_date a) + k) <= 2548000) by (split; apply IZR_le; lia). rewrite plus_IZR in *.
  assert (U : 10 * u <= / 4) by (unfold u; lra).
  replace (IZR (jd_days (st_date a)) + IZR k + / 2 + f) with (IZR (jd_days (st_date a)) + / 2 + f + IZR k) by ring. apply round_shift; lra.
Qed.

(* ---- times in whole milliseconds: the Julian date is the rounded exact one ---- *)
Lemma nearest_stable x y : Rabs (x - y) < / 200000 -> (forall j, / 168750 <= Rabs (y - (IZR j + / 2))) -> ZnearestE x = ZnearestE y.
Proof.
  intros D H. apply Znearest_imp. set (z := ZnearestE y) in *.
  assert (A : Rabs (y - IZR z) <= / 2) by (unfold z; apply Znearest_half).
  pose proof (H z) as H1. pose proof (H (z - 1)%Z) as H2. rewrite minus_IZR in H2. apply Rabs_le_inv in A. apply Rabs_def2 in D.
  apply Rabs_def1; unfold Rabs in H1, H2; destruct (Rcase_abs (y - (IZR z + / 2))); destruct (Rcase_abs (y - (IZR z - 1 + / 2))); lra.
Qed.
Lemma exact_range s : valid_stamp s -> 2333000 <= exact_jd s <= 2548002.
Proof.
  intros V. unfold exact_jd. pose proof (day_range s V) as D. destruct (fraction_near s V) as [_ F].
  assert (2333000 <= IZR (jd_days (st_date s)) <= 2548000) by (split; apply IZR_le; lia). lra.
Qed.
Lemma jd_rounded s : valid_stamp s -> in_ms s -> B2R (julian_date 53 1024 p53 e1024 s) = rnd (exact_jd s).
Proof.
  intros V (m & M). destruct (jd_near s V) as [Fs _]. pose proof (exact_range s V) as ER. unfold julian_date in *. rewrite (fadd_val 53 1024 p53 e1024 _ _ Fs).
  destruct (half_day s V) as [_ Hs]. rewrite Hs. destruct (fraction_near s V) as [[_ N] Fr]. set (f := B2R (jd_fraction 53 1024 p53 e1024 s)) in *.
  assert (U : 10 * u <= / 600000000000000) by (unfold u; lra).
  assert (C : Rabs (IZR (jd_days (st_date s)) + / 2 + f - exact_jd s) <= 10 * u) by (unfold exact_jd; replace (_ - _) with (f - exact_fraction s) by ring; exact N).
  pose proof C as C'. apply Rabs_le_inv in C'.
  rewrite !round_binade by lra. do 2 f_equal. apply nearest_stable.
  - replace (_ - _) with ((IZR (jd_days (st_date s)) + / 2 + f - exact_jd s) * 2147483648) by ring. rewrite Rabs_mult, (Rabs_pos_eq 2147483648) by lra. unfold u in C. lra.
  - intros j. rewrite exact_jd_time by exact V. rewrite M. change (10 ^ 6)%Z with 1000000%Z.
    set (d := (m * 4194304 + 84375 * (2 * (3442849 * 1073741824 - j) - 1))%Z).
    assert (E : (IZR (m * 1000000) / 86400000000000 + 1721424 + / 2) * 2147483648 - (IZR j + / 2) = IZR d * / 168750).
    { unfold d. rewrite plus_IZR, !mult_IZR, !minus_IZR, !mult_IZR, !minus_IZR, !mult_IZR. field. }
    rewrite E, Rabs_mult, (Rabs_pos_eq (/ 168750)) by lra. assert (OD : (1 <= Z.abs d)%Z) by (unfold d; lia). apply IZR_le in OD. rewrite abs_IZR in OD. lra.
Qed.
Lemma round_part x k : 2097152 <= x < 4194304 -> 2097152 <= x + IZR k / 128 < 4194304 -> rnd (x + IZR k / 128) = rnd x + IZR k / 128.
Proof.
  intros A B. rewrite !round_binade by assumption. replace ((x + IZR k / 128) * 2147483648) with (x * 2147483648 + IZR (2 * (k * 8388608))) by (rewrite !mult_IZR; field).
  rewrite nearest_shift, plus_IZR, !mult_IZR. field.
Qed.
Lemma part_days a b k : valid_stamp a -> valid_stamp b -> in_ms a -> in_ms b -> (ns_time b = ns_time a + k * (675 * 10 ^ 9))%Z ->
  B2R (julian_date 53 1024 p53 e1024 b) = B2R (julian_date 53 1024 p53 e1024 a) + IZR k / 128.
Proof.
  intros Va Vb Ma Mb E. rewrite !jd_rounded by assumption. pose proof (exact_range a Va) as RA. pose proof (exact_range b Vb) as RB.
  assert (EE : exact_jd b = exact_jd a + IZR k / 128).
  { rewrite !exact_jd_time by assumption. rewrite E. change (675 * 10 ^ 9)%Z with 675000000000%Z. rewrite plus_IZR, mult_IZR. field. }
  rewrite EE in *. apply round_part; lra.
Qed.
Lemma window_part k : (0 <= k <= 6832127)%Z -> is_finite (window_days 53 1024 p53 e1024 (k * (675 * 10 ^ 9))) = true /\ B2R (window_days 53 1024 p53 e1024 (k * (675 * 10 ^ 9))) = IZR k / 128.
Proof.
  intros K. unfold window_days, ns_per_day. change (86400 * 10 ^ 9)%Z with 86400000000000%Z. change (675 * 10 ^ 9)%Z with 675000000000%Z.
  assert (KR : 0 <= IZR k <= 6832127) by (split; apply IZR_le; lia).
  assert (G : generic_format radix2 (FLT_exp (3 - 1024 - 53) 53) (IZR (k * 675000000000))).
  { apply generic_format_FLT. exists (Float radix2 (k * 1318359375) 9); cbn [Fnum Fexp]; [|change (Zpower radix2 53) with (2 ^ 53)%Z; lia|lia].
    unfold F2R. cbn [Fnum Fexp]. change (bpow radix2 9) with (IZR 512). rewrite <- mult_IZR. f_equal. lia. }
  assert (R1 : rnd (IZR (k * 675000000000)) = IZR (k * 675000000000)) by (apply round_generic; auto with typeclass_instances).
  destruct (z_exact 86400000000000 ltac:(lia)) as [F2 E2].
  assert (G2 : generic_format radix2 (FLT_exp (3 - 1024 - 53) 53) (IZR k / 128)).
  { apply generic_format_FLT. exists (Float radix2 k (-7)); cbn [Fnum Fexp]; [|change (Zpower radix2 53) with (2 ^ 53)%Z; lia|lia].
    unfold F2R. cbn [Fnum Fexp]. change (bpow radix2 (-7)) with (/ 128). reflexivity. }
  assert (Rk : rnd (IZR k / 128) = IZR k / 128) by (apply round_generic; auto with typeclass_instances).
  assert (QQ : IZR (k * 675000000000) / 86400000000000 = IZR k / 128) by (rewrite mult_IZR; field).
  destruct (of_z_cases 53 1024 p53 e1024 (k * 675000000000)) as [[_ [F [V _]]]|[O _]].
  - destruct (fdiv_cases 53 1024 p53 e1024 (of_z (k * 675000000000)) (of_z 86400000000000) F ltac:(rewrite E2; lra)) as [[_ [FF VV]]|[O _]]; rewrite V, E2, R1, QQ, Rk in *.
    + split; assumption.
    + exfalso. assert (S : Rabs (IZR k / 128) <= 2 ^ 100) by (rewrite Rabs_pos_eq by lra; lra). pose proof (round_small _ S) as X. rewrite Rk in X. lra.
  - exfalso. assert (S : Rabs (IZR (k * 675000000000)) <= 2 ^ 100) by (rewrite mult_IZR, Rabs_pos_eq by lra; lra). pose proof (round_small _ S). lra.
Qed.

(* ---- the tests ---- *)
Notation jd := (julian_date 53 1024 p53 e1024).
Notation win := (window_days 53 1024 p53 e1024).
Lemma same_value (a b : double) : is_finite a = true -> is_finite b = true -> B2R a = B2R b -> Bleb a b = true /\ Bltb a b = false.
Proof. intros Fa Fb E. rewrite Bleb_correct, Bltb_correct by assumption. rewrite E. split; [apply Rle_bool_true; lra|apply Rlt_bool_false; lra]. Qed.
Lemma apart x y : (200000 <= Z.abs (x - y))%Z -> / 432000000 <= Rabs (IZR x / 86400000000000 - IZR y / 86400000000000).
Proof.
  intros L. apply IZR_le in L. rewrite abs_IZR, minus_IZR in L. replace (IZR x / 86400000000000 - IZR y / 86400000000000) with ((IZR x - IZR y) * / 86400000000000) by field.
  rewrite Rabs_mult, (Rabs_pos_eq (/ 86400000000000)) by lra. lra.
Qed.
Lemma frac_le x y : IZR x / 86400000000000 <= IZR y / 86400000000000 <-> (x <= y)%Z.
Proof. split; intros H; [apply le_IZR; lra|apply IZR_le in H; lra]. Qed.
Lemma frac_lt x y : IZR x / 86400000000000 < IZR y / 86400000000000 <-> (x < y)%Z.
Proof. split; intros H; [apply lt_IZR; lra|apply IZR_lt in H; lra]. Qed.

Section Tests.
Variables (w : Z) (wd : double) (a b : stamp).
Hypothesis W : (200000 <= w <= 2 ^ 62)%Z.
(* the window as a number of days: close to the exact one, and equal to it for 128th parts of days *)
Hypothesis NW : near wd (IZR w / 86400000000000) ewin.
Hypothesis EW : forall k, (0 <= k <= 6832127)%Z -> w = (k * (675 * 10 ^ 9))%Z -> B2R wd = IZR k / 128.
Hypothesis Va : valid_stamp a.
Hypothesis Vb : valid_stamp b.
Hypothesis CL : clear_of w a b.

Lemma wr : 0 <= IZR w / 86400000000000 <= 53376.
Proof. assert (0 <= IZR w <= 4611686018427387904) by (split; apply IZR_le; lia). lra. Qed.
(* times that are exactly w apart *)
Lemma parts s t : (s = a /\ t = b) \/ (s = b /\ t = a) -> Z.abs (ns_time a - ns_time b) = w -> (ns_time t = ns_time s + w)%Z -> B2R (jd t) = B2R (jd s) + B2R wd.
Proof.
  intros ST C E. assert (VS : valid_stamp s /\ valid_stamp t) by (destruct ST as [[-> ->]|[-> ->]]; split; assumption).
  destruct CL as [X|(_ & [(k & K)|(Ma & Mb & k & K)])]; [lia| |].
  - change (24 * 60 * 60 * 10 ^ 9)%Z with 86400000000000%Z in K. rewrite (EW (k * 128)) by (try change (675 * 10 ^ 9)%Z with 675000000000%Z; lia). rewrite mult_IZR.
    replace (IZR k * 128 / 128) with (IZR k) by field. apply whole_days; try tauto. change (24 * 60 * 60 * 10 ^ 9)%Z with 86400000000000%Z. lia.
  - rewrite (EW k) by (try change (675 * 10 ^ 9)%Z with 675000000000%Z in *; lia). apply part_days; try tauto; try lia; destruct ST as [[-> ->]|[-> ->]]; assumption.
Qed.
(* the bounds of the window of a *)
Lemma lower_test_wd : (Bleb (fsub (jd a) wd) (jd b) = true <-> (ns_time a - w <= ns_time b)%Z) /\ (Bltb (fsub (jd a) wd) (jd b) = true <-> (ns_time a - w < ns_time b)%Z).
Proof.
  destruct (Z_le_dec 200000 (Z.abs (ns_time a - w - ns_time b))) as [L|L].
  - pose proof wr as WR. pose proof (exact_range a Va) as JA. pose proof u_pos as U.
    assert (N : near (fsub (jd a) wd) (exact_jd a - IZR w / 86400000000000) (ejd + ewin + u * 4194306)).
    { apply near_sub with (e := ejd) (f := ewin) (M := 4194304); try lra; [apply jd_near; exact Va|exact NW|rewrite Rabs_pos_eq; lra|unfold ejd, ewin, u; lra]. }
    pose proof (apart _ _ L) as AP. destruct (near_leb _ _ _ _ _ _ N (jd_near b Vb)) as [L1 L2].
    { rewrite !exact_jd_time by assumption. rewrite minus_IZR in AP.
      replace (IZR (ns_time a) / 86400000000000 + 1721424 + / 2 - IZR w / 86400000000000 - (IZR (ns_time b) / 86400000000000 + 1721424 + / 2))
        with ((IZR (ns_time a) - IZR w) / 86400000000000 - IZR (ns_time b) / 86400000000000) by field.
      unfold ejd, ewin, u in *. lra. }
    rewrite L1, L2, !exact_jd_time by assumption. rewrite <- frac_le, <- frac_lt, minus_IZR. split; split; lra.
  - (* a is w later than b *)
    assert (E : Z.abs (ns_time a - ns_time b) = w /\ (ns_time a = ns_time b + w)%Z) by (destruct CL as [C|(C & _)]; lia). destruct E as [E1 E2].
    destruct NW as [Fw _]. destruct (jd_near a Va) as [Fa _]. destruct (jd_near b Vb) as [Fb _]. pose proof (parts b a ltac:(tauto) E1 E2) as WD.
    assert (V : B2R (fsub (jd a) wd) = B2R (jd b) /\ is_finite (fsub (jd a) wd) = true).
    { destruct (fsub_cases 53 1024 p53 e1024 (jd a) wd Fa Fw) as [[_ [F V]]|[O _]]; rewrite WD in *; replace (B2R (jd b) + B2R wd - B2R wd) with (B2R (jd b)) in * by ring; rewrite rnd_id in *.
      - split; assumption.
      - exfalso. pose proof (abs_B2R_lt_emax 53 1024 (jd b)). unfold big in O. lra. }
    destruct V as [V F]. destruct (same_value _ _ F Fb V) as [S1 S2]. rewrite S1, S2. split; split; intros; try reflexivity; try discriminate; lia.
Qed.
Lemma upper_test_wd : Bltb (fadd (jd a) wd) (jd b) = true <-> (ns_time a + w < ns_time b)%Z.
Proof.
  destruct (Z_le_dec 200000 (Z.abs (ns_time a + w - ns_time b))) as [L|L].
  - pose proof wr as WR. pose proof (exact_range a Va) as JA. pose proof u_pos as U.
    assert (N : near (fadd (jd a) wd) (exact_jd a + IZR w / 86400000000000) (ejd + ewin + u * 4194306)).
    { apply near_add with (e := ejd) (f := ewin) (M := 4194304); try lra; [apply jd_near; exact Va|exact NW|rewrite Rabs_pos_eq; lra|unfold ejd, ewin, u; lra]. }
    pose proof (apart _ _ L) as AP. destruct (near_leb _ _ _ _ _ _ N (jd_near b Vb)) as [L1 L2].
    { rewrite !exact_jd_time by assumption. rewrite plus_IZR in AP.
      replace (IZR (ns_time a) / 86400000000000 + 1721424 + / 2 + IZR w / 86400000000000 - (IZR (ns_time b) / 86400000000000 + 1721424 + / 2))
        with ((IZR (ns_time a) + IZR w) / 86400000000000 - IZR (ns_time b) / 86400000000000) by field.
      unfold ejd, ewin, u in *. lra. }
    rewrite L2, !exact_jd_time by assumption. rewrite <- frac_lt, plus_IZR. split; lra.
  - assert (E : Z.abs (ns_time a - ns_time b) = w /\ (ns_time b = ns_time a + w)%Z) by (destruct CL as [C|(C & _)]; lia). destruct E as [E1 E2].
    destruct NW as [Fw _]. destruct (jd_near a Va) as [Fa _]. destruct (jd_near b Vb) as [Fb _]. pose proof (parts a b ltac:(tauto) E1 E2) as WD.
    assert (V : B2R (fadd (jd a) wd) = B2R (jd b) /\ is_finite (fadd (jd a) wd) = true).
    { destruct (fadd_cases 53 1024 p53 e1024 (jd a) wd Fa Fw) as [[_ [F V]]|[O _]]; rewrite <- WD, rnd_id in *.
      - split; assumption.
      - exfalso. pose proof (abs_B2R_lt_emax 53 1024 (jd b)). unfold big in O. lra. }
    destruct V as [V F]. destruct (same_value _ _ F Fb V) as [S1 S2]. rewrite S2. split; intros; try discriminate; lia.
Qed.
End Tests.

Section Rolling.
Variables (w : Z) (a b : stamp).
Hypothesis W : (200000 <= w <= 2 ^ 62)%Z.
Hypothesis Va : valid_stamp a.
Hypothesis Vb : valid_stamp b.
Hypothesis CL : clear_of w a b.
Lemma win_part k : (0 <= k <= 6832127)%Z -> w = (k * (675 * 10 ^ 9))%Z -> B2R (win w) = IZR k / 128.
Proof. intros K ->. apply window_part. exact K. Qed.
Lemma lower_test : (Bleb (fsub (jd a) (win w)) (jd b) = true <-> (ns_time a - w <= ns_time b)%Z) /\ (Bltb (fsub (jd a) (win w)) (jd b) = true <-> (ns_time a - w < ns_time b)%Z).
Proof. apply lower_test_wd; try assumption; [apply window_near; lia|exact win_part]. Qed.
Lemma upper_test : Bltb (fadd (jd a) (win w)) (jd b) = true <-> (ns_time a + w < ns_time b)%Z.
Proof. apply upper_test_wd; try assumption; [apply window_near; lia|exact win_part]. Qed.
End Rolling.
