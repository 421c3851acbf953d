(* Julian dates in double precision: how far they are from the exact values. *)
From Coq Require Import ZArith Reals List Lia Lra Bool.
From Flocq Require Import Core IEEE754.BinarySingleNaN.
From Verif Require Import Calendar FloatModel FloatSpec FloatProofs FloatProofs4 FloatProps JdModel JdSpec.
Import ListNotations.
Open Scope R_scope.

(* ---- the calendar ---- *)
Lemma month_cases m : (1 <= m <= 12)%Z -> (m = 1 \/ m = 2 \/ m = 3 \/ m = 4 \/ m = 5 \/ m = 6 \/ m = 7 \/ m = 8 \/ m = 9 \/ m = 10 \/ m = 11 \/ m = 12)%Z.
Proof. lia. Qed.
Lemma leap_div y : (y / 4 - y / 100 + y / 400 = (y - 1) / 4 - (y - 1) / 100 + (y - 1) / 400 + if leap y then 1 else 0)%Z.
Proof.
  unfold leap. assert (D : (y = 400 * (y / 400) + y mod 400 /\ 0 <= y mod 400 < 400)%Z) by (split; [apply Z.div_mod; lia|apply Z.mod_pos_bound; lia]).
  destruct (Z.eqb_spec (y mod 4) 0); destruct (Z.eqb_spec (y mod 100) 0); destruct (Z.eqb_spec (y mod 400) 0); cbn [negb andb orb]; Z.to_euclidean_division_equations; lia.
Qed.
Lemma jd_ordinal d : (1 <= dm d <= 12)%Z -> jd_days d = (ordinal d + 1721424)%Z.
Proof.
  intros M. destruct d as [y m dd]. unfold jd_days, ordinal, doy_year. cbn [dy dm Calendar.dd] in *. pose proof (leap_div y) as L.
  destruct (month_cases m M) as [E|[E|[E|[E|[E|[E|[E|[E|[E|[E|[E|E]]]]]]]]]]]; subst m; cbn [Z.ltb Z.compare Pos.compare Pos.compare_cont];
    rewrite ?andb_true_r, ?andb_false_r; destruct (leap y); cbn [negb];
    repeat match goal with |- context [(?a / 5)%Z] => let v := eval vm_compute in (a / 5)%Z in change (a / 5)%Z with v end;
    repeat match goal with |- context [days_past ?a] => let v := eval vm_compute in (days_past a) in change (days_past a) with v end; lia.
Qed.

(* ---- one rounding ---- *)
Notation rnd := (FloatProofs.rnd 53 1024).
Notation fadd := (FloatModel.fadd 53 1024 p53 e1024).
Notation fsub := (FloatModel.fsub 53 1024 p53 e1024).
Notation fdiv := (FloatModel.fdiv 53 1024 p53 e1024).
Notation of_z := (FloatModel.of_z 53 1024 p53 e1024).
Definition u : R := / 9007199254740992.
Lemma u_is : unit_roundoff 53 = u.
Proof. unfold unit_roundoff, u. change (bpow radix2 (1 - 53)) with (/ IZR (2 ^ 52)). change (2 ^ 52)%Z with 4503599627370496%Z. lra. Qed.
Lemma tiny_small : 0 <= tiny 53 1024 <= u.
Proof.
  split; [apply (tiny_pos 53 1024)|]. rewrite <- u_is. unfold tiny, unit_roundoff.
  assert (bpow radix2 (3 - 1024 - 53) <= bpow radix2 (1 - 53)) by (apply bpow_le; lia). lra.
Qed.
Lemma u_pos : 0 < u. Proof. unfold u. lra. Qed.
(* the rounded value of something close to X *)
Lemma round_err x X e M : Rabs (x - X) <= e -> Rabs X <= M -> e <= 1 -> Rabs (rnd x - X) <= e + u * (M + 2).
Proof.
  intros E L E1. pose proof (err_any 53 1024 p53 x) as A. rewrite u_is in A. pose proof tiny_small as T. pose proof u_pos as U.
  assert (Rabs x <= M + 1). { replace x with ((x - X) + X) by ring. eapply Rle_trans; [apply Rabs_triang|]. lra. }
  replace (rnd x - X) with ((rnd x - x) + (x - X)) by ring. eapply Rle_trans; [apply Rabs_triang|].
  assert (u * Rabs x <= u * (M + 1)) by (apply Rmult_le_compat_l; lra). lra.
Qed.
Lemma round_small x : Rabs x <= 2 ^ 100 -> Rabs (rnd x) < big 1024.
Proof.
  intros L. assert (P : (2 ^ 100 : R) = bpow radix2 100). { change 2 with (IZR 2). rewrite pow_IZR. reflexivity. }
  rewrite P in L. assert (R1 : rnd (bpow radix2 100) = bpow radix2 100) by (apply (rnd_bpow 53 1024 p53); lia).
  apply Rle_lt_trans with (bpow radix2 100); [|apply bpow_lt; lia]. apply Rabs_le. apply Rabs_le_inv in L. split.
  - rewrite <- R1, <- rnd_opp. apply (rnd_le 53 1024 p53). lra.
  - rewrite <- R1. apply (rnd_le 53 1024 p53). lra.
Qed.

(* a double close to a real number *)
Definition near (a : double) (X e : R) : Prop := is_finite a = true /\ Rabs (B2R a - X) <= e.
Lemma near_add a b X Y e f M g : near a X e -> near b Y f -> Rabs (X + Y) <= M -> e + f <= 1 -> M <= 2 ^ 50 -> e + f + u * (M + 2) <= g -> near (fadd a b) (X + Y) g.
Proof.
  intros [Fa Ea] [Fb Eb] L E1 M1 G. assert (E : Rabs (B2R a + B2R b - (X + Y)) <= e + f).
  { replace (B2R a + B2R b - (X + Y)) with ((B2R a - X) + (B2R b - Y)) by ring. eapply Rle_trans; [apply Rabs_triang|lra]. }
  assert (S : Rabs (B2R a + B2R b) <= 2 ^ 100).
  { replace (B2R a + B2R b) with ((B2R a + B2R b - (X + Y)) + (X + Y)) by ring. eapply Rle_trans; [apply Rabs_triang|].
    assert (2 ^ 50 + 1 <= 2 ^ 100) by lra. lra. }
  destruct (fadd_cases 53 1024 p53 e1024 a b Fa Fb) as [[_ [F V]]|[O _]]; [|pose proof (round_small _ S); lra].
  split; [exact F|]. rewrite V. eapply Rle_trans; [apply round_err; [exact E|exact L|exact E1]|exact G].
Qed.
Lemma near_sub a b X Y e f M g : near a X e -> near b Y f -> Rabs (X - Y) <= M -> e + f <= 1 -> M <= 2 ^ 50 -> e + f + u * (M + 2) <= g -> near (fsub a b) (X - Y) g.
Proof.
  intros [Fa Ea] [Fb Eb] L E1 M1 G. assert (E : Rabs (B2R a - B2R b - (X - Y)) <= e + f).
  { replace (B2R a - B2R b - (X - Y)) with ((B2R a - X) + - (B2R b - Y)) by ring. eapply Rle_trans; [apply Rabs_triang|rewrite Rabs_Ropp; lra]. }
  assert (S : Rabs (B2R a - B2R b) <= 2 ^ 100).
  { replace (B2R a - B2R b) with ((B2R a - B2R b - (X - Y)) + (X - Y)) by ring. eapply Rle_trans; [apply Rabs_triang|].
    assert (2 ^ 50 + 1 <= 2 ^ 100) by lra. lra. }
  destruct (fsub_cases 53 1024 p53 e1024 a b Fa Fb) as [[_ [F V]]|[O _]]; [|pose proof (round_small _ S); lra].
  split; [exact F|]. rewrite V. eapply Rle_trans; [apply round_err; [exact E|exact L|exact E1]|exact G].
Qed.
Lemma near_div a b X k e M g : near a X e -> is_finite b = true -> B2R b = k -> 1 <= k -> Rabs (X / k) <= M -> e / k <= 1 -> M <= 2 ^ 50 -> e / k + u * (M + 2) <= g -> near (fdiv a b) (X / k) g.
Proof.
  intros [Fa Ea] Fb Vb K L E1 M1 G. assert (E : Rabs (B2R a / k - X / k) <= e / k).
  { replace (B2R a / k - X / k) with ((B2R a - X) * / k) by (field; lra). rewrite Rabs_mult, (Rabs_pos_eq (/ k)) by (left; apply Rinv_0_lt_compat; lra).
    apply Rmult_le_compat_r; [left; apply Rinv_0_lt_compat; lra|exact Ea]. }
  assert (S : Rabs (B2R a / k) <= 2 ^ 100).
  { replace (B2R a / k) with ((B2R a / k - X / k) + X / k) by ring. eapply Rle_trans; [apply Rabs_triang|].
    assert (2 ^ 50 + 1 <= 2 ^ 100) by lra. lra. }
  destruct (fdiv_cases 53 1024 p53 e1024 a b Fa ltac:(rewrite Vb; lra)) as [[_ [F V]]|[O _]]; rewrite Vb in *; [|pose proof (round_small _ S); lra].
  split; [exact F|]. rewrite V. eapply Rle_trans; [apply round_err; [exact E|exact L|exact E1]|exact G].
Qed.
(* whole numbers *)
Lemma z_exact z : (Z.abs z <= 2 ^ 53)%Z -> is_finite (of_z z) = true /\ B2R (of_z z) = IZR z.
Proof.
  intros L. assert (G : generic_format radix2 (FLT_exp (3 - 1024 - 53) 53) (IZR z)).
  { destruct (Z.eq_dec (Z.abs z) (2 ^ 53)) as [Q|Q].
    - assert (E : IZR z = bpow radix2 53 \/ IZR z = - bpow radix2 53).
      { change (bpow radix2 53) with (IZR (2 ^ 53)). rewrite <- opp_IZR. destruct (Z.abs_eq_or_opp z) as [E|E]; [left|right]; f_equal; lia. }
      destruct E as [-> | ->]; [|apply generic_format_opp]; apply generic_format_bpow; unfold FLT_exp; lia.
    - apply generic_format_FLT. exists (Float radix2 z 0); cbn [Fnum Fexp]; [unfold F2R; cbn [Fnum Fexp]; change (bpow radix2 0) with 1; ring| |lia].
      change (Zpower radix2 53) with (2 ^ 53)%Z. lia. }
  assert (R1 : rnd (IZR z) = IZR z) by (apply round_generic; auto with typeclass_instances).
  destruct (of_z_cases 53 1024 p53 e1024 z) as [[_ [F [V _]]]|[O _]]; [split; [exact F|rewrite V; exact R1]|].
  exfalso. assert (S : Rabs (IZR z) <= 2 ^ 100); [|pose proof (round_small _ S); lra].
  rewrite <- abs_IZR. apply IZR_le in L. eapply Rle_trans; [exact L|]. change (2 ^ 53)%Z with 9007199254740992%Z. lra.
Qed.
Lemma z_near z : (Z.abs z <= 2 ^ 53)%Z -> near (of_z z) (IZR z) 0.
Proof. intros L. destruct (z_exact z L) as [F V]. split; [exact F|]. rewrite V. replace (IZR z - IZR z) with 0 by ring. rewrite Rabs_R0. lra. Qed.

(* ---- the fraction of the day, the Julian date and the window ---- *)
Definition exact_fraction (s : stamp) : R :=
  (IZR (st_h s) + IZR (st_mi s) / 60 + IZR (st_s s) / 3600 + IZR (st_us s) / 3600 / 1000000 + IZR (st_ns s) / 3600 / 1000000000) / 24.
Lemma quo_small a k M : 0 < k -> 0 <= a -> a <= M * k -> Rabs (a / k) <= M.
Proof.
  intros K A L. rewrite Rabs_pos_eq; [|apply Rmult_le_pos; [exact A|left; apply Rinv_0_lt_compat; exact K]].
  apply Rmult_le_reg_r with k; [exact K|]. replace (a / k * k) with a by (field; lra). exact L.
Qed.
Lemma fraction_near s : valid_stamp s -> near (jd_fraction 53 1024 p53 e1024 s) (exact_fraction s) (10 * u) /\ 0 <= exact_fraction s < 1.
Proof.
  intros (_ & _ & H1 & H2 & H3 & H4 & H5). destruct s as [dt h mi sc us ns]. unfold jd_fraction, exact_fraction. cbn [st_h st_mi st_s st_us st_ns] in *.
  pose proof u_pos as U. assert (U1 : 1000 * u <= 1) by (unfold u; lra).
  assert (H1' : 0 <= IZR h <= 23) by (split; apply IZR_le; lia). assert (H2' : 0 <= IZR mi <= 59) by (split; apply IZR_le; lia).
  assert (H3' : 0 <= IZR sc <= 59) by (split; apply IZR_le; lia). assert (H4' : 0 <= IZR us <= 999999) by (split; apply IZR_le; lia).
  assert (H5' : 0 <= IZR ns <= 999) by (split; apply IZR_le; lia).
  destruct (z_exact 60 ltac:(lia)) as [F60 V60]. destruct (z_exact 3600 ltac:(lia)) as [F36 V36]. destruct (z_exact (10 ^ 6) ltac:(lia)) as [F6 V6].
  destruct (z_exact (10 ^ 9) ltac:(lia)) as [F9 V9]. destruct (z_exact 24 ltac:(lia)) as [F24 V24]. change (10 ^ 6)%Z with 1000000%Z in *. change (10 ^ 9)%Z with 1000000000%Z in *.
  assert (N1 : near (fdiv (of_z mi) (of_z 60)) (IZR mi / 60) (3 * u)).
  { apply near_div with (e := 0) (M := 1); try assumption; try lra; [apply z_near; lia|apply quo_small; lra]. }
  assert (N2 : near (fdiv (of_z sc) (of_z 3600)) (IZR sc / 3600) (3 * u)).
  { apply near_div with (e := 0) (M := 1); try assumption; try lra; [apply z_near; lia|apply quo_small; lra]. }
  assert (N3 : near (fdiv (of_z us) (of_z 3600)) (IZR us / 3600) (280 * u)).
  { apply near_div with (e := 0) (M := 278); try assumption; try lra; [apply z_near; lia|apply quo_small; lra]. }
  assert (N4 : near (fdiv (of_z ns) (of_z 3600)) (IZR ns / 3600) (3 * u)).
  { apply near_div with (e := 0) (M := 1); try assumption; try lra; [apply z_near; lia|apply quo_small; lra]. }
  assert (N5 : near (fdiv (fdiv (of_z us) (of_z 3600)) (of_z 1000000)) (IZR us / 3600 / 1000000) (4 * u)).
  { apply near_div with (e := 280 * u) (M := 1); try assumption; try lra. apply quo_small; lra. }
  assert (N6 : near (fdiv (fdiv (of_z ns) (of_z 3600)) (of_z 1000000000)) (IZR ns / 3600 / 1000000000) (4 * u)).
  { apply near_div with (e := 3 * u) (M := 1); try assumption; try lra. apply quo_small; lra. }
  split; [|lra]. apply near_div with (e := 128 * u) (M := 2); try assumption; try lra; [|apply quo_small; lra].
  apply near_add with (e := 94 * u) (f := 4 * u) (M := 28); try assumption; try lra; [|rewrite Rabs_pos_eq by lra; lra].
  apply near_add with (e := 61 * u) (f := 4 * u) (M := 27); try assumption; try lra; [|rewrite Rabs_pos_eq by lra; lra].
  apply near_add with (e := 30 * u) (f := 3 * u) (M := 26); try assumption; try lra; [|rewrite Rabs_pos_eq by lra; lra].
  apply near_add with (e := 0) (f := 3 * u) (M := 25); try assumption; try lra; [apply z_near; lia|rewrite Rabs_pos_eq by lra; lra].
Qed.

Lemma day_range s : valid_stamp s -> (2333000 <= jd_days (st_date s) <= 2548000)%Z.
Proof.
  intros ((M & D) & Y & _). rewrite jd_ordinal by exact M. destruct (st_date s) as [y m dd]. unfold ordinal. cbn [dy dm Calendar.dd] in *.
  assert (DR : (0 <= doy_year m dd y <= 400)%Z).
  { unfold days_in_month, month_len in D. unfold doy_year.
    destruct (month_cases m M) as [E|[E|[E|[E|[E|[E|[E|[E|[E|[E|[E|E]]]]]]]]]]]; subst m; repeat match goal with |- context [days_past ?a] => let v := eval vm_compute in (days_past a) in change (days_past a) with v end;
      cbn in D; destruct (negb (leap y) && _)%bool; destruct (leap y); lia. }
  Z.to_euclidean_division_equations. lia.
Qed.
Definition exact_jd (s : stamp) : R := IZR (jd_days (st_date s)) + / 2 + exact_fraction s.
Definition ejd : R := / 2147483648 + 12 * u.
Lemma half_day s : valid_stamp s -> is_finite (fdiv (of_z (2 * jd_days (st_date s) + 1)) (of_z 2)) = true /\ B2R (fdiv (of_z (2 * jd_days (st_date s) + 1)) (of_z 2)) = IZR (jd_days (st_date s)) + / 2.
Proof.
  intros V. pose proof (day_range s V) as DR. set (n := jd_days (st_date s)) in *.
  destruct (z_exact (2 * n + 1) ltac:(lia)) as [F E]. destruct (z_exact 2 ltac:(lia)) as [F2 E2].
  assert (Q : IZR (2 * n + 1) / 2 = IZR n + / 2) by (rewrite plus_IZR, mult_IZR; field).
  assert (G : generic_format radix2 (FLT_exp (3 - 1024 - 53) 53) (IZR n + / 2)).
  { apply generic_format_FLT. exists (Float radix2 (2 * n + 1) (-1)); cbn [Fnum Fexp]; [|change (Zpower radix2 53) with (2 ^ 53)%Z; lia|lia].
    unfold F2R. cbn [Fnum Fexp]. change (bpow radix2 (-1)) with (/ 2). rewrite plus_IZR, mult_IZR. field. }
  assert (R1 : rnd (IZR n + / 2) = IZR n + / 2) by (apply round_generic; auto with typeclass_instances).
  assert (NR : 0 <= IZR n <= 2548000) by (split; apply IZR_le; lia).
  destruct (fdiv_cases 53 1024 p53 e1024 (of_z (2 * n + 1)) (of_z 2) F ltac:(rewrite E2; lra)) as [[_ [FF VV]]|[O _]]; rewrite E, E2, Q, R1 in *.
  - split; assumption.
  - exfalso. assert (S : Rabs (IZR n + / 2) <= 2 ^ 100) by (rewrite Rabs_pos_eq by lra; lra). pose proof (round_small _ S). rewrite R1 in H. lra.
Qed.
Lemma jd_near s : valid_stamp s -> near (julian_date 53 1024 p53 e1024 s) (exact_jd s) ejd.
Proof.
  intros V. destruct (half_day s V) as [F E]. destruct (fraction_near s V) as [N Fr]. pose proof (day_range s V) as DR. unfold julian_date, exact_jd.
  assert (NR : 2333000 <= IZR (jd_days (st_date s)) <= 2548000) by (split; apply IZR_le; lia). pose proof u_pos.
  apply near_add with (e := 0) (f := 10 * u) (M := 4194304); try assumption; try lra.
  - split; [exact F|]. rewrite E. replace (_ - _) with 0 by ring. rewrite Rabs_R0. lra.
  - rewrite Rabs_pos_eq by lra. lra.
  - unfold u; lra.
  - unfold ejd, u. lra.
Qed.
(* exact Julian dates are times *)
Lemma exact_jd_time s : valid_stamp s -> exact_jd s = IZR (ns_time s) / 86400000000000 + 1721424 + / 2.
Proof.
  intros V. unfold exact_jd, exact_fraction. rewrite jd_ordinal by apply V. unfold ns_time, ns_of_day.
  change (24 * 60 * 60 * 10 ^ 9)%Z with 86400000000000%Z. change (10 ^ 9)%Z with 1000000000%Z. rewrite !plus_IZR, !mult_IZR, !plus_IZR, !mult_IZR, !plus_IZR, !mult_IZR. field.
Qed.
Definition ewin : R := / 80000000000.
Lemma window_near w : (0 <= w <= 2 ^ 62)%Z -> near (window_days 53 1024 p53 e1024 w) (IZR w / 86400000000000) ewin.
Proof.
  intros W. assert (WR : 0 <= IZR w <= 4611686018427387904) by (split; apply IZR_le; lia). pose proof u_pos. pose proof tiny_small.
  unfold window_days, ns_per_day. change (86400 * 10 ^ 9)%Z with 86400000000000%Z. destruct (z_exact 86400000000000 ltac:(lia)) as [F2 E2].
  apply near_div with (e := 513) (M := 53376); try assumption; try lra.
  - pose proof (err_any 53 1024 p53 (IZR w)) as A. rewrite u_is, (Rabs_pos_eq (IZR w)) in A by lra.
    destruct (of_z_cases 53 1024 p53 e1024 w) as [[_ [F [V _]]]|[O _]].
    + split; [exact F|]. rewrite V. eapply Rle_trans; [exact A|]. unfold u in *. lra.
    + exfalso. assert (S : Rabs (IZR w) <= 2 ^ 100) by (rewrite Rabs_pos_eq by lra; lra). pose proof (round_small _ S). lra.
  - apply quo_small; lra.
  - unfold ewin, u. lra.
Qed.

(* ---- comparisons of doubles close to two real numbers ---- *)
Lemma near_leb a b X Y e f : near a X e -> near b Y f -> e + f < Rabs (X - Y) -> (Bleb a b = true <-> X <= Y) /\ (Bltb a b = true <-> X < Y).
Proof.
  intros [Fa Ea] [Fb Eb] D. rewrite Bleb_correct, Bltb_correct by assumption. apply Rabs_le_inv in Ea, Eb.
  unfold Rabs in D. destruct (Rcase_abs (X - Y)); destruct (Rle_bool_spec (B2R a) (B2R b)); destruct (Rlt_bool_spec (B2R a) (B2R b)); split; split; intros; try reflexivity; try discriminate; lra.
Qed.
