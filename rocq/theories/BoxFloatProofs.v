(* The moving average in IEEE 754 arithmetic. *)
From Coq Require Import ZArith Reals List Lia Lra Bool Sorting.Sorted.
From Flocq Require Import Core IEEE754.BinarySingleNaN.
From Verif Require Import FloatModel FloatSpec FloatProofs FloatProofs4 TypedModel TypedProofs ExpFloatModel ExpFloatSpec ExpFloatProofs BoxFloatModel BoxFloatSpec.
Import ListNotations.
Open Scope R_scope.

Definition pt (ser : list (double * double)) (k : nat) : double * double := nth k ser (B754_nan, B754_nan).

(* ---- the samples that are used ---- *)
Section Picks.
Variable nan : double.
Variable ser : list (double * double).
Variables limit ti : double.
Definition near (k : nat) : bool := Bleb (Babs (sub64 (time_of ser k) ti)) limit.
Definition missing (k : nat) : bool := f_missing nan (value_of ser k).
Fixpoint picks (ks : list nat) : list nat :=
  match ks with [] => [] | k :: r => if missing k then picks r else if near k then k :: picks r else [] end.

Lemma scan_picks ks : forall acc, f_scan nan limit ti (map (pt ser) ks) acc =
  (fold_left add64 (map (value_of ser) (picks ks)) (fst acc), (snd acc + Z.of_nat (length (picks ks)))%Z).
Proof.
  induction ks as [|k ks IH]; intros acc; cbn [map f_scan picks].
  - cbn. rewrite Z.add_0_r. destruct acc; reflexivity.
  - destruct (pt ser k) as (t, x) eqn:E.
    assert (V : value_of ser k = x) by (unfold value_of; unfold pt in E; rewrite E; reflexivity). assert (T : time_of ser k = t) by (unfold time_of; unfold pt in E; rewrite E; reflexivity).
    unfold missing, near. rewrite V, T. destruct (f_missing nan x); [apply IH|]. destruct (Bleb (Babs (sub64 t ti)) limit).
    + rewrite IH. cbn [map fold_left length fst snd]. rewrite V. f_equal. lia.
    + cbn. rewrite Z.add_0_r. destruct acc; reflexivity.
Qed.

Definition used (k : nat) : bool := negb (missing k) && near k.
Lemma picks_filter ks : StronglySorted (fun a b => near b = true -> near a = true) ks -> picks ks = filter used ks.
Proof.
  induction 1 as [|k ks S IH F]; [reflexivity|]. cbn [picks filter]. unfold used at 1. destruct (missing k); [exact IH|]. cbn [negb andb].
  destruct (near k) eqn:N; [f_equal; exact IH|]. symmetry. clear IH S. induction F as [|b r B F IH]; [reflexivity|]. cbn [filter]. unfold used at 1.
  destruct (near b) eqn:NB; [specialize (B eq_refl); congruence|]. rewrite andb_false_r. exact IH.
Qed.
End Picks.

(* ---- the loop ---- *)
Lemma loop_nth nan limit fillna mo : forall after before k t x, nth_error after k = Some (t, x) ->
  nth_error (f_box_loop nan limit fillna mo before after) k = Some (f_box_point nan limit fillna mo (rev (firstn k after) ++ before) (skipn k after) t x).
Proof.
  induction after as [|(t0, x0) r IH]; intros before k t x H; [destruct k; discriminate H|]. destruct k as [|k]; cbn in H.
  - injection H as <- <-. reflexivity.
  - cbn [f_box_loop nth_error firstn skipn rev]. rewrite (IH _ k t x H), <- app_assoc. reflexivity.
Qed.
Lemma loop_length nan limit fillna mo : forall after before, length (f_box_loop nan limit fillna mo before after) = length after.
Proof. induction after as [|(t, x) r IH]; intros before; cbn; [reflexivity|]. f_equal. apply IH. Qed.

Lemma skipn_pts (ser : list (double * double)) i : skipn i ser = map (pt ser) (seq i (length ser - i)).
Proof.
  assert (G : forall (l pre : list (double * double)), l = map (pt (pre ++ l)) (seq (length pre) (length l))).
  { induction l as [|a l IH]; intros pre; [reflexivity|]. cbn [length seq map]. f_equal.
    - unfold pt. rewrite app_nth2, Nat.sub_diag by lia. reflexivity.
    - rewrite (IH (pre ++ [a])) at 1. rewrite <- app_assoc. cbn [app]. rewrite app_length. cbn [length]. rewrite Nat.add_1_r. reflexivity. }
  destruct (Nat.le_gt_cases i (length ser)) as [L|L].
  - pose proof (G (skipn i ser) (firstn i ser)) as E. rewrite firstn_skipn, firstn_length_le, skipn_length in E by exact L. exact E.
  - rewrite skipn_all2 by lia. replace (length ser - i)%nat with 0%nat by lia. reflexivity.
Qed.
Lemma firstn_pts (ser : list (double * double)) i : (i <= length ser)%nat -> rev (firstn i ser) = map (pt ser) (rev (seq 0 i)).
Proof.
  intros L. rewrite map_rev. f_equal. assert (G : forall n, (n <= length ser)%nat -> firstn n ser = map (pt ser) (seq 0 n)).
  { intros n Ln. pose proof (skipn_pts ser 0) as E. cbn [skipn] in E. rewrite Nat.sub_0_r in E. rewrite E at 1. rewrite firstn_map. f_equal.
    clear E. replace (length ser) with (n + (length ser - n))%nat by lia. rewrite seq_app, firstn_app, seq_length, Nat.sub_diag. cbn [firstn]. rewrite app_nil_r. apply firstn_all2. rewrite seq_length. lia. }
  exact (G i L).
Qed.

(* the samples used for sample i, in the order in which they are added *)
Definition chosen nan (limit : double) (ser : list (double * double)) (i : nat) : list nat :=
  picks nan ser limit (time_of ser i) (seq i (length ser - i)) ++ picks nan ser limit (time_of ser i) (rev (seq 0 i)).

Lemma of_n_z n : of_n 53 1024 p53 e1024 n = z64 (Z.of_nat n). Proof. reflexivity. Qed.
Lemma box_at nan w fillna mo ser i : (i < length ser)%nat ->
  nth_error (f_boxcar nan w fillna mo ser) i =
  Some (if negb (f_missing nan (value_of ser i)) || fillna then
          if (mo <=? Z.of_nat (length (chosen nan (f_limit w) ser i)))%Z then f_mean 53 1024 p53 e1024 (map (value_of ser) (chosen nan (f_limit w) ser i)) else B754_nan
        else B754_nan).
Proof.
  intros L. unfold f_boxcar. assert (E : nth_error ser i = Some (pt ser i)) by (apply nth_error_nth'; exact L). destruct (pt ser i) as (t, x) eqn:EP.
  rewrite (loop_nth nan (f_limit w) fillna mo ser [] i t x E), app_nil_r. f_equal. unfold f_box_point.
  assert (V : value_of ser i = x) by (unfold value_of; unfold pt in EP; rewrite EP; reflexivity). assert (T : time_of ser i = t) by (unfold time_of; unfold pt in EP; rewrite EP; reflexivity).
  rewrite V. destruct (negb (f_missing nan x) || fillna); [|reflexivity]. rewrite skipn_pts, firstn_pts by lia. rewrite !scan_picks. cbn [fst snd].
  unfold chosen. rewrite T, app_length, Nat2Z.inj_add, Z.add_0_l. rewrite map_app. unfold f_mean. rewrite fold_left_app. rewrite app_length, !map_length, of_n_z, Nat2Z.inj_add.
  reflexivity.
Qed.

(* ---- distances of dates ---- *)
Lemma fmt64 (a : double) : format (B2R a). Proof. exact (B2R_format 53 1024 a). Qed.
Lemma near_real (t ti limit : double) : good_time t -> good_time ti -> is_finite limit = true ->
  (Bleb (Babs (sub64 t ti)) limit = true <-> Rabs (rnd64 (B2R t - B2R ti)) <= B2R limit).
Proof.
  intros (Ft & Bt) (Fi & Bi) Fl.
  assert (S1 : Rabs (B2R t - B2R ti) <= bp 1010).
  { assert (H : bp 1010 = 1024 * bp 1000) by (replace 1010%Z with (10 + 1000)%Z by reflexivity; rewrite bpow_plus; reflexivity).
    pose proof (bpow_gt_0 radix2 1000). apply Rabs_le_inv in Bt, Bi. apply Rabs_le. lra. }
  destruct (fsub_cases 53 1024 p53 e1024 t ti Ft Fi) as [[_ [Fs Vs]]|[O _]]; [|pose proof (small64 _ S1); lra].
  rewrite Bleb_correct; [|rewrite is_finite_Babs; exact Fs|exact Fl]. rewrite B2R_Babs, Vs. split; [intros H; destruct (Rle_bool_spec (Rabs (rnd64 (B2R t - B2R ti))) (B2R limit)); [assumption|discriminate]|].
  intros H. apply Rle_bool_true. exact H.
Qed.
Lemma rnd_abs_mono x y : Rabs x <= Rabs y -> Rabs (rnd64 x) <= Rabs (rnd64 y).
Proof.
  intros H. assert (E : forall z, Rabs (rnd64 z) = rnd64 (Rabs z)).
  { intros z. unfold Rabs at 2. destruct (Rcase_abs z) as [N|N].
    - rewrite rnd_opp. apply Rabs_left1. rewrite <- (rnd_0 53 1024). apply (rnd_le 53 1024 p53). lra.
    - apply Rabs_pos_eq. apply (rnd_nonneg 53 1024 p53). lra. }
  rewrite !E. apply (rnd_le 53 1024 p53). exact H.
Qed.

Lemma time_in (ser : list (double * double)) k : (k < length ser)%nat -> nth_error ser k = Some (pt ser k) /\ In (time_of ser k, value_of ser k) ser.
Proof.
  intros L. split; [apply nth_error_nth'; exact L|]. unfold time_of, value_of. fold (pt ser k). rewrite <- surjective_pairing. apply nth_In. exact L.
Qed.
Lemma chron_times ser : chronological ser -> (forall k, (k < length ser)%nat -> good_time (time_of ser k)) /\
  (forall j k, (j <= k)%nat -> (k < length ser)%nat -> B2R (time_of ser j) <= B2R (time_of ser k)).
Proof.
  intros (G & O). split.
  - intros k L. apply (G _ (value_of ser k)). apply time_in, L.
  - intros j k JK L. destruct (Nat.eq_dec j k) as [->|N]; [lra|]. exact (O j k _ _ ltac:(lia) (proj1 (time_in ser j ltac:(lia))) (proj1 (time_in ser k L))).
Qed.

Lemma sorted_seq (P : nat -> nat -> Prop) : forall n i, (forall a b, (i <= a < b)%nat -> (b < i + n)%nat -> P a b) -> StronglySorted P (seq i n).
Proof.
  induction n as [|n IH]; intros i H; cbn [seq]; [constructor|]. constructor; [apply IH; intros a b A B; apply H; lia|]. apply Forall_forall. intros b I. apply in_seq in I. apply H; lia.
Qed.
Lemma sorted_snoc {A} (P : A -> A -> Prop) l x : StronglySorted P l -> Forall (fun a => P a x) l -> StronglySorted P (l ++ [x]).
Proof.
  induction l as [|y l IH]; intros S F; cbn; [repeat constructor|]. apply StronglySorted_inv in S as (S & S1). inversion F; subst. constructor; [apply IH; assumption|].
  apply Forall_app. split; [exact S1|]. constructor; [assumption|constructor].
Qed.
Lemma sorted_rev_seq (P : nat -> nat -> Prop) : forall n, (forall a b, (b < a < n)%nat -> P a b) -> StronglySorted P (rev (seq 0 n)).
Proof.
  intros n. assert (G : forall m i, (forall a b, (i <= b < a)%nat -> (a < i + m)%nat -> P a b) -> StronglySorted P (rev (seq i m))).
  { induction m as [|m IH]; intros i H; cbn [seq rev]; [constructor|]. apply sorted_snoc; [apply IH; intros a b A B; apply H; lia|].
    apply Forall_forall. intros a I. apply in_rev, in_seq in I. apply H; lia. }
  intros H. apply G. intros a b A B. apply H. lia.
Qed.

(* in a chronological series the scans find all samples that are close enough *)
Lemma chosen_all nan limit ser i : chronological ser -> is_finite limit = true -> (i < length ser)%nat ->
  NoDup (chosen nan limit ser i) /\
  forall k, In k (chosen nan limit ser i) <-> (k < length ser)%nat /\ f_missing nan (value_of ser k) = false /\ Rabs (rnd64 (B2R (time_of ser k) - B2R (time_of ser i))) <= B2R limit.
Proof.
  intros C F L. destruct (chron_times ser C) as (GT & MO).
  assert (NR : forall k, (k < length ser)%nat -> (near ser limit (time_of ser i) k = true <-> Rabs (rnd64 (B2R (time_of ser k) - B2R (time_of ser i))) <= B2R limit)).
  { intros k K. unfold near. apply near_real; [apply GT, K|apply GT, L|exact F]. }
  unfold chosen. rewrite !picks_filter.
  2:{ apply sorted_rev_seq. intros a b A NB. apply NR in NB; [|lia]. apply NR; [lia|]. eapply Rle_trans; [|exact NB]. apply rnd_abs_mono.
      pose proof (MO b a ltac:(lia) ltac:(lia)). pose proof (MO a i ltac:(lia) L). rewrite !Rabs_left1 by lra. lra. }
  2:{ apply sorted_seq. intros a b A B NB. apply NR in NB; [|lia]. apply NR; [lia|]. eapply Rle_trans; [|exact NB]. apply rnd_abs_mono.
      pose proof (MO i a ltac:(lia) ltac:(lia)). pose proof (MO a b ltac:(lia) ltac:(lia)). rewrite !Rabs_pos_eq by lra. lra. }
  split.
  - assert (N1 : NoDup (filter (used nan ser limit (time_of ser i)) (seq i (length ser - i)))) by apply NoDup_filter, seq_NoDup.
    assert (N2 : NoDup (filter (used nan ser limit (time_of ser i)) (rev (seq 0 i)))) by (apply NoDup_filter, NoDup_rev, seq_NoDup).
    assert (D : forall k, In k (filter (used nan ser limit (time_of ser i)) (seq i (length ser - i))) -> ~ In k (filter (used nan ser limit (time_of ser i)) (rev (seq 0 i)))).
    { intros k I J. apply filter_In in I as (I & _). apply filter_In in J as (J & _). apply in_rev, in_seq in J. apply in_seq in I. lia. }
    revert N1 N2 D. generalize (filter (used nan ser limit (time_of ser i)) (seq i (length ser - i))), (filter (used nan ser limit (time_of ser i)) (rev (seq 0 i))). clear.
    induction l as [|x l IH]; intros l' N1 N2 D; cbn; [exact N2|]. apply NoDup_cons_iff in N1 as (NI & N1). constructor.
    + intros I. apply in_app_or in I as [I|I]; [contradiction|]. exact (D x (or_introl eq_refl) I).
    + apply IH; [exact N1|exact N2|]. intros k K. apply D. right. exact K.
  - intros k. rewrite in_app_iff, !filter_In, <- in_rev, !in_seq. unfold used, missing. rewrite andb_true_iff, negb_true_iff. split.
    + intros [(K & M & N)|(K & M & N)]; (split; [lia|]); (split; [exact M|]); (apply NR in N; [exact N|lia]).
    + intros (K & M & N). apply NR in N; [|exact K]. destruct (Nat.le_gt_cases i k); [left|right]; (split; [lia|split; assumption]).
Qed.

(* ---- sums of bounded values ---- *)
Lemma mult_fmt a e : (Z.abs a <= 2 ^ 53)%Z -> (-1074 <= e)%Z -> format (IZR a * bp e).
Proof.
  intros A E. destruct (Z.eq_dec (Z.abs a) (2 ^ 53)) as [Q|Q].
  - assert (G : format (IZR (2 ^ 53) * bp e)).
    { rewrite (IZR_Zpower radix2) by lia. rewrite <- bpow_plus. apply generic_format_bpow. unfold FLT_exp. lia. }
    destruct (Z.abs_spec a) as [(_ & H)|(_ & H)]; rewrite H in Q; [rewrite Q; exact G|]. replace a with (- (2 ^ 53))%Z by lia. rewrite opp_IZR, Ropp_mult_distr_l_reverse. apply generic_format_opp, G.
  - apply generic_format_FLT. exists (Float radix2 a e); [reflexivity| |]; cbn [Fnum Fexp].
    + change (Zpower radix2 53) with (2 ^ 53)%Z. lia.
    + lia.
Qed.
Definition fitting (m : Z) (n : nat) : Prop := (Z.abs m * Z.of_nat n <= 2 ^ 53)%Z.

Lemma mult_small a e : (Z.abs a <= 2 ^ 53)%Z -> (e <= 950)%Z -> Rabs (IZR a * bp e) <= bp 1005.
Proof.
  intros A E. rewrite Rabs_mult, (Rabs_pos_eq (bp e)) by apply bpow_ge_0. rewrite <- abs_IZR.
  apply Rle_trans with (IZR (2 ^ 53) * bp 950).
  - apply Rmult_le_compat; [apply IZR_le, Z.abs_nonneg|apply bpow_ge_0|apply IZR_le, A|apply bpow_le, E].
  - rewrite (IZR_Zpower radix2) by lia. rewrite <- bpow_plus. apply bpow_le. lia.
Qed.
Lemma small1005 x : Rabs x <= bp 1005 -> Rabs (rnd64 x) < big 1024.
Proof. intros H. apply small64. eapply Rle_trans; [exact H|]. apply bpow_le. lia. Qed.

Lemma sum_range a b e : (-1074 <= e <= 950)%Z -> forall (l : list double) (acc : double) (k : nat),
  is_finite acc = true -> IZR (Z.of_nat k * a) * bp e <= B2R acc <= IZR (Z.of_nat k * b) * bp e -> fitting a (k + length l) -> fitting b (k + length l) ->
  (forall x, In x l -> is_finite x = true /\ IZR a * bp e <= B2R x <= IZR b * bp e) ->
  let s := fold_left add64 l acc in
  is_finite s = true /\ IZR (Z.of_nat (k + length l) * a) * bp e <= B2R s <= IZR (Z.of_nat (k + length l) * b) * bp e.
Proof.
  intros E l. induction l as [|x l IH]; intros acc k F B FA FB H; cbn [fold_left length] in *.
  - rewrite Nat.add_0_r. split; [exact F|exact B].
  - destruct (H x (or_introl eq_refl)) as (Fx & Bx).
    assert (KA : (Z.abs (Z.of_nat (S k) * a) <= 2 ^ 53)%Z) by (unfold fitting in FA; rewrite Z.abs_mul, (Z.abs_eq (Z.of_nat (S k))) by lia; nia).
    assert (KB : (Z.abs (Z.of_nat (S k) * b) <= 2 ^ 53)%Z) by (unfold fitting in FB; rewrite Z.abs_mul, (Z.abs_eq (Z.of_nat (S k))) by lia; nia).
    assert (SA : IZR (Z.of_nat (S k) * a) * bp e = IZR (Z.of_nat k * a) * bp e + IZR a * bp e) by (rewrite Nat2Z.inj_succ, Z.mul_succ_l, plus_IZR; ring).
    assert (SB : IZR (Z.of_nat (S k) * b) * bp e = IZR (Z.of_nat k * b) * bp e + IZR b * bp e) by (rewrite Nat2Z.inj_succ, Z.mul_succ_l, plus_IZR; ring).
    assert (SM : Rabs (B2R acc + B2R x) <= bp 1005).
    { pose proof (mult_small _ e KA (proj2 E)) as MA. pose proof (mult_small _ e KB (proj2 E)) as MB. rewrite SA in MA. rewrite SB in MB. apply Rabs_le_inv in MA, MB. apply Rabs_le. lra. }
    destruct (fadd_cases 53 1024 p53 e1024 acc x F Fx) as [[_ [Fs Vs]]|[O _]]; [|pose proof (small1005 _ SM); lra].
    replace (k + S (length l))%nat with (S k + length l)%nat in * by lia.
    apply (IH (add64 acc x) (S k)); [exact Fs| |exact FA|exact FB|intros y I; apply H; right; exact I].
    rewrite Vs. split.
    + rewrite <- (rnd_fmt _ (mult_fmt _ e KA (proj1 E))). apply (rnd_le 53 1024 p53). rewrite SA. lra.
    + rewrite <- (rnd_fmt (IZR (Z.of_nat (S k) * b) * bp e) (mult_fmt _ e KB (proj1 E))). apply (rnd_le 53 1024 p53). rewrite SB. lra.
Qed.

Lemma mean_between a b e (l : list double) : (-1074 <= e <= 950)%Z -> l <> [] -> fitting a (length l) -> fitting b (length l) -> (Z.of_nat (length l) <= 2 ^ 53)%Z ->
  (forall x, In x l -> is_finite x = true /\ IZR a * bp e <= B2R x <= IZR b * bp e) ->
  is_finite (f_mean 53 1024 p53 e1024 l) = true /\ IZR a * bp e <= B2R (f_mean 53 1024 p53 e1024 l) <= IZR b * bp e.
Proof.
  intros E NE FA FB LN H. destruct (sum_range a b e E l zero64 0 eq_refl) as (F & B); [cbn; lra|exact FA|exact FB|exact H|]. cbn [Nat.add] in F, B.
  assert (P : (0 < length l)%nat) by (destruct l; [congruence|cbn; lia]).
  destruct (of_n_exact 53 1024 p53 e1024 (length l) LN) as (Fn & Vn). unfold f_mean. set (s := fold_left add64 l zero64) in *. fold s.
  assert (IN : 0 < INR (length l)) by (apply lt_0_INR; exact P).
  rewrite !mult_IZR, <- INR_IZR_INZ in B.
  assert (Q : IZR a * bp e <= B2R s / INR (length l) <= IZR b * bp e).
  { split.
    - apply Rmult_le_reg_r with (INR (length l)); [exact IN|]. unfold Rdiv. rewrite (Rmult_assoc (B2R s)), Rinv_l by lra. lra.
    - apply Rmult_le_reg_r with (INR (length l)); [exact IN|]. unfold Rdiv. rewrite (Rmult_assoc (B2R s)), Rinv_l by lra. lra. }
  assert (AA : (Z.abs a <= 2 ^ 53)%Z) by (unfold fitting in FA; nia). assert (BB : (Z.abs b <= 2 ^ 53)%Z) by (unfold fitting in FB; nia).
  assert (SM : Rabs (B2R s / INR (length l)) <= bp 1005).
  { pose proof (mult_small a e AA (proj2 E)) as MA. pose proof (mult_small b e BB (proj2 E)) as MB. apply Rabs_le_inv in MA, MB. apply Rabs_le. lra. }
  destruct (fdiv_cases 53 1024 p53 e1024 s (of_n 53 1024 p53 e1024 (length l)) F ltac:(rewrite Vn; lra)) as [[_ [Fq Vq]]|[O _]]; [|rewrite Vn in O; pose proof (small1005 _ SM); lra].
  split; [exact Fq|]. rewrite Vq, Vn. split.
  - rewrite <- (rnd_fmt _ (mult_fmt a e AA (proj1 E))). apply (rnd_le 53 1024 p53). lra.
  - rewrite <- (rnd_fmt (IZR b * bp e) (mult_fmt b e BB (proj1 E))). apply (rnd_le 53 1024 p53). lra.
Qed.

Lemma mean_close (l : list double) : l <> [] -> (Z.of_nat (length l) < 2 ^ 31)%Z -> (forall x, In x l -> is_finite x = true /\ Rabs (B2R x) <= bp 900) ->
  close_to_mean (f_mean 53 1024 p53 e1024 l) l.
Proof.
  intros NE LN H. assert (L53 : (Z.of_nat (length l) <= 2 ^ 53)%Z) by lia.
  destruct (mean_between (-1) 1 900 l) as (F & _); [lia|exact NE|unfold fitting; lia|unfold fitting; lia|exact L53| |].
  { intros x I. destruct (H x I) as (Fx & Bx). split; [exact Fx|]. apply Rabs_le_inv in Bx. lra. }
  split; [exact F|]. pose proof (mean_error 53 1024 p53 e1024 l NE L53 F) as M. cbv zeta in M.
  assert (U : unit_roundoff 53 = eps).
  { unfold unit_roundoff, eps. change (bp (1 - 53)) with (/ IZR (2 ^ 52)). change (2 ^ 52)%Z with 4503599627370496%Z. lra. }
  assert (T : tiny 53 1024 = bp (-1075)).
  { unfold tiny. change (3 - 1024 - 53)%Z with (-1074)%Z. replace (-1074)%Z with (1 + -1075)%Z at 1 by reflexivity. rewrite bpow_plus. change (bp 1) with 2. field. }
  rewrite U, T in M. eapply Rle_trans; [exact M|]. apply Rplus_le_compat_r.
  assert (IN : 0 < INR (length l)) by (apply lt_0_INR; destruct l; [congruence|cbn; lia]).
  apply Rmult_le_compat_r.
  { apply Rmult_le_pos; [|left; apply Rinv_0_lt_compat; exact IN]. clear. induction l; cbn; [lra|]. pose proof (Rabs_pos (B2R a)). lra. }
  assert (KB : INR (length l + 1) * unit_roundoff 53 <= 1).
  { rewrite U, plus_INR. cbn [INR]. rewrite INR_IZR_INZ. assert (IZR (Z.of_nat (length l)) <= 2147483648) by (apply IZR_le; lia). unfold eps. lra. }
  pose proof (factor_bound 53 (length l + 1) KB) as FB. rewrite U, plus_INR in FB. cbn [INR] in FB. eapply Rle_trans; [exact FB|]. right. ring.
Qed.

(* ---- half the window ---- *)
Lemma limit_val (w : single) : is_finite w = true -> is_finite (f_limit w) = true /\ B2R (f_limit w) = B2R w / 2.
Proof.
  intros F. unfold f_limit. destruct (to_double_exact w F) as (F1 & V1 & _).
  assert (Z2 : is_finite (z64 2) = true /\ B2R (z64 2) = 2) by (split; [reflexivity|unfold of_z; cbn; unfold F2R; cbn; lra]).
  destruct Z2 as (FZ & VZ).
  assert (FM : format (B2R w / 2)).
  { pose proof (generic_format_B2R 24 128 w) as G. change (generic_format radix2 (FLT_exp (-149) 24) (B2R w)) in G.
    assert (P24 : Prec_gt_0 24) by exact p24. apply FLT_format_generic in G; [|exact P24]. destruct G as [f V N X].
    apply generic_format_FLT. exists (Float radix2 (Fnum f) (Fexp f - 1)).
    - rewrite V. unfold F2R. cbn [Fnum Fexp]. unfold Z.sub. rewrite bpow_plus. change (bp (-(1))) with (/ 2). unfold Rdiv. ring.
    - cbn [Fnum]. change (Zpower radix2 53) with (2 ^ 53)%Z. change (Zpower radix2 24) with (2 ^ 24)%Z in N. lia.
    - cbn [Fexp]. change (3 - 1024 - 53)%Z with (-1074)%Z. lia. }
  assert (SM : Rabs (B2R (to_double w) / B2R (z64 2)) <= bp 1010).
  { rewrite V1, VZ. pose proof (abs_B2R_lt_emax 24 128 w) as LT. assert (bp 128 <= bp 1010) by (apply bpow_le; lia). unfold Rdiv. rewrite Rabs_mult, (Rabs_pos_eq (/ 2)) by lra.
    pose proof (Rabs_pos (B2R w)). lra. }
  destruct (fdiv_cases 53 1024 p53 e1024 (to_double w) (z64 2) F1 ltac:(rewrite VZ; lra)) as [[_ [Fq Vq]]|[O _]]; [|pose proof (small64 _ SM); lra].
  split; [exact Fq|]. rewrite Vq, V1, VZ. apply rnd_fmt, FM.
Qed.
