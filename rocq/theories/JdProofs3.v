(* The windows of the rolling metrics when the tests in floating point agree with those on the true times. *)
From Coq Require Import ZArith Reals List Lia Lra Bool.
From Flocq Require Import Core IEEE754.BinarySingleNaN.
From Verif Require RStats RollingModel RollingProofs.
From Verif Require Import RollingSpec.
From Verif Require Import FloatModel FloatSpec FloatProofs FloatRollProps.
Import ListNotations.
Open Scope R_scope.

Section Roll.
Variables prec emax : Z.
Context (Hp : Prec_gt_0 prec) (He : Prec_lt_emax prec emax).
Notation float := (binary_float prec emax).
Notation fadd := (fadd prec emax Hp He).
Notation fsub := (fsub prec emax Hp He).
Notation fsqrt := (fsqrt prec emax Hp He).
Notation in_window := (in_window prec emax).
Notation added_up := (added_up prec emax Hp He).
Variable betainc : float -> float -> float -> float.
Variable ts : list float.
Variable tr : list R.
Variable d : list (float * float).
Variable w : float.
Variable om : R.
Variable center : bool.
Variable mp : Z.
Hypothesis LT : List.length tr = List.length ts.
Hypothesis LEN : List.length ts = List.length d.
Hypothesis CH : chronological tr.
Hypothesis W : 0 < om \/ (center = true /\ 0 <= om).
Notation n := (List.length ts).
Notation t_at := (t_at prec emax ts).
Hypothesis AG1 : forall i j, (i < n)%nat -> (j < n)%nat -> Bleb (fsub (t_at i) w) (t_at j) = RollingModel.rleb (RollingModel.t_at tr i - om) (RollingModel.t_at tr j).
Hypothesis AG2 : forall i j, (i < n)%nat -> (j < n)%nat -> Bltb (fsub (t_at i) w) (t_at j) = RollingModel.rltb (RollingModel.t_at tr i - om) (RollingModel.t_at tr j).
Hypothesis AG3 : forall i j, (i < n)%nat -> (j < n)%nat -> Bltb (fadd (t_at i) w) (t_at j) = RollingModel.rltb (RollingModel.t_at tr i + om) (RollingModel.t_at tr j).

Lemma in_from_to j a b : In j (from_to a b) -> (j < b)%nat.
Proof. unfold from_to. rewrite in_seq. lia. Qed.
Lemma g_lower i l : (i < n)%nat -> find_lower prec emax Hp He ts w center i l = RollingModel.find_lower tr om center i l.
Proof.
  intros I. unfold find_lower, RollingModel.find_lower, n_ts, RollingModel.n_ts. rewrite LT.
  change RollingModel.from_to with from_to. destruct center; apply scan_eq; intros j J; apply in_from_to in J; [apply AG1|apply AG2]; assumption.
Qed.
Lemma g_hi i h : (i < n)%nat -> find_hi prec emax Hp He ts w center i h = RollingModel.find_hi tr om center i h.
Proof.
  intros I. unfold find_hi, RollingModel.find_hi, n_ts, RollingModel.n_ts. rewrite LT.
  change RollingModel.from_to with from_to. destruct center; [|reflexivity]. rewrite AG3 by lia. destruct (RollingModel.rltb _ _); [|reflexivity].
  apply scan_eq. intros j J. apply in_from_to in J. apply AG3; assumption.
Qed.

Notation lok := (RollingProofs.lower_ok tr om center).
Notation hok := (RollingProofs.hi_ok tr om center).

Notation zeros := (map (fun _ : float * float => (0, 0)) d).
Lemma g_LZ : List.length tr = List.length zeros. Proof. rewrite map_length, LT. exact LEN. Qed.
Lemma g_nth_ts i : nth i tr 0 = RollingModel.t_at tr i. Proof. reflexivity. Qed.

(* the window is the slice between the bounds *)
Lemma g_window_is i a b : (i < n)%nat -> lok i a -> hok i b -> in_window center tr om d i = RollingProofs.slice a b d.
Proof.
  intros I (A1 & A2 & A3) (B1 & B2 & B3 & B4). rewrite LT in B2, B4. unfold in_window. rewrite g_nth_ts.
  assert (LC : List.length (combine tr d) = n) by (rewrite combine_length, LT, <- LEN; apply Nat.min_id).
  assert (MS : RollingProofs.slice a b d = map snd (RollingProofs.slice a b (combine tr d))).
  { rewrite <- RollingProofs.slice_map. f_equal. assert (L : List.length tr = List.length d) by (rewrite LT; exact LEN). revert L. clear. revert tr.
    intros l. revert d. induction l as [|x l IH]; intros [|y m] L; cbn in *; try discriminate; [reflexivity|]. f_equal. apply IH. lia. }
  rewrite MS. set (dft := (0, (f0 prec emax, f0 prec emax))).
  assert (NF : forall j, (j < n)%nat -> fst (nth j (combine tr d) dft) = RollingModel.t_at tr j).
  { intros j J. unfold dft. rewrite combine_nth by (rewrite LT; exact LEN). reflexivity. }
  assert (S1 : forall j, (j < n)%nat -> RollingProofs.starts tr om center i j = Nat.leb a j).
  { intros j J. destruct (Nat.leb_spec a j); [apply (RollingProofs.starts_up tr om center CH W i a j); try assumption; rewrite LT; exact J|apply A3; assumption]. }
  assert (E1 : forall j, (j < n)%nat -> RollingProofs.ends tr om center i j = Nat.ltb j b).
  { intros j J. destruct (Nat.ltb_spec j b); [apply B3; assumption|apply B4; lia]. }
  unfold RollingProofs.starts in S1. unfold RollingProofs.ends in E1, B3, B4.
  destruct center.
  - f_equal. apply (RollingProofs.slice_filter _ dft); [lia|lia|]. intros j J. rewrite LC in J. rewrite NF by exact J.
    rewrite <- S1, <- E1 by exact J. unfold RollingModel.rleb. set (x := RollingModel.t_at tr j). set (y := RollingModel.t_at tr i).
    destruct (Rle_dec (Rabs (x - y)) om) as [X|X], (Rle_dec (y - om) x) as [Y|Y], (Rle_dec x (y + om)) as [Z|Z]; try reflexivity; exfalso;
      unfold Rabs in X; destruct (Rcase_abs (x - y)); lra.
  - assert (EB : b = S i). { pose proof (B4 (S i)) as X. pose proof (B3 (b - 1)%nat ltac:(lia)) as Y. apply Nat.leb_le in Y.
      destruct (Nat.lt_ge_cases (S i) b); [lia|]. lia. }
    f_equal.
    assert (SF : RollingProofs.slice a b (combine tr d) = RollingProofs.slice a b (firstn (S i) (combine tr d))).
    { unfold RollingProofs.slice. rewrite EB. rewrite skipn_firstn_comm, firstn_firstn. f_equal. lia. }
    rewrite SF. apply (RollingProofs.slice_filter _ dft); [lia|rewrite firstn_length, LC; lia|].
    intros j J. rewrite firstn_length, LC in J. assert (JN : (j < n)%nat) by lia.
    assert (NN : nth j (firstn (S i) (combine tr d)) dft = nth j (combine tr d) dft).
    { rewrite <- (firstn_skipn (S i) (combine tr d)) at 2. rewrite app_nth1; [reflexivity|]. rewrite firstn_length, LC. lia. }
    rewrite NN, NF by exact JN. rewrite <- S1 by exact JN.
    assert (TB : Nat.ltb j b = true) by (apply Nat.ltb_lt; lia). rewrite TB, Bool.andb_true_r. reflexivity.
Qed.

Definition g_row_of (i : nat) (out : float * float * float) : Prop :=
  let win := in_window center tr om d i in
  ((Z.of_nat (List.length win) < mp)%Z -> out = ((B754_nan, B754_nan), B754_nan)) /\
  ((mp <= Z.of_nat (List.length win))%Z ->
     (exists s, out = (f_pearson prec emax Hp He betainc (s_M2x _ _ (fst s)) (s_M2y _ _ (fst s)) (s_C _ _ (fst s)) (Z.of_nat (List.length win)), fsqrt (snd s))) /\
     (RollingProofs.starts tr om center i 0 = true -> out = added_up betainc win)).
Definition g_ready (s : nat * nat * froll prec emax) (i : nat) : Prop :=
  let '(lo, hi, sums) := s in
  match i with 0%nat => lo = 0%nat /\ hi = 0%nat | S i' => lok i' lo /\ hok i' hi end /\
  (lo = 0%nat -> sums = fold_left (f_add prec emax Hp He) (firstn hi d) (fs_init prec emax, f0 prec emax)).

Lemma g_step s i : (i < n)%nat -> g_ready s i ->
  g_ready (fst (f_roll_step prec emax Hp He betainc ts d w center mp s i)) (S i) /\ g_row_of i (snd (f_roll_step prec emax Hp He betainc ts d w center mp s i)).
Proof.
  destruct s as ((a, b), sums). intros I (RB & RS). unfold f_roll_step. rewrite g_lower, g_hi by exact I.
  assert (IT : (i < List.length tr)%nat) by (rewrite LT; exact I).
  assert (LA : (a <= i)%nat /\ forall j, (j < a)%nat -> RollingProofs.starts tr om center i j = false).
  { destruct i as [|i']; [destruct RB as [-> _]; split; lia|]. destruct RB as [(A1 & A2 & A3) _]. split; [lia|].
    intros j J. apply (RollingProofs.starts_mono tr om center CH W i' (S i')); [lia|exact IT|apply A3; exact J]. }
  destruct (RollingProofs.find_lower_ok tr zeros om center g_LZ W i a IT (proj1 LA) (proj2 LA)) as [LO LM]. set (a' := RollingModel.find_lower tr om center i a) in *.
  assert (HB : b = 0%nat /\ i = 0%nat \/ (0 < i)%nat /\ (0 < b <= List.length tr)%nat /\ forall j, (j < b)%nat -> RollingProofs.ends tr om center i j = true).
  { destruct i as [|i']; [left; tauto|]. right. destruct RB as [_ (B1 & B2 & B3 & B4)]. split; [lia|]. split; [lia|].
    intros j J. apply (RollingProofs.ends_mono tr zeros om center g_LZ CH W i' (S i')); [lia|exact IT|apply B3; exact J]. }
  destruct (RollingProofs.find_hi_ok tr zeros om center g_LZ CH W i b IT HB) as [HO HM]. set (b' := RollingModel.find_hi tr om center i b) in *.
  pose proof LO as (A1 & A2 & A3). pose proof HO as (B1 & B2 & _). rewrite LT in B2.
  cbn [fst snd]. set (nsums := fold_left (f_remove _ _ _ _) _ _).
  assert (NS : a' = 0%nat -> nsums = fold_left (f_add prec emax Hp He) (firstn b' d) (fs_init prec emax, f0 prec emax)).
  { intros E. assert (a = 0%nat) by lia. specialize (RS H). unfold nsums. rewrite E, H. unfold from_to at 1. cbn [Nat.sub seq map fold_left]. rewrite RS.
    change from_to with RollingModel.from_to. unfold d_at. rewrite RollingProofs.map_nth_slice by lia. rewrite <- fold_left_app. f_equal.
    unfold RollingProofs.slice. rewrite <- (firstn_skipn b (firstn b' d)). f_equal; [rewrite firstn_firstn; f_equal; lia|]. rewrite skipn_firstn_comm. reflexivity. }
  split.
  - split; [split; assumption|exact NS].
  - pose proof (g_window_is i a' b' I LO HO) as WS. unfold g_row_of. cbv zeta. rewrite WS. rewrite RollingProofs.slice_length by lia.
    replace (Z.of_nat b' - Z.of_nat a')%Z with (Z.of_nat (b' - a')) by lia. destruct (Z.eqb_spec (Z.of_nat (b' - a')) 0) as [Z0|Z0]; [lia|]. cbn [orb].
    split.
    + intros L. apply Z.ltb_lt in L. rewrite L. reflexivity.
    + intros L. apply Z.ltb_ge in L. rewrite L. split; [exists nsums; reflexivity|]. intros ST.
      assert (E : a' = 0%nat). { destruct a' as [|a']; [reflexivity|]. specialize (A3 0%nat ltac:(lia)). congruence. }
      unfold added_up. rewrite RollingProofs.slice_length by lia. rewrite (NS E), E. unfold RollingProofs.slice. cbn [skipn]. rewrite Nat.sub_0_r. reflexivity.
Qed.
Lemma g_loop_rows k i s : (i + k <= n)%nat -> g_ready s i -> Forall2 g_row_of (seq i k) (f_roll_loop prec emax Hp He betainc ts d w center mp (seq i k) s).
Proof.
  revert i s. induction k as [|k IH]; intros i s L Rd; [constructor|]. cbn [seq f_roll_loop].
  destruct (g_step s i ltac:(lia) Rd) as [R1 R2]. destruct (f_roll_step prec emax Hp He betainc ts d w center mp s i) as [s' o]. cbn [fst snd] in *.
  constructor; [exact R2|]. apply IH; [lia|exact R1].
Qed.
Lemma g_rolling_rows : Forall2 g_row_of (seq 0 n) (f_rolling prec emax Hp He betainc ts d w center mp).
Proof. unfold f_rolling, n_ts. apply g_loop_rows; [lia|]. split; [split; reflexivity|reflexivity]. Qed.
End Roll.
