(* C131: missing values (NaN) given to the metric functions, in IEEE 754 arithmetic. *)
From Coq Require Import ZArith Reals List Lia Lra Bool.
From Flocq Require Import Core IEEE754.BinarySingleNaN.
From Verif Require Import FloatModel FloatSpec FloatProofs FloatProofs2 FloatProps.
Import ListNotations.
Open Scope R_scope.

Section Nan.
Variables prec emax : Z.
Context (Hp : Prec_gt_0 prec) (He : Prec_lt_emax prec emax).
Notation float := (binary_float prec emax).
Notation fadd := (fadd prec emax Hp He).
Notation fsub := (fsub prec emax Hp He).
Notation fmul := (fmul prec emax Hp He).
Notation fdiv := (fdiv prec emax Hp He).
Notation fsq := (fsq prec emax Hp He).
Notation fsqrt := (fsqrt prec emax Hp He).
Notation f0 := (f0 prec emax).

(* a pair with a missing value in either series *)
Definition missing (p : float * float) : Prop := is_nan (fst p) = true \/ is_nan (snd p) = true.

Lemma nan_eq (a : float) : is_nan a = true -> a = B754_nan.
Proof. destruct a; cbn; intros; try discriminate; reflexivity. Qed.
Lemma fold_nan {A} (f : A -> float) l : forall a, fold_left (fun s p => fadd s (f p)) l a = B754_nan \/ ~ (a = B754_nan \/ Exists (fun p => f p = B754_nan) l).
Proof.
  induction l as [|p l IH]; intros a; cbn [fold_left].
  - destruct (is_nan a) eqn:E; [left; apply nan_eq, E|right]. intros [->|X]; [discriminate|inversion X].
  - destruct (IH (fadd a (f p))) as [X|X]; [left; exact X|right]. intros [->|Y]; apply X.
    + left. apply fadd_nan_l.
    + inversion Y as [q m Q|q m Q]; subst; [left; rewrite Q; apply fadd_nan_r|right; exact Q].
Qed.
Lemma fold_nan' {A} (f : A -> float) l a : a = B754_nan \/ Exists (fun p => f p = B754_nan) l -> fold_left (fun s p => fadd s (f p)) l a = B754_nan.
Proof. intros H. destruct (fold_nan f l a) as [X|X]; [exact X|contradiction]. Qed.
Lemma exists_impl {A} (P Q : A -> Prop) l : (forall a, P a -> Q a) -> Exists P l -> Exists Q l.
Proof. intros H. apply Exists_impl, H. Qed.

Lemma sub_missing p : missing p -> fsub (fst p) (snd p) = B754_nan.
Proof. intros [H|H]; apply nan_eq in H; rewrite H; [apply fsub_nan_l|apply fsub_nan_r]. Qed.
Lemma sq_nan : fsq B754_nan = B754_nan. Proof. apply fmul_nan_l. Qed.
Lemma fsqrt_of_nan : fsqrt B754_nan = B754_nan. Proof. reflexivity. Qed.
Lemma py_max_nan b : py_max prec emax B754_nan b = B754_nan.
Proof. unfold py_max. destruct b; reflexivity. Qed.

Lemma split_missing d : Exists missing d -> Exists (fun p : float * float => is_nan (fst p) = true) d \/ Exists (fun p : float * float => is_nan (snd p) = true) d.
Proof.
  induction 1 as [p d [H|H]|p d H [I|I]]; [left|right|left|right]; try (apply Exists_cons_hd; assumption); apply Exists_cons_tl; assumption.
Qed.

Theorem nan_differences d : Exists missing d ->
  f_bias prec emax Hp He d = B754_nan /\ f_RSS prec emax Hp He d = B754_nan /\ f_msd prec emax Hp He d = B754_nan /\
  f_rmsd prec emax Hp He d = B754_nan /\ f_ubrmsd prec emax Hp He d = B754_nan.
Proof.
  intros H. assert (RS : f_RSS prec emax Hp He d = B754_nan).
  { unfold f_RSS. apply fold_nan'. right. revert H. apply exists_impl. intros p M. rewrite (sub_missing p M). apply sq_nan. }
  assert (MS : f_msd prec emax Hp He d = B754_nan) by (unfold f_msd; rewrite RS; apply fdiv_nan_l).
  split; [|split; [exact RS|split; [exact MS|split]]].
  - unfold f_bias. rewrite fold_nan'; [apply fdiv_nan_l|]. right. revert H. apply exists_impl. exact sub_missing.
  - unfold f_rmsd. rewrite MS. apply fsqrt_of_nan.
  - unfold f_ubrmsd. destruct d as [|q d']; [inversion H|]. set (d := q :: d') in *. cbv zeta.
    rewrite (fold_nan' (fun p => fsq (fsub (fsub (fst p) _) (fsub (snd p) _)))); [rewrite fdiv_nan_l; reflexivity|].
    right. revert H. apply exists_impl. intros p [M|M]; apply nan_eq in M; rewrite M; rewrite fsub_nan_l; rewrite ?fsub_nan_l, ?fsub_nan_r; apply sq_nan.
Qed.

Lemma mean_nan_x d : forall s : fstate prec emax, Exists (fun p : float * float => is_nan (fst p) = true) d \/ s_mx _ _ s = B754_nan ->
  s_mx prec emax (fold_left (fs_step prec emax Hp He) d s) = B754_nan.
Proof.
  induction d as [|p d IH]; intros s H; cbn [fold_left]; [destruct H as [H|H]; [inversion H|exact H]|]. apply IH.
  destruct H as [H|H]; [|right; cbn; rewrite H; apply fadd_nan_l].
  inversion H as [q l Q|q l Q]; subst; [right|left; exact Q]. cbn. apply nan_eq in Q. rewrite Q, fsub_nan_l, fdiv_nan_l. apply fadd_nan_r.
Qed.
Lemma mean_nan_y d : forall s : fstate prec emax, Exists (fun p : float * float => is_nan (snd p) = true) d \/ s_my _ _ s = B754_nan ->
  s_my prec emax (fold_left (fs_step prec emax Hp He) d s) = B754_nan.
Proof.
  induction d as [|p d IH]; intros s H; cbn [fold_left]; [destruct H as [H|H]; [inversion H|exact H]|]. apply IH.
  destruct H as [H|H]; [|right; cbn; rewrite H; apply fadd_nan_l].
  inversion H as [q l Q|q l Q]; subst; [right|left; exact Q]. cbn. apply nan_eq in Q. rewrite Q, fsub_nan_l, fdiv_nan_l. apply fadd_nan_r.
Qed.

Theorem nan_mse d : Exists missing d ->
  f_mse_decomposition prec emax Hp He d = (B754_nan, B754_nan, B754_nan, B754_nan).
Proof.
  intros H. apply split_missing in H. unfold f_mse_decomposition, f_moments. cbv zeta. set (s := fold_left _ d _).
  unfold f_mse_corr, f_mse_var, f_mse_bias. cbn [fm_x fm_y fm_vx fm_vy fm_cov].
  destruct H as [H|H].
  - destruct (nan_x_moments prec emax Hp He d (fs_init prec emax) H) as [V C]. fold s in V, C. pose proof (mean_nan_x d (fs_init prec emax) (or_introl H)) as M. fold s in M.
    rewrite V, C, M, !fdiv_nan_l, !fsqrt_of_nan, fmul_nan_r, fmul_nan_l, !fsub_nan_l, py_max_nan, !sq_nan, !fadd_nan_l. reflexivity.
  - destruct (nan_y_moments prec emax Hp He d (fs_init prec emax) H) as [V C]. fold s in V, C. pose proof (mean_nan_y d (fs_init prec emax) (or_introl H)) as M. fold s in M.
    rewrite V, C, M, !fdiv_nan_l, !fsqrt_of_nan, !fmul_nan_r, !fsub_nan_r, py_max_nan, !sq_nan, !fadd_nan_l. reflexivity.
Qed.

(* ---- rolling metrics ---- *)
Section Roll.
Variable betainc : float -> float -> float -> float.
Variable ts : list float.
Variable d : list (float * float).
Variable window : float.
Variable center : bool.
Variable mp : Z.
Notation step := (f_roll_step prec emax Hp He betainc ts d window center mp).
Notation loop := (f_roll_loop prec emax Hp He betainc ts d window center mp).
Notation add := (f_add prec emax Hp He).
Notation remove := (f_remove prec emax Hp He).
Notation pos a b := (map (d_at prec emax d) (from_to a b)).

Definition tainted (s : froll prec emax) : Prop := s_C prec emax (fst s) = B754_nan /\ snd s = B754_nan.
Lemma add_tainted s p : tainted s \/ missing p -> tainted (add s p).
Proof.
  intros [[C M]|H]; split; cbn.
  - rewrite C. apply fadd_nan_l.
  - rewrite M. apply fadd_nan_l.
  - destruct H as [H|H]; apply nan_eq in H; rewrite H, ?fsub_nan_l; [rewrite fmul_nan_l|rewrite fmul_nan_r]; apply fadd_nan_r.
  - rewrite (sub_missing p H), sq_nan, fsub_nan_l, fdiv_nan_l. apply fadd_nan_r.
Qed.
Lemma remove_tainted s p : tainted s -> tainted (remove s p).
Proof. intros [C M]; split; cbn; rewrite ?C, ?M; apply fsub_nan_l. Qed.
Lemma adds_tainted l : forall s, tainted s \/ Exists missing l -> tainted (fold_left add l s).
Proof.
  induction l as [|p l IH]; intros s H; cbn [fold_left]; [destruct H as [H|H]; [exact H|inversion H]|]. apply IH.
  destruct H as [H|H]; [left; apply add_tainted; left; exact H|]. inversion H as [q m Q|q m Q]; subst; [left; apply add_tainted; right; exact Q|right; exact Q].
Qed.
Lemma removes_tainted l : forall s, tainted s -> tainted (fold_left remove l s).
Proof. induction l as [|p l IH]; intros s H; cbn [fold_left]; [exact H|]. apply IH, remove_tainted, H. Qed.

(* the row of a tainted state *)
Definition bad (row : frow prec emax) : Prop :=
  snd row = B754_nan /\ (fst row = (B754_nan, B754_nan) \/ fst row = (fm1 prec emax Hp He, f0)).

Variable k : nat.
Hypothesis K : missing (d_at prec emax d k).
Definition inv (s : nat * nat * froll prec emax) : Prop := (k < snd (fst s))%nat -> tainted (snd s).

Lemma step_inv s i : inv s -> inv (fst (step s i)) /\ ((k < snd (fst (fst (step s i))))%nat -> bad (snd (step s i))).
Proof.
  destruct s as [[lold hold] sums]. intros I. unfold inv in *. cbn [fst snd] in I. unfold f_roll_step. cbv zeta. cbn [fst snd].
  set (lower := find_lower _ _ _ _ _ _ _ _ _). set (hi := find_hi _ _ _ _ _ _ _ _ _). set (sums' := fold_left remove _ _).
  assert (T : (k < hi)%nat -> tainted sums').
  { intros L. unfold sums'. apply removes_tainted, adds_tainted. destruct (Nat.lt_ge_cases k hold) as [X|X]; [left; exact (I X)|right].
    apply Exists_exists. exists (d_at prec emax d k). split; [|exact K]. apply in_map. unfold from_to. apply in_seq. lia. }
  split; [exact T|]. intros L. destruct (T L) as [C M]. destruct (_ || _)%bool.
  - split; [reflexivity|left; reflexivity].
  - split; cbn [fst snd]; [rewrite M; reflexivity|]. rewrite C.
    destruct (Beqb (s_M2x prec emax (fst sums')) f0 || Beqb (s_M2y prec emax (fst sums')) f0)%bool eqn:E.
    + left. unfold f_pearson. rewrite E. reflexivity.
    + right. apply pearson_nan_cov, E.
Qed.

Lemma scan_behind (stop : nat -> bool) (i n : nat) js : (forall j, In j js -> stop j = true -> (i < j)%nat) -> (forall j, In j js -> (j < n)%nat) ->
  (exists j, In j js /\ stop j = true) -> forall v, (i < scan stop js v <= n)%nat.
Proof.
  induction js as [|j js IH]; intros A B (q & Q & S) v; [destruct Q|]. cbn [scan]. destruct (stop j) eqn:E.
  - split; [exact (A j (or_introl eq_refl) E)|]. specialize (B j (or_introl eq_refl)). lia.
  - apply IH.
    + intros r I. exact (A r (or_intror I)).
    + intros r I. exact (B r (or_intror I)).
    + exists q. split; [|exact S]. destruct Q as [->|Q]; [congruence|exact Q].
Qed.
Notation n := (n_ts prec emax ts).
(* the time stamps do not decrease, the window is not negative, and adding it to a time stamp does not overflow *)
Hypothesis SO : forall i j, (i <= j < n)%nat -> B2R (t_at prec emax ts i) <= B2R (t_at prec emax ts j).
Hypothesis FI : forall i, (i < n)%nat -> is_finite (fadd (t_at prec emax ts i) window) = true.
Hypothesis W : 0 <= B2R window.
Lemma not_later i j : (j <= i < n)%nat -> Bltb (fadd (t_at prec emax ts i) window) (t_at prec emax ts j) = false.
Proof.
  intros R. assert (Fs : is_finite (fadd (t_at prec emax ts i) window) = true) by (apply FI; lia).
  assert (Fj : is_finite (t_at prec emax ts j) = true) by (apply (fadd_finite_inv prec emax Hp He (t_at prec emax ts j) window), FI; lia).
  rewrite Bltb_correct by assumption. apply Rlt_bool_false. rewrite (fadd_val prec emax Hp He _ _ Fs).
  apply Rle_trans with (B2R (t_at prec emax ts i)); [apply SO; lia|]. rewrite <- (rnd_id prec emax (t_at prec emax ts i)) at 1. apply rnd_le; [exact Hp|]. lra.
Qed.
Lemma hi_behind i h : (i < n)%nat -> (i <= h <= n)%nat -> (i < find_hi prec emax Hp He ts window center i h <= n)%nat.
Proof.
  intros I H. unfold find_hi. destruct center; [|lia]. destruct (Bltb _ (t_at prec emax ts (n - 1))) eqn:L; [|lia].
  assert (NE : (i <> n - 1)%nat). { intros ->. rewrite not_later in L by lia. discriminate. }
  set (h' := if Nat.eqb i 0 then 2%nat else h). assert (H' : (h' - 1 < n)%nat) by (unfold h'; destruct (Nat.eqb_spec i 0); lia).
  apply scan_behind.
  - intros j J S. unfold from_to in J. apply in_seq in J. destruct (Nat.lt_ge_cases i j) as [X|X]; [exact X|]. rewrite not_later in S by lia. discriminate.
  - intros j J. unfold from_to in J. apply in_seq in J. lia.
  - exists (n - 1)%nat. split; [|exact L]. unfold from_to. apply in_seq. lia.
Qed.

Lemma loop_bad m : forall a s, (a + m <= n)%nat -> (a <= snd (fst s) <= n)%nat -> inv s ->
  forall i, (k <= i)%nat -> (a <= i < a + m)%nat -> exists row, nth_error (loop (seq a m) s) (i - a) = Some row /\ bad row.
Proof.
  induction m as [|m IH]; intros a s N A I i KI R; [lia|]. cbn [seq f_roll_loop].
  destruct (step_inv s a I) as [I' B]. destruct (step s a) as [s' o] eqn:E. cbn [fst snd] in I', B.
  assert (HA : (a < snd (fst s') <= n)%nat).
  { assert (X : snd (fst s') = snd (fst (fst (step s a)))) by (rewrite E; reflexivity). rewrite X. destruct s as [[lold hold] sums].
    unfold f_roll_step. cbv zeta. cbn [fst snd] in *. apply hi_behind; [lia|exact A]. }
  destruct (Nat.eq_dec i a) as [->|NE].
  - rewrite Nat.sub_diag. cbn [nth_error]. exists o. split; [reflexivity|]. apply B. lia.
  - replace (i - a)%nat with (S (i - S a))%nat by lia. cbn [nth_error]. apply IH; try assumption; lia.
Qed.
End Roll.
End Nan.

(* If a value is missing in either series, bias, RSS, MSD, RMSD, ubRMSD and all parts of the MSE are NaN. *)
Theorem C131_missing_is_nan :
  forall (prec emax : Z) (Hp : Prec_gt_0 prec) (He : Prec_lt_emax prec emax) (d : list (binary_float prec emax * binary_float prec emax)),
  Exists (fun p => is_nan (fst p) = true \/ is_nan (snd p) = true) d ->
  f_bias prec emax Hp He d = B754_nan /\ f_RSS prec emax Hp He d = B754_nan /\ f_msd prec emax Hp He d = B754_nan /\
  f_rmsd prec emax Hp He d = B754_nan /\ f_ubrmsd prec emax Hp He d = B754_nan /\
  f_mse_decomposition prec emax Hp He d = (B754_nan, B754_nan, B754_nan, B754_nan).
Proof.
  intros prec emax Hp He d H. destruct (nan_differences prec emax Hp He d H) as (A & B & C & D & E). repeat (split; [assumption|]). exact (nan_mse prec emax Hp He d H).
Qed.
Print Assumptions C131_missing_is_nan.

(* Rolling metrics: from the position of the missing value on no row has an RMSD any more, and a correlation, where one is
   given, is exactly -1 with p-value 0 - also where the missing value has left the window long ago. *)
Theorem C131_rolling_after_missing :
  forall (prec emax : Z) (Hp : Prec_gt_0 prec) (He : Prec_lt_emax prec emax) betainc ts d window center mp k i,
  let n := List.length ts in let t := fun j => nth j ts (B754_zero false) in
  (forall a b, (a <= b < n)%nat -> B2R (t a) <= B2R (t b)) -> (forall a, (a < n)%nat -> is_finite (fadd prec emax Hp He (t a) window) = true) -> 0 <= B2R window ->
  (exists p, nth_error d k = Some p /\ (is_nan (fst p) = true \/ is_nan (snd p) = true)) -> (k <= i < n)%nat ->
  exists r, nth_error (f_rolling prec emax Hp He betainc ts d window center mp) i = Some (r, B754_nan) /\
    (r = (B754_nan, B754_nan) \/ r = (fm1 prec emax Hp He, f0 prec emax)).
Proof.
  intros prec emax Hp He betainc ts d window center mp k i n t SO FI W (p & P & M) R.
  assert (K : missing prec emax (d_at prec emax d k)) by (unfold d_at; rewrite (nth_error_nth d k (f0 prec emax, f0 prec emax) P); exact M).
  assert (I0 : inv prec emax k (0%nat, 0%nat, (fs_init prec emax, f0 prec emax))) by (intros L; cbn in L; lia).
  destruct (loop_bad prec emax Hp He betainc ts d window center mp k K SO FI W n 0%nat (0%nat, 0%nat, (fs_init prec emax, f0 prec emax))) with (i := i) as (row & E & B1 & B2);
    [unfold n_ts; fold n; lia|cbn; unfold n_ts; lia|exact I0|lia|lia|].
  rewrite Nat.sub_0_r in E. exists (fst row). split; [|exact B2]. rewrite <- B1, <- surjective_pairing. exact E.
Qed.
Print Assumptions C131_rolling_after_missing.

(* "The rolling metrics of a row depend on the data in its window": false after a missing value.  Seven equally spaced times, windows
   of three time steps, the value at the first time missing: the correlation of the last row, whose window has three complete pairs, is -1
   and its RMSD is missing, while the same data without the first row give a correlation above 0.8 and an RMSD. *)
Definition step_times (a : Z) (n : nat) : list double := map (fun j => dyad (a + Z.of_nat j) 0) (seq 0 n).
Definition rising : list (double * double) := tenths [(1, 2); (2, 3); (4, 5); (5, 9); (7, 9)]%Z.
Theorem C131_window_refuted :
  exists (ts : list double) d w mp i, nth_error (step_times 0 6) i = nth_error ts (S i) /\ ts = dyad (-1) 0 :: step_times 0 6 /\
    let with_first := dbl f_rolling no_p ts ((B754_nan, dec 1 10) :: d) w false mp in
    let without := dbl f_rolling no_p (step_times 0 6) d w false mp in
    option_map (fun r => (B2SF (fst (fst r)), is_nan (snd r))) (nth_error with_first (S i)) = Some (B2SF (dyad (-1) 0), true) /\
    option_map (fun r => (Bltb (dec 8 10) (fst (fst r)), is_nan (snd r))) (nth_error without i) = Some (true, false).
Proof.
  exists (dyad (-1) 0 :: step_times 0 6), (rising ++ tenths [(9, 11)]%Z), (dyad 3 0), 2%Z, 5%nat. split; [reflexivity|]. split; [reflexivity|]. cbv zeta. split; vm_compute; reflexivity.
Qed.
Print Assumptions C131_window_refuted.
Example C131_missing_example : Exists (fun p => is_nan (fst p) = true \/ is_nan (snd p) = true) ((B754_nan, dec 1 10) :: rising) /\ is_nan (dbl f_rmsd rising) = false.
Proof. split; [constructor; left; reflexivity|vm_compute; reflexivity]. Qed.
Example C131_rolling_example :
  let ts := step_times 0 4 in let t := fun j => nth j ts (B754_zero false) in
  (forall a b, (a <= b < 4)%nat -> B2R (t a) <= B2R (t b)) /\ (forall a, (a < 4)%nat -> is_finite (dbl fadd (t a) (dyad 1 0)) = true) /\ 0 <= B2R (dyad 1 0) /\
  (exists p, nth_error ((B754_nan, dec 1 10) :: rising) 0 = Some p /\ (is_nan (fst p) = true \/ is_nan (snd p) = true)).
Proof.
  cbv zeta. assert (LE : forall x y : double, is_finite x = true -> is_finite y = true -> Bleb x y = true -> B2R x <= B2R y).
  { intros x y X Y L. rewrite Bleb_correct in L by assumption. destruct (Rle_bool_spec (B2R x) (B2R y)); [assumption|discriminate]. }
  split; [|split; [|split]].
  - intros a b R. assert (C : (a = 0 \/ a = 1 \/ a = 2 \/ a = 3)%nat) by lia. assert (D : (b = 0 \/ b = 1 \/ b = 2 \/ b = 3)%nat) by lia.
    apply LE; destruct C as [C|[C|[C|C]]]; destruct D as [D|[D|[D|D]]]; subst; try lia; vm_compute; reflexivity.
  - intros a R. assert (C : (a = 0 \/ a = 1 \/ a = 2 \/ a = 3)%nat) by lia. destruct C as [C|[C|[C|C]]]; subst; vm_compute; reflexivity.
  - change 0 with (B2R (B754_zero false : double)). apply LE; vm_compute; reflexivity.
  - eexists. split; [reflexivity|left; reflexivity].
Qed.

(* min_max: one missing value in either series makes every scaled value missing *)
Lemma np_min_nan prec emax (l : list (binary_float prec emax)) : forall x, Exists (fun v => is_nan v = true) (x :: l) -> is_nan (np_min prec emax x l) = true.
Proof.
  unfold np_min. induction l as [|y l IH]; intros x H; cbn [fold_left].
  - inversion H as [v m V|v m V]; subst; [exact V|inversion V].
  - apply IH. unfold np_min2. inversion H as [v m V|v m V]; subst.
    + rewrite V. apply Exists_cons_hd. exact V.
    + inversion V as [v m U|v m U]; subst; [|apply Exists_cons_tl; exact U]. apply Exists_cons_hd. rewrite U. destruct (is_nan x) eqn:X; [exact X|exact U].
Qed.
Theorem C131_min_max_missing :
  forall (prec emax : Z) (Hp : Prec_gt_0 prec) (He : Prec_lt_emax prec emax) x src r ref,
  Exists (fun v : binary_float prec emax => is_nan v = true) (x :: src) \/ Exists (fun v : binary_float prec emax => is_nan v = true) (r :: ref) ->
  f_min_max prec emax Hp He x src r ref = map (fun _ => B754_nan) (x :: src).
Proof.
  intros prec emax Hp He x src r ref H. unfold f_min_max. cbv zeta. apply map_ext. intros v.
  destruct H as [H|H]; apply np_min_nan, nan_eq in H; rewrite H.
  - rewrite fsub_nan_r, fdiv_nan_l, fmul_nan_l, fadd_nan_l. reflexivity.
  - apply fadd_nan_r.
Qed.
Print Assumptions C131_min_max_missing.
Example C131_min_max_example : map is_nan (dbl f_min_max (dec 1 10) [dec 2 10; B754_nan] (dec 3 10) [dec 5 10; dec 4 10]) = [true; true; true] /\
  map is_nan (dbl f_min_max (dec 1 10) [dec 2 10; dec 7 10] (dec 3 10) [dec 5 10; dec 4 10]) = [false; false; false].
Proof. split; vm_compute; reflexivity. Qed.
