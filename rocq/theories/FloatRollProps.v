(* C84: the windows of the rolling metrics in IEEE 754 arithmetic, and the parts of the MSE. *)
From Coq Require Import ZArith Reals List Lia Lra Bool.
From Flocq Require Import Core IEEE754.BinarySingleNaN.
From Verif Require RStats RollingModel RollingProofs.
From Verif Require Import RollingSpec.
From Verif Require Import FloatModel FloatSpec FloatProofs FloatProofs2 FloatProofs3 FloatProofs4 FloatProofs5 FloatProps.
Import ListNotations.
Open Scope R_scope.

Lemma Forall2_len {A B} (P : A -> B -> Prop) l m : Forall2 P l m -> List.length l = List.length m.
Proof. induction 1; cbn; congruence. Qed.

Section Roll.
Variables prec emax : Z.
Context (Hp : Prec_gt_0 prec) (He : Prec_lt_emax prec emax).
Notation float := (binary_float prec emax).
Notation fadd := (fadd prec emax Hp He).
Notation fsub := (fsub prec emax Hp He).
Notation fsqrt := (fsqrt prec emax Hp He).

(* time stamps and window are numbers, and adding and subtracting the window is exact (for instance whole
   numbers of moderate size) *)
Definition exact_times (ts : list float) (w : float) : Prop :=
  is_finite w = true /\ Forall (fun t => is_finite t = true /\ is_finite (fsub t w) = true /\ B2R (fsub t w) = B2R t - B2R w /\
    is_finite (fadd t w) = true /\ B2R (fadd t w) = B2R t + B2R w) ts.
(* the samples in the window of sample i *)
Definition in_window (center : bool) (ts : list R) (w : R) (d : list (float * float)) (i : nat) : list (float * float) :=
  if center then map snd (filter (fun s => if Rle_dec (Rabs (fst s - nth i ts 0)) w then true else false) (combine ts d))
  else map snd (filter (fun s => if Rlt_dec (nth i ts 0 - w) (fst s) then true else false) (firstn (S i) (combine ts d))).
(* the metrics of samples that were added one after the other *)
Definition added_up (betainc : float -> float -> float -> float) (win : list (float * float)) : float * float * float :=
  let s := fold_left (f_add prec emax Hp He) win (fs_init prec emax, f0 prec emax) in
  (f_pearson prec emax Hp He betainc (s_M2x _ _ (fst s)) (s_M2y _ _ (fst s)) (s_C _ _ (fst s)) (Z.of_nat (List.length win)), fsqrt (snd s)).

Section Run.
Variable betainc : float -> float -> float -> float.
Variable ts : list float.
Variable d : list (float * float).
Variable w : float.
Variable center : bool.
Variable mp : Z.
Hypothesis LEN : List.length ts = List.length d.
Hypothesis EX : exact_times ts w.
Hypothesis CH : chronological (map B2R ts).
Hypothesis W : 0 < B2R w \/ (center = true /\ 0 <= B2R w).
Notation tr := (map (@B2R prec emax) ts).
Notation n := (List.length ts).

Lemma tr_at j : RollingModel.t_at tr j = B2R (t_at prec emax ts j).
Proof. unfold RollingModel.t_at, t_at. rewrite <- (map_nth (@B2R prec emax) ts (f0 prec emax) j). reflexivity. Qed.
Lemma ex_at j : (j < n)%nat -> let t := t_at prec emax ts j in is_finite t = true /\ is_finite (fsub t w) = true /\ B2R (fsub t w) = B2R t - B2R w /\
    is_finite (fadd t w) = true /\ B2R (fadd t w) = B2R t + B2R w.
Proof. intros J. destruct EX as [_ E]. rewrite Forall_forall in E. apply E. apply nth_In, J. Qed.
Lemma fin_at j : is_finite (t_at prec emax ts j) = true.
Proof. destruct (Nat.lt_ge_cases j n) as [J|J]; [apply (ex_at j J)|]. unfold t_at. rewrite nth_overflow by exact J. reflexivity. Qed.
Lemma scan_eq (p q : nat -> bool) js : (forall j, In j js -> p j = q j) -> forall v, scan p js v = RollingModel.scan q js v.
Proof. induction js as [|j r IH]; intros H v; [reflexivity|]. cbn. rewrite (H j) by (left; reflexivity). destruct (q j); [reflexivity|]. apply IH. intros; apply H; right; assumption. Qed.
Lemma rleb_b a b : Rle_bool a b = RollingModel.rleb a b.
Proof. unfold RollingModel.rleb. destruct (Rle_dec a b); [apply Rle_bool_true; assumption|apply Rle_bool_false; lra]. Qed.
Lemma rltb_b a b : Rlt_bool a b = RollingModel.rltb a b.
Proof. unfold RollingModel.rltb. destruct (Rlt_dec a b); [apply Rlt_bool_true; assumption|apply Rlt_bool_false; lra]. Qed.
Lemma lower_eq i l : (i < n)%nat -> find_lower prec emax Hp He ts w center i l = RollingModel.find_lower tr (B2R w) center i l.
Proof.
  intros I. destruct (ex_at i I) as (_ & F & E & _). unfold find_lower, RollingModel.find_lower, n_ts, RollingModel.n_ts. rewrite map_length.
  change RollingModel.from_to with from_to.
  destruct center; apply scan_eq; intros j _.
  - rewrite Bleb_correct by (try exact F; apply fin_at). rewrite E, !tr_at. apply rleb_b.
  - rewrite Bltb_correct by (try exact F; apply fin_at). rewrite E, !tr_at. apply rltb_b.
Qed.
Lemma hi_eq i h : (i < n)%nat -> find_hi prec emax Hp He ts w center i h = RollingModel.find_hi tr (B2R w) center i h.
Proof.
  intros I. destruct (ex_at i I) as (_ & _ & _ & F & E). unfold find_hi, RollingModel.find_hi, n_ts, RollingModel.n_ts. rewrite map_length.
  change RollingModel.from_to with from_to. destruct center; [|reflexivity].
  rewrite Bltb_correct by (try exact F; apply fin_at). rewrite E, rltb_b, !tr_at. destruct (RollingModel.rltb _ _); [|reflexivity].
  apply scan_eq. intros j _. rewrite Bltb_correct by (try exact F; apply fin_at). rewrite E, !tr_at. apply rltb_b.
Qed.

Notation lok := (RollingProofs.lower_ok tr (B2R w) center).
Notation hok := (RollingProofs.hi_ok tr (B2R w) center).

Notation zeros := (map (fun _ : float * float => (0, 0)) d).
Lemma LZ : List.length tr = List.length zeros. Proof. rewrite !map_length. exact LEN. Qed.
Lemma nth_ts i : nth i tr 0 = RollingModel.t_at tr i. Proof. reflexivity. Qed.

(* the window is the slice between the bounds *)
Lemma window_is i a b : (i < n)%nat -> lok i a -> hok i b -> in_window center tr (B2R w) d i = RollingProofs.slice a b d.
Proof.
  intros I (A1 & A2 & A3) (B1 & B2 & B3 & B4). rewrite map_length in B2, B4. unfold in_window. rewrite nth_ts.
  assert (LC : List.length (combine tr d) = n) by (rewrite combine_length, map_length, <- LEN; apply Nat.min_id).
  assert (MS : RollingProofs.slice a b d = map snd (RollingProofs.slice a b (combine tr d))).
  { rewrite <- RollingProofs.slice_map. f_equal. assert (L : List.length tr = List.length d) by (rewrite map_length; exact LEN). revert L. generalize tr. clear.
    intros l. revert d. induction l as [|x l IH]; intros [|y m] L; cbn in *; try discriminate; [reflexivity|]. f_equal. apply IH. lia. }
  rewrite MS. set (dft := (0, (f0 prec emax, f0 prec emax))).
  assert (NF : forall j, (j < n)%nat -> fst (nth j (combine tr d) dft) = RollingModel.t_at tr j).
  { intros j J. unfold dft. rewrite combine_nth by (rewrite map_length; exact LEN). reflexivity. }
  assert (S1 : forall j, (j < n)%nat -> RollingProofs.starts tr (B2R w) center i j = Nat.leb a j).
  { intros j J. destruct (Nat.leb_spec a j); [apply (RollingProofs.starts_up tr (B2R w) center CH W i a j); try assumption; rewrite map_length; exact J|apply A3; assumption]. }
  assert (E1 : forall j, (j < n)%nat -> RollingProofs.ends tr (B2R w) center i j = Nat.ltb j b).
  { intros j J. destruct (Nat.ltb_spec j b); [apply B3; assumption|apply B4; lia]. }
  unfold RollingProofs.starts in S1. unfold RollingProofs.ends in E1, B3, B4.
  destruct center.
  - f_equal. apply (RollingProofs.slice_filter _ dft); [lia|lia|]. intros j J. rewrite LC in J. rewrite NF by exact J.
    rewrite <- S1, <- E1 by exact J. unfold RollingModel.rleb. set (x := RollingModel.t_at tr j). set (y := RollingModel.t_at tr i).
    destruct (Rle_dec (Rabs (x - y)) (B2R w)) as [X|X], (Rle_dec (y - B2R w) x) as [Y|Y], (Rle_dec x (y + B2R w)) as [Z|Z]; try reflexivity; exfalso;
      unfold Rabs in X; destruct (Rcase_abs (x - y)); lra.
  - assert (EB : b = S i). { pose proof (B4 (S i)) as X. pose proof (B3 (b - 1)%nat ltac:(lia)) as Y. apply Nat.leb_le in Y.
      destruct (Nat.lt_ge_cases (S i) b); [lia|]. lia. }
    f_equal.
    assert (SF : RollingProofs.slice a b (combine tr d) = RollingProofs.slice a b (firstn (S i) (combine tr d))).
    { unfold RollingProofs.slice. rewrite EB. rewrite skipn_firstn_comm, firstn_firstn. f_equal. lia. }
    rewrite SF. apply (RollingProofs.slice_filter _ dft); [lia|rewrite firstn_length, LC; lia|].
    intros j J. rewrite firstn_length, LC in J. assert (JN : (j < n)%nat) by lia.
    assert (NN : nth j (firstn (S i) (combine tr d)) dft = nth j (combine tr d) dft).
    { rewrite <- (firstn_skipn (S i) (combine tr d)) at 2. rewrite app_nth1; [reflexivity|]. rewrite firstn_length, LC. lia. }
    rewrite NN, NF by exact JN. rewrite <- S1 by exact JN.
    assert (TB : Nat.ltb j b = true) by (apply Nat.ltb_lt; lia). rewrite TB, Bool.andb_true_r. reflexivity.
Qed.

Definition row_of (i : nat) (out : float * float * float) : Prop :=
  let win := in_window center tr (B2R w) d i in
  ((Z.of_nat (List.length win) < mp)%Z -> out = ((B754_nan, B754_nan), B754_nan)) /\
  ((mp <= Z.of_nat (List.length win))%Z ->
     (exists s, out = (f_pearson prec emax Hp He betainc (s_M2x _ _ (fst s)) (s_M2y _ _ (fst s)) (s_C _ _ (fst s)) (Z.of_nat (List.length win)), fsqrt (snd s))) /\
     (RollingProofs.starts tr (B2R w) center i 0 = true -> out = added_up betainc win)).
Definition ready (s : nat * nat * froll prec emax) (i : nat) : Prop :=
  let '(lo, hi, sums) := s in
  match i with 0%nat => lo = 0%nat /\ hi = 0%nat | S i' => lok i' lo /\ hok i' hi end /\
  (lo = 0%nat -> sums = fold_left (f_add prec emax Hp He) (firstn hi d) (fs_init prec emax, f0 prec emax)).

Lemma step_ready s i : (i < n)%nat -> ready s i ->
  ready (fst (f_roll_step prec emax Hp He betainc ts d w center mp s i)) (S i) /\ row_of i (snd (f_roll_step prec emax Hp He betainc ts d w center mp s i)).
Proof.
  destruct s as ((a, b), sums). intros I (RB & RS). unfold f_roll_step. rewrite lower_eq, hi_eq by exact I.
  assert (IT : (i < List.length tr)%nat) by (rewrite map_length; exact I).
  assert (LA : (a <= i)%nat /\ forall j, (j < a)%nat -> RollingProofs.starts tr (B2R w) center i j = false).
  { destruct i as [|i']; [destruct RB as [-> _]; split; lia|]. destruct RB as [(A1 & A2 & A3) _]. split; [lia|].
    intros j J. apply (RollingProofs.starts_mono tr (B2R w) center CH W i' (S i')); [lia|exact IT|apply A3; exact J]. }
  destruct (RollingProofs.find_lower_ok tr zeros (B2R w) center LZ W i a IT (proj1 LA) (proj2 LA)) as [LO LM]. set (a' := RollingModel.find_lower tr (B2R w) center i a) in *.
  assert (HB : b = 0%nat /\ i = 0%nat \/ (0 < i)%nat /\ (0 < b <= List.length tr)%nat /\ forall j, (j < b)%nat -> RollingProofs.ends tr (B2R w) center i j = true).
  { destruct i as [|i']; [left; tauto|]. right. destruct RB as [_ (B1 & B2 & B3 & B4)]. split; [lia|]. split; [lia|].
    intros j J. apply (RollingProofs.ends_mono tr zeros (B2R w) center LZ CH W i' (S i')); [lia|exact IT|apply B3; exact J]. }
  destruct (RollingProofs.find_hi_ok tr zeros (B2R w) center LZ CH W i b IT HB) as [HO HM]. set (b' := RollingModel.find_hi tr (B2R w) center i b) in *.
  pose proof LO as (A1 & A2 & A3). pose proof HO as (B1 & B2 & _). rewrite map_length in B2.
  cbn [fst snd]. set (nsums := fold_left (f_remove _ _ _ _) _ _).
  assert (NS : a' = 0%nat -> nsums = fold_left (f_add prec emax Hp He) (firstn b' d) (fs_init prec emax, f0 prec emax)).
  { intros E. assert (a = 0%nat) by lia. specialize (RS H). unfold nsums. rewrite E, H. unfold from_to at 1. cbn [Nat.sub seq map fold_left]. rewrite RS.
    change from_to with RollingModel.from_to. unfold d_at. rewrite RollingProofs.map_nth_slice by lia. rewrite <- fold_left_app. f_equal.
    unfold RollingProofs.slice. rewrite <- (firstn_skipn b (firstn b' d)). f_equal; [rewrite firstn_firstn; f_equal; lia|]. rewrite skipn_firstn_comm. reflexivity. }
  split.
  - split; [split; assumption|exact NS].
  - pose proof (window_is i a' b' I LO HO) as WS. unfold row_of. cbv zeta. rewrite WS. rewrite RollingProofs.slice_length by lia.
    replace (Z.of_nat b' - Z.of_nat a')%Z with (Z.of_nat (b' - a')) by lia. destruct (Z.eqb_spec (Z.of_nat (b' - a')) 0) as [Z0|Z0]; [lia|]. cbn [orb].
    split.
    + intros L. apply Z.ltb_lt in L. rewrite L. reflexivity.
    + intros L. apply Z.ltb_ge in L. rewrite L. split; [exists nsums; reflexivity|]. intros ST.
      assert (E : a' = 0%nat). { destruct a' as [|a']; [reflexivity|]. specialize (A3 0%nat ltac:(lia)). congruence. }
      unfold added_up. rewrite RollingProofs.slice_length by lia. rewrite (NS E), E. unfold RollingProofs.slice. cbn [skipn]. rewrite Nat.sub_0_r. reflexivity.
Qed.
Lemma loop_rows k i s : (i + k <= n)%nat -> ready s i -> Forall2 row_of (seq i k) (f_roll_loop prec emax Hp He betainc ts d w center mp (seq i k) s).
Proof.
  revert i s. induction k as [|k IH]; intros i s L Rd; [constructor|]. cbn [seq f_roll_loop].
  destruct (step_ready s i ltac:(lia) Rd) as [R1 R2]. destruct (f_roll_step prec emax Hp He betainc ts d w center mp s i) as [s' o]. cbn [fst snd] in *.
  constructor; [exact R2|]. apply IH; [lia|exact R1].
Qed.
Lemma rolling_rows : Forall2 row_of (seq 0 n) (f_rolling prec emax Hp He betainc ts d w center mp).
Proof. unfold f_rolling, n_ts. apply loop_rows; [lia|]. split; [split; reflexivity|reflexivity]. Qed.
End Run.

(* sums of floats that are not negative are not below their parts *)
Lemma add_above : forall a b : float, nonneg_or_nan prec emax a -> nonneg_or_nan prec emax b -> is_nan (fadd a b) = false ->
  Bleb a (fadd a b) = true /\ Bleb b (fadd a b) = true.
Proof.
  intros a b Na Nb NN. pose proof (fadd_nn prec emax Hp He a b Na Nb) as Ns.
  destruct (is_finite a) eqn:Fa; destruct (is_finite b) eqn:Fb.
  - pose proof (nn_finite prec emax a Na Fa) as La. pose proof (nn_finite prec emax b Nb Fb) as Lb.
    destruct (fadd_cases prec emax Hp He a b Fa Fb) as [[_ [F E]]|[O [E S]]].
    + rewrite !Bleb_correct by assumption. rewrite E. split; apply Rle_bool_true.
      * apply round_ge_generic; auto with typeclass_instances; [apply generic_format_B2R|lra].
      * apply round_ge_generic; auto with typeclass_instances; [apply generic_format_B2R|lra].
    + change (FloatModel.fadd prec emax Hp He a b) with (fadd a b) in E. rewrite E in Ns |- *. cbn in Ns. rewrite Ns. split.
      * destruct a as [s|s| |s m e H]; cbn in *; try discriminate; reflexivity.
      * destruct b as [s|s| |s m e H]; cbn in *; try discriminate; reflexivity.
  - destruct a as [sa|sa| |sa ma ea Ha]; destruct b as [sb|sb| |sb mb eb Hb]; cbn in *; try discriminate; subst; auto.
  - destruct a as [sa|sa| |sa ma ea Ha]; destruct b as [sb|sb| |sb mb eb Hb]; cbn in *; try discriminate; subst; auto.
  - destruct a as [sa|sa| |sa ma ea Ha]; destruct b as [sb|sb| |sb mb eb Hb]; cbn in *; try discriminate; subst; auto.
Qed.

Lemma le_below : forall a z : float, nonneg_or_nan prec emax a -> is_finite z = true -> Bleb a z = true -> is_finite a = true.
Proof. intros a z N F L. destruct a as [s|s| |s m e H]; try reflexivity; destruct z as [s'|s'| |s' m' e' H']; cbn in *; subst; try discriminate; cbn in L; discriminate. Qed.
Lemma le_trans : forall a b z : float, nonneg_or_nan prec emax a -> nonneg_or_nan prec emax b -> nonneg_or_nan prec emax z -> Bleb a b = true -> Bleb b z = true -> Bleb a z = true.
Proof.
  intros a b z Na Nb Nz L1 L2. destruct (is_finite z) eqn:Fz.
  - pose proof (le_below b z Nb Fz L2) as Fb. pose proof (le_below a b Na Fb L1) as Fa.
    rewrite Bleb_correct in * by assumption. destruct (Rle_bool_spec (B2R a) (B2R b)); [|discriminate]. destruct (Rle_bool_spec (B2R b) (B2R z)); [|discriminate].
    apply Rle_bool_true. lra.
  - assert (NA : is_nan a = false) by (destruct a as [s|s| |s m e H]; try reflexivity; cbn in L1; discriminate).
    destruct z as [s'|s'| |s' m' e' H']; cbn in *; try discriminate.
    + subst s'. destruct a as [s|s| |s m e H]; cbn in *; try discriminate; subst; reflexivity.
    + destruct b as [s|s| |s m e H]; cbn in L2; discriminate.
Qed.
Lemma sum_not_nan : forall a b : float, is_nan (fadd a b) = false -> is_nan a = false.
Proof. intros a b H. destruct a; try reflexivity. cbn in H. discriminate. Qed.
End Roll.

(* If the windows can be computed exactly, the metrics of a time stamp are missing when its window (in exact arithmetic) has fewer
   observations than required, and use that number otherwise.  As long as the window still contains the first sample they are the
   metrics of exactly the samples in the window; later ones are taken out again, with rounding errors. *)
Theorem C84_rolling_windows :
  forall (prec emax : Z) (Hp : Prec_gt_0 prec) (He : Prec_lt_emax prec emax) betainc (ts : list (binary_float prec emax)) d w center mp,
    List.length ts = List.length d -> exact_times prec emax Hp He ts w -> chronological (map B2R ts) -> (0 < B2R w \/ (center = true /\ 0 <= B2R w)) ->
    List.length (f_rolling prec emax Hp He betainc ts d w center mp) = List.length ts /\
    forall i row, nth_error (f_rolling prec emax Hp He betainc ts d w center mp) i = Some row ->
      let win := in_window prec emax center (map B2R ts) (B2R w) d i in
      let m := Z.of_nat (List.length win) in
      ((m < mp)%Z -> row = ((B754_nan, B754_nan), B754_nan)) /\
      ((mp <= m)%Z ->
        (exists vx vy c msd, row = (f_pearson prec emax Hp He betainc vx vy c m, fsqrt prec emax Hp He msd)) /\
        (nth i (map B2R ts) 0 - B2R w < nth 0 (map B2R ts) 0 -> row = added_up prec emax Hp He betainc win)).
Proof.
  intros prec emax Hp He betainc ts d w center mp LEN EX CH W. pose proof (rolling_rows prec emax Hp He betainc ts d w center mp LEN EX CH W) as F.
  split; [apply Forall2_len in F; rewrite seq_length in F; symmetry; exact F|].
  intros i row E. assert (X : row_of prec emax Hp He betainc ts d w center mp i row).
  { enough (G : forall k l rows, Forall2 (row_of prec emax Hp He betainc ts d w center mp) (seq k l) rows -> forall j r, nth_error rows j = Some r -> row_of prec emax Hp He betainc ts d w center mp (k + j) r) by exact (G _ _ _ F i row E).
    clear. intros k l. revert k. induction l as [|l IH]; intros k rows F j r E; cbn [seq] in F; inversion F as [|? ? ? ? H1 H2]; subst; [destruct j; discriminate|].
    destruct j as [|j]; cbn in E; [injection E as <-; rewrite Nat.add_0_r; exact H1|]. rewrite <- Nat.add_succ_comm. exact (IH (S k) _ H2 j r E). }
  destruct X as (X1 & X2). split; [exact X1|]. intros M. destruct (X2 M) as ((s & X3) & X4). split.
  - exists (s_M2x _ _ (fst s)), (s_M2y _ _ (fst s)), (s_C _ _ (fst s)), (snd s). exact X3.
  - intros ST. apply X4. unfold RollingProofs.starts, RollingModel.t_at. destruct center; [apply RollingProofs.rleb_true|apply RollingProofs.rltb_true]; lra.
Qed.
Print Assumptions C84_rolling_windows.
(* whole days; the windows of the third and fourth sample *)
Definition days (l : list Z) : list double := map (fun z => dec z 1) l.
Example C84_rolling_windows_case :
  let ts := days [0; 1; 2; 9]%Z in let d := tenths [(1, 2); (2, 5); (6, 2); (3, 3)]%Z in
  exact_times 53 1024 p53 e1024 ts (dec 2 1) /\ 0 < B2R (dec 2 1) /\ map B2R ts = [0; 1; 2; 9] /\ List.length ts = List.length d.
Proof.
  cbv zeta. split; [|split; [|split; [|reflexivity]]].
  - split; [vm_compute; reflexivity|]. unfold days. cbn [map].
    repeat (constructor; [split; [vm_compute; reflexivity|]; split; [vm_compute; reflexivity|]; split; [|split; [vm_compute; reflexivity|]]|]); try constructor;
    match goal with |- B2R ?x = B2R ?a - B2R ?b => idtac | |- B2R ?x = B2R ?a + B2R ?b => idtac end;
    unfold B2R; vm_compute; lra.
  - unfold B2R; vm_compute; lra.
  - unfold days. cbn [map]. repeat f_equal; unfold B2R; vm_compute; lra.
Qed.

(* The parts of the MSE: the squared difference of the means and of the standard deviations as computed, and the rest, which is cut off at 0;
   the MSE is never below one of them. *)
Theorem C84_mse_parts :
  forall (prec emax : Z) (Hp : Prec_gt_0 prec) (He : Prec_lt_emax prec emax) (d : list (binary_float prec emax * binary_float prec emax)) mse c b v,
    f_mse_decomposition prec emax Hp He d = (mse, c, b, v) ->
    let m := f_moments prec emax Hp He d in
    let dm := fsub prec emax Hp He (fm_x _ _ m) (fm_y _ _ m) in
    let ds := fsub prec emax Hp He (fsqrt prec emax Hp He (fm_vx _ _ m)) (fsqrt prec emax Hp He (fm_vy _ _ m)) in
    b = fmul prec emax Hp He dm dm /\ v = fmul prec emax Hp He ds ds /\
    (is_nan mse = false -> Bleb c mse = true /\ Bleb b mse = true /\ Bleb v mse = true).
Proof.
  intros prec emax Hp He d mse c b v E m dm ds. pose proof (mse_decomposition_nn prec emax Hp He d) as NN. rewrite E in NN. destruct NN as (Nm & Nc & Nb & Nv).
  unfold f_mse_decomposition in E. cbv zeta in E. fold m in E.
  assert (E1 : f_mse_corr prec emax Hp He m = c) by congruence. assert (E2 : f_mse_bias prec emax Hp He m = b) by congruence. assert (E3 : f_mse_var prec emax Hp He m = v) by congruence.
  rewrite E1, E2, E3 in E. assert (EM : mse = fadd prec emax Hp He (fadd prec emax Hp He c v) b) by congruence.
  split; [symmetry; exact E2|]. split; [symmetry; exact E3|]. intros N. rewrite EM in N, Nm |- *. set (cv := fadd prec emax Hp He c v) in *.
  assert (Ncv : nonneg_or_nan prec emax cv) by (apply fadd_nn; assumption).
  destruct (add_above prec emax Hp He cv b Ncv Nb N) as (L1 & L2). pose proof (sum_not_nan prec emax Hp He cv b N) as N2.
  destruct (add_above prec emax Hp He c v Nc Nv N2) as (L3 & L4). fold cv in L3, L4.
  split; [exact (le_trans prec emax c cv _ Nc Ncv Nm L3 L1)|]. split; [exact L2|exact (le_trans prec emax v cv _ Nv Ncv Nm L4 L1)].
Qed.
Example C84_mse_parts_case : let '(mse, c, b, v) := dbl f_mse_decomposition (tenths [(1, 2); (2, 5); (6, 2); (3, 3)]%Z) in
  is_nan mse = false /\ Bltb zero c = true /\ Bltb zero v = true.
Proof. vm_compute. auto. Qed.
Print Assumptions C84_mse_parts.
