(* C104: which samples RollingMetrics counts as inside a window. *)
From Coq Require Import ZArith Reals List Lia Lra Bool.
From Flocq Require Import Core IEEE754.BinarySingleNaN.
From Verif Require RStats RollingModel RollingProofs.
From Verif Require Import RollingSpec.
From Verif Require Import Calendar FloatModel FloatSpec FloatProofs FloatProps FloatRollProps JdModel JdSpec JdProofs JdProofs2 JdProofs3.
Import ListNotations.
Open Scope R_scope.

(* the rows of the result belong to the windows: NaN if the window has fewer observations than required, otherwise
   metrics with the number of observations of the window; and, as long as the window still contains the first sample, the metrics
   of exactly the samples in the window *)
Definition windows_right (betainc : double -> double -> double -> double) (index : list stamp) (d : list (double * double)) (w : Z) (center : bool) (mp : Z)
  (rows : list (double * double * double)) : Prop :=
  List.length rows = List.length index /\
  forall i row, nth_error rows i = Some row ->
    let win := window_of center index w d i in
    let m := Z.of_nat (List.length win) in
    ((m < mp)%Z -> row = ((B754_nan, B754_nan), B754_nan)) /\
    ((mp <= m)%Z ->
      (exists vx vy c msd, row = (dbl f_pearson betainc vx vy c m, dbl fsqrt msd)) /\
      ((time_at index i - w < time_at index 0)%Z -> row = added_up 53 1024 p53 e1024 betainc win)).

Section Run.
Variable betainc : double -> double -> double -> double.
Variable index : list stamp.
Variable d : list (double * double).
Variable w : Z.
Variable center : bool.
Variable mp : Z.
Hypothesis LEN : List.length index = List.length d.
Hypothesis VAL : Forall valid_stamp index.
Hypothesis ORD : in_order index.
Hypothesis WR : (200000 <= w <= 2 ^ 62)%Z.
Hypothesis CLR : forall a b, In a index -> In b index -> clear_of w a b.
Notation tr := (map (fun s => IZR (ns_time s)) index).
Notation ts := (map (dbl julian_date) index).

Lemma nth_time i s : nth_error index i = Some s -> RollingModel.t_at tr i = IZR (ns_time s) /\ t_at 53 1024 ts i = dbl julian_date s /\ time_at index i = ns_time s.
Proof.
  intros E. unfold time_at. rewrite E. unfold RollingModel.t_at, t_at. split; [|split; [|reflexivity]]; apply nth_error_nth; [exact (map_nth_error (fun s => IZR (ns_time s)) i index E)|exact (map_nth_error (dbl julian_date) i index E)].
Qed.
Lemma at_some i : (i < List.length ts)%nat -> exists s, nth_error index i = Some s /\ In s index /\ valid_stamp s.
Proof.
  rewrite map_length. intros I. destruct (nth_error index i) as [s|] eqn:E; [|apply nth_error_None in E; lia]. exists s. pose proof (nth_error_In _ _ E) as J.
  split; [reflexivity|]. split; [exact J|]. rewrite Forall_forall in VAL. apply VAL, J.
Qed.
Lemma b_iff (x y : bool) : (x = true <-> y = true) -> x = y.
Proof. destruct x, y; intros [A B]; try reflexivity; [symmetry; apply A; reflexivity|apply B; reflexivity]. Qed.
Lemma CHR : chronological tr.
Proof.
  intros i j L J. rewrite map_length in J. destruct (at_some i) as (a & Ea & _); [rewrite map_length; lia|]. destruct (at_some j) as (b & Eb & _); [rewrite map_length; lia|].
  destruct (nth_time i a Ea) as (Ta & _). destruct (nth_time j b Eb) as (Tb & _). unfold RollingModel.t_at in Ta, Tb. rewrite Ta, Tb. apply IZR_le. exact (ORD i j a b L Ea Eb).
Qed.
Lemma window_z i : (i < List.length index)%nat -> in_window 53 1024 center tr (IZR w) d i = window_of center index w d i.
Proof.
  intros I. destruct (at_some i) as (s & E & _); [rewrite map_length; exact I|]. destruct (nth_time i s E) as (Ti & _ & Zi). unfold RollingModel.t_at in Ti.
  unfold in_window, window_of. rewrite Ti, Zi.
  assert (CM : combine tr d = map (fun p => (IZR (ns_time (fst p)), snd p)) (combine index d)).
  { clear. revert d. induction index as [|x l IH]; intros [|y m]; cbn; try reflexivity. rewrite IH. reflexivity. }
  rewrite CM, firstn_map. clear CM. destruct center.
  - generalize (combine index d). intros l. induction l as [|x l IH]; [reflexivity|]. cbn [map filter]. cbn [fst snd].
    assert (Q : (if Rle_dec (Rabs (IZR (ns_time (fst x)) - IZR (ns_time s))) (IZR w) then true else false) = (Z.abs (ns_time (fst x) - ns_time s) <=? w)%Z).
    { rewrite <- minus_IZR, <- abs_IZR. destruct (Rle_dec _ _) as [X|X]; destruct (Z.leb_spec (Z.abs (ns_time (fst x) - ns_time s)) w) as [Y|Y]; try reflexivity; exfalso;
        [apply le_IZR in X; lia|apply X, IZR_le, Y]. }
    rewrite Q. destruct (_ <=? _)%Z; cbn [map]; rewrite IH; reflexivity.
  - generalize (firstn (S i) (combine index d)). intros l. induction l as [|x l IH]; [reflexivity|]. cbn [map filter]. cbn [fst snd].
    assert (Q : (if Rlt_dec (IZR (ns_time s) - IZR w) (IZR (ns_time (fst x))) then true else false) = (ns_time s - w <? ns_time (fst x))%Z).
    { rewrite <- minus_IZR. destruct (Rlt_dec _ _) as [X|X]; destruct (Z.ltb_spec (ns_time s - w) (ns_time (fst x))) as [Y|Y]; try reflexivity; exfalso;
        [apply lt_IZR in X; lia|apply X, IZR_lt, Y]. }
    rewrite Q. destruct (_ <? _)%Z; cbn [map]; rewrite IH; reflexivity.
Qed.
Lemma run_right : windows_right betainc index d w center mp (dbl rolling_metrics betainc index d w center mp).
Proof.
  assert (F : Forall2 (g_row_of 53 1024 p53 e1024 betainc tr d (IZR w) center mp) (seq 0 (List.length ts)) (dbl rolling_metrics betainc index d w center mp)).
  { unfold rolling_metrics. apply g_rolling_rows.
    - rewrite !map_length. reflexivity.
    - rewrite map_length. exact LEN.
    - exact CHR.
    - left. apply IZR_lt. lia.
    - intros i j I J. destruct (at_some i I) as (a & Ea & Ia & Va). destruct (at_some j J) as (b & Eb & Ib & Vb).
      destruct (nth_time i a Ea) as (-> & -> & _). destruct (nth_time j b Eb) as (-> & -> & _). apply b_iff. rewrite (proj1 (lower_test w a b WR Va Vb (CLR a b Ia Ib))).
      rewrite RollingProofs.rleb_true, <- minus_IZR. split; [apply IZR_le|apply le_IZR].
    - intros i j I J. destruct (at_some i I) as (a & Ea & Ia & Va). destruct (at_some j J) as (b & Eb & Ib & Vb).
      destruct (nth_time i a Ea) as (-> & -> & _). destruct (nth_time j b Eb) as (-> & -> & _). apply b_iff. rewrite (proj2 (lower_test w a b WR Va Vb (CLR a b Ia Ib))).
      rewrite RollingProofs.rltb_true, <- minus_IZR. split; [apply IZR_lt|apply lt_IZR].
    - intros i j I J. destruct (at_some i I) as (a & Ea & Ia & Va). destruct (at_some j J) as (b & Eb & Ib & Vb).
      destruct (nth_time i a Ea) as (-> & -> & _). destruct (nth_time j b Eb) as (-> & -> & _). apply b_iff. rewrite (upper_test w a b WR Va Vb (CLR a b Ia Ib)).
      rewrite RollingProofs.rltb_true, <- plus_IZR. split; [apply IZR_lt|apply lt_IZR]. }
  split; [apply Forall2_len in F; rewrite seq_length, map_length in F; symmetry; exact F|].
  intros i row E. assert (X : g_row_of 53 1024 p53 e1024 betainc tr d (IZR w) center mp i row /\ (i < List.length index)%nat).
  { split; [|apply Forall2_len in F; rewrite seq_length, map_length in F; rewrite F; apply nth_error_Some; congruence].
    clear - F E. revert F E. generalize (dbl rolling_metrics betainc index d w center mp). intros rows.
    enough (G : forall k l rows, Forall2 (g_row_of 53 1024 p53 e1024 betainc tr d (IZR w) center mp) (seq k l) rows -> forall j r, nth_error rows j = Some r -> g_row_of 53 1024 p53 e1024 betainc tr d (IZR w) center mp (k + j) r)
      by (intros F E; exact (G _ _ _ F i row E)).
    clear. intros k l. revert k. induction l as [|l IH]; intros k rows F j r E; cbn [seq] in F; inversion F as [|? ? ? ? H1 H2]; subst; [destruct j; discriminate|].
    destruct j as [|j]; cbn in E; [injection E as <-; rewrite Nat.add_0_r; exact H1|]. rewrite <- Nat.add_succ_comm. exact (IH (S k) _ H2 j r E). }
  destruct X as [(X1 & X2) I]. rewrite window_z in X1, X2 by exact I. cbv zeta. split; [exact X1|]. intros M. destruct (X2 M) as ((s & X3) & X4). split.
  - exists (s_M2x _ _ (fst s)), (s_M2y _ _ (fst s)), (s_C _ _ (fst s)), (snd s). exact X3.
  - intros ST. apply X4. destruct (at_some i) as (a & Ea & _); [rewrite map_length; exact I|]. destruct (at_some 0%nat) as (b & Eb & _); [rewrite map_length; lia|].
    destruct (nth_time i a Ea) as (Ta & _ & Za). destruct (nth_time 0 b Eb) as (Tb & _ & Zb). rewrite Za, Zb in ST. apply IZR_lt in ST. rewrite minus_IZR in ST.
    unfold RollingProofs.starts. rewrite Ta, Tb. destruct center; [apply RollingProofs.rleb_true|apply RollingProofs.rltb_true]; lra.
Qed.
End Run.

(* As long as no distance of two time stamps comes closer than 200 microseconds to the window (or is the same number of whole days), the
   rolling metrics use the samples of the true windows, although they compare rounded Julian dates. *)
Theorem C104_windows :
  forall betainc (index : list stamp) d w center mp,
    List.length index = List.length d -> Forall valid_stamp index -> in_order index -> (200000 <= w <= 2 ^ 62)%Z ->
    (forall a b, In a index -> In b index -> clear_of w a b) ->
    windows_right betainc index d w center mp (dbl rolling_metrics betainc index d w center mp).
Proof. exact run_right. Qed.
Print Assumptions C104_windows.

(* Time stamps in whole milliseconds and a window of whole days (such as the default of 30 days): always the true windows. *)
Theorem C104_whole_days :
  forall betainc (index : list stamp) d k center mp,
    List.length index = List.length d -> Forall valid_stamp index -> in_order index -> (1 <= k <= 50000)%Z ->
    (forall a, In a index -> exists ms, ns_time a = ms * 1000000)%Z ->
    let w := (k * (24 * 60 * 60 * 10 ^ 9))%Z in
    windows_right betainc index d w center mp (dbl rolling_metrics betainc index d w center mp).
Proof.
  intros betainc index d k center mp LEN VAL ORD K MS w. apply C104_windows; try assumption; [unfold w; lia|].
  intros a b Ia Ib. destruct (MS a Ia) as (x & Ex). destruct (MS b Ib) as (y & Ey). unfold clear_of. cbv zeta. rewrite Ex, Ey.
  assert (D : (Z.abs (x * 1000000 - y * 1000000) = w \/ 200000 <= Z.abs (Z.abs (x * 1000000 - y * 1000000) - w))%Z) by (unfold w; lia).
  destruct D as [D|D]; [right; split; [exact D|left; exists k; reflexivity]|left; exact D].
Qed.
Print Assumptions C104_whole_days.

(* The same for windows of 12, 6 or 3 hours, 90 or 45 minutes, and every other multiple of 675 seconds, the 128th part of a day. *)
Theorem C104_parts_of_days :
  forall betainc (index : list stamp) d k center mp,
    List.length index = List.length d -> Forall valid_stamp index -> in_order index -> (1 <= k <= 6000000)%Z ->
    (forall a, In a index -> exists ms, ns_time a = ms * 10 ^ 6)%Z ->
    let w := (k * (675 * 10 ^ 9))%Z in
    windows_right betainc index d w center mp (dbl rolling_metrics betainc index d w center mp).
Proof.
  intros betainc index d k center mp LEN VAL ORD K MS w. apply C104_windows; try assumption; [unfold w; lia|].
  intros a b Ia Ib. pose proof (MS a Ia) as (x & Ex). pose proof (MS b Ib) as (y & Ey). unfold clear_of. cbv zeta. rewrite Ex, Ey.
  assert (D : (Z.abs (x * 10 ^ 6 - y * 10 ^ 6) = w \/ 200000 <= Z.abs (Z.abs (x * 10 ^ 6 - y * 10 ^ 6) - w))%Z) by (unfold w; lia).
  destruct D as [D|D]; [right; split; [exact D|right; split; [exact (MS a Ia)|split; [exact (MS b Ib)|exists k; reflexivity]]]|left; exact D].
Qed.
Print Assumptions C104_parts_of_days.

(* a time of 2010 *)
Definition at_2010 (m dd h mi : Z) : stamp := Stamp (mkDate 2010 m dd) h mi 0 0 0.
Lemma nth_error_nil {A} i : nth_error (@nil A) i = None.
Proof. destruct i; reflexivity. Qed.
Definition no_p : double -> double -> double -> double := fun _ _ _ => B754_nan.
Ltac valid_list := repeat (apply Forall_cons; [repeat split; cbn; lia|]); apply Forall_nil.

Example C104_whole_days_case :
  let index := [at_2010 1 1 6 10; at_2010 1 10 18 20; at_2010 1 31 6 10; at_2010 2 1 6 10] in
  Forall valid_stamp index /\ in_order index /\ (forall a, In a index -> exists ms, ns_time a = ms * 1000000)%Z /\
  (* the third sample is exactly 30 days after the first, the fourth 31 days *)
  map (fun i => List.length (window_of true index (30 * (24 * 60 * 60 * 10 ^ 9)) [tt; tt; tt; tt] i)) [0; 1; 2; 3]%nat = [3; 4; 4; 3]%nat /\
  map (fun i => List.length (window_of false index (30 * (24 * 60 * 60 * 10 ^ 9)) [tt; tt; tt; tt] i)) [0; 1; 2; 3]%nat = [1; 2; 2; 3]%nat.
Proof.
  cbv zeta. split; [valid_list|]. split; [|split; [|split; vm_compute; reflexivity]].
  - intros i j a b L. destruct i as [|[|[|[|i]]]]; destruct j as [|[|[|[|j]]]]; cbn [nth_error]; intros Ea Eb; try (rewrite nth_error_nil in Ea); try (rewrite nth_error_nil in Eb); try discriminate; try lia; injection Ea as <-; injection Eb as <-; vm_compute; discriminate.
  - intros a [<-|[<-|[<-|[<-|[]]]]]; [exists (63398009400000%Z)|exists (63398830800000%Z)|exists (63400601400000%Z)|exists (63400687800000%Z)]; vm_compute; reflexivity.
Qed.

Example C104_parts_of_days_case :
  let index := [at_2010 1 1 6 10; at_2010 1 1 12 0; at_2010 1 1 18 10; at_2010 1 1 18 11] in
  Forall valid_stamp index /\ in_order index /\ (forall a, In a index -> exists ms, ns_time a = ms * 10 ^ 6)%Z /\ (64 * (675 * 10 ^ 9) = 12 * 60 * 60 * 10 ^ 9)%Z /\
  (* the third sample is exactly 12 hours after the first *)
  map (fun i => List.length (window_of true index (64 * (675 * 10 ^ 9)) [tt; tt; tt; tt] i)) [0; 1; 2; 3]%nat = [3; 4; 4; 3]%nat.
Proof.
  cbv zeta. split; [valid_list|]. split; [|split; [|split; vm_compute; reflexivity]].
  - intros i j a b L. destruct i as [|[|[|[|i]]]]; destruct j as [|[|[|[|j]]]]; cbn [nth_error]; intros Ea Eb; try (rewrite nth_error_nil in Ea); try (rewrite nth_error_nil in Eb); try discriminate; try lia; injection Ea as <-; injection Eb as <-; vm_compute; discriminate.
  - intros a Ia. exists (ns_time a / 10 ^ 6)%Z. destruct Ia as [<-|[<-|[<-|[<-|[]]]]]; vm_compute; reflexivity.
Qed.

(* a window of an hour: three samples, one hour apart; the window of the second one contains all three, but the third is left out: with
   min_periods = 3 there is no result; two hours later, with the same values, there is one *)
Definition three_hours (h : Z) : list stamp := [at_2010 1 1 h 0; at_2010 1 1 (h + 1) 0; at_2010 1 1 (h + 2) 0].
Definition hour : Z := (60 * 60 * 10 ^ 9)%Z.
Lemma in_three (A : Type) (a b c : A) : window_of true (three_hours 0) hour [a; b; c] 1 = [a; b; c] /\ window_of true (three_hours 2) hour [a; b; c] 1 = [a; b; c].
Proof. split; vm_compute; reflexivity. Qed.
Lemma in_half (A : Type) (a b : A) : window_of false [at_2010 1 1 0 6; at_2010 1 1 0 36] (30 * 60 * 10 ^ 9) [a; b] 1 = [b].
Proof. vm_compute. reflexivity. Qed.
Theorem C104_hours_refuted :
  exists betainc d,
    Forall valid_stamp (three_hours 0) /\ Forall valid_stamp (three_hours 2) /\
    window_of true (three_hours 0) hour d 1 = d /\ window_of true (three_hours 2) hour d 1 = d /\ List.length d = 3%nat /\
    nth_error (dbl rolling_metrics betainc (three_hours 0) d hour true 3) 1 = Some ((B754_nan, B754_nan), B754_nan) /\
    (exists rp rmsd, nth_error (dbl rolling_metrics betainc (three_hours 2) d hour true 3) 1 = Some (rp, rmsd) /\ BinarySingleNaN.is_nan rmsd = false).
Proof.
  exists no_p, [(dec 1 1, dec 2 1); (dec 2 1, dec 5 1); (dec 6 1, dec 2 1)].
  split; [valid_list|]. split; [valid_list|]. split; [apply in_three|]. split; [apply in_three|]. split; [reflexivity|].
  split; [vm_compute; reflexivity|]. set (l := dbl rolling_metrics _ _ _ _ _ _).
  assert (H : match nth_error l 1 with Some (_, x) => BinarySingleNaN.is_nan x | None => true end = false) by (vm_compute; reflexivity).
  destruct (nth_error l 1) as [[rp rmsd]|]; [|discriminate]. exists rp, rmsd. split; [reflexivity|exact H].
Qed.
Print Assumptions C104_hours_refuted.
(* windows that end at the sample: the sample exactly half an hour earlier is not in the window of half an hour, but it is used *)
Theorem C104_half_hours_refuted :
  exists betainc d, let index := [at_2010 1 1 0 6; at_2010 1 1 0 36] in let w := (30 * 60 * 10 ^ 9)%Z in
    Forall valid_stamp index /\ List.length (window_of false index w d 1) = 1%nat /\
    (exists rp rmsd, nth_error (dbl rolling_metrics betainc index d w false 2) 1 = Some (rp, rmsd) /\ BinarySingleNaN.is_nan rmsd = false).
Proof.
  exists no_p, [(dec 1 1, dec 2 1); (dec 2 1, dec 5 1)]. cbv zeta. split; [valid_list|]. split; [rewrite in_half; reflexivity|]. set (l := dbl rolling_metrics _ _ _ _ _ _).
  assert (H : match nth_error l 1 with Some (_, x) => BinarySingleNaN.is_nan x | None => true end = false) by (vm_compute; reflexivity).
  destruct (nth_error l 1) as [[rp rmsd]|]; [|discriminate]. exists rp, rmsd. split; [reflexivity|exact H].
Qed.
Print Assumptions C104_half_hours_refuted.

(* a window of an hour and data that are not a whole number of hours apart *)
Example C104_windows_case :
  let index := [at_2010 1 1 0 0; at_2010 1 1 0 50; at_2010 1 1 2 15] in
  Forall valid_stamp index /\ in_order index /\ (forall a b, In a index -> In b index -> clear_of hour a b) /\
  map (fun i => List.length (window_of true index hour [tt; tt; tt] i)) [0; 1; 2]%nat = [2; 2; 1]%nat.
Proof.
  cbv zeta. split; [valid_list|]. split; [|split; [|vm_compute; reflexivity]].
  - intros i j a b L. destruct i as [|[|[|i]]]; destruct j as [|[|[|j]]]; cbn [nth_error]; intros Ea Eb; try (rewrite nth_error_nil in Ea); try (rewrite nth_error_nil in Eb); try discriminate; try lia; injection Ea as <-; injection Eb as <-; vm_compute; discriminate.
  - intros a b [<-|[<-|[<-|[]]]] [<-|[<-|[<-|[]]]]; left; vm_compute; discriminate.
Qed.
