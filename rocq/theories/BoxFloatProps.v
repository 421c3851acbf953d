(* C106: the moving average in floating point arithmetic. *)
From Coq Require Import ZArith Reals List Lia Lra Bool.
From Flocq Require Import Core IEEE754.BinarySingleNaN.
From Verif Require Import FloatModel FloatSpec FloatProofs FloatProofs4 TypedModel TypedProofs ExpFloatModel ExpFloatSpec ExpFloatProofs BoxFloatModel BoxFloatSpec BoxFloatProofs BoxFloatProofs2.
Import ListNotations.
Open Scope R_scope.

(* Dates with an error up to e: the samples that are used are those closer than half the window, up to 2 e and a relative
   error of 2^-23 of half the window (the window is a single precision number); the value is their mean up to rounding. *)
Theorem C106_window :
  forall nan (window : double) fillna min_obs ser (T : nat -> R) e i,
    chronological ser -> moderate nan ser -> (Z.of_nat (length ser) < 2 ^ 31)%Z -> is_finite window = true -> bpow radix2 (-126) <= B2R window <= bpow radix2 127 ->
    (forall k, (k < length ser)%nat -> Rabs (B2R (time_of ser k) - T k) <= e) -> (i < length ser)%nat ->
    let m := 2 * e + B2R window * bpow radix2 (-24) in
    exists sel, NoDup sel /\
      (forall k, In k sel -> (k < length ser)%nat /\ present nan (value_of ser k) /\ Rabs (T k - T i) <= B2R window / 2 + m) /\
      (forall k, (k < length ser)%nat -> present nan (value_of ser k) -> Rabs (T k - T i) <= B2R window / 2 - m -> In k sel) /\
      exists r, nth_error (f_boxcar nan (to_single window) fillna min_obs ser) i = Some r /\
        (~ present nan (value_of ser i) -> fillna = false -> r = B754_nan) /\
        (present nan (value_of ser i) \/ fillna = true ->
           ((Z.of_nat (length sel) < min_obs)%Z \/ sel = [] -> r = B754_nan) /\
           ((min_obs <= Z.of_nat (length sel))%Z -> sel <> [] -> close_to_mean r (map (value_of ser) sel))).
Proof.
  intros nan window fillna mo ser T e i C MD LN F B HT L m. destruct (window_single window F B) as (FS & ES). destruct (limit_val (to_single window) FS) as (FL & VL).
  destruct (chosen_all nan (f_limit (to_single window)) ser i C FL L) as (ND & MEM). exists (chosen nan (f_limit (to_single window)) ser i).
  split; [exact ND|]. split; [|split; [|apply value_close; assumption]].
  - intros k I. apply MEM in I as (K & M & N). split; [exact K|]. split; [apply present_missing, M|]. rewrite VL in N. apply (within_out _ (B2R window)) in N; [|lra|exact ES].
    pose proof (HT k K) as Hk. pose proof (HT i L) as Hi. apply Rabs_le_inv in N, Hk, Hi. unfold m. apply Rabs_le. lra.
  - intros k K P D. apply MEM. split; [exact K|]. split; [apply present_missing, P|]. rewrite VL. apply (within_in _ (B2R window)); [lra|exact ES|].
    pose proof (HT k K) as Hk. pose proof (HT i L) as Hi. apply Rabs_le_inv in D, Hk, Hi. unfold m in D. apply Rabs_le. lra.
Qed.
Print Assumptions C106_window.

(* Julian dates (2097152 to 4194304 are the years 1029 to 6771): the distances of the given dates are computed without error,
   the samples that are used are exactly those up to half the single precision window away. *)
Theorem C106_julian :
  forall nan (window : double) fillna min_obs ser i,
    chronological ser -> moderate nan ser -> (Z.of_nat (length ser) < 2 ^ 31)%Z -> is_finite window = true -> bpow radix2 (-126) <= B2R window <= bpow radix2 127 ->
    (forall k, (k < length ser)%nat -> 2097152 <= B2R (time_of ser k) < 4194304) -> (i < length ser)%nat ->
    exists sel, NoDup sel /\
      (forall k, In k sel <-> (k < length ser)%nat /\ present nan (value_of ser k) /\ Rabs (B2R (time_of ser k) - B2R (time_of ser i)) <= B2R (to_single window) / 2) /\
      exists r, nth_error (f_boxcar nan (to_single window) fillna min_obs ser) i = Some r /\
        (~ present nan (value_of ser i) -> fillna = false -> r = B754_nan) /\
        (present nan (value_of ser i) \/ fillna = true ->
           ((Z.of_nat (length sel) < min_obs)%Z \/ sel = [] -> r = B754_nan) /\
           ((min_obs <= Z.of_nat (length sel))%Z -> sel <> [] -> close_to_mean r (map (value_of ser) sel))).
Proof.
  intros nan window fillna mo ser i C MD LN F B J L. destruct (window_single window F B) as (FS & _). destruct (limit_val (to_single window) FS) as (FL & VL).
  destruct (chosen_all nan (f_limit (to_single window)) ser i C FL L) as (ND & MEM). exists (chosen nan (f_limit (to_single window)) ser i).
  split; [exact ND|]. split; [|apply value_close; assumption]. intros k. rewrite MEM, present_missing, VL. split; intros (K & M & N); (split; [exact K|]); (split; [exact M|]).
  - rewrite julian_diff in N by (apply J; assumption). exact N.
  - rewrite julian_diff by (apply J; assumption). exact N.
Qed.
Print Assumptions C106_julian.

(* Correctly rounded Julian dates and a window that is a single precision number and a multiple of 2^-29 days (whole days,
   quarters of days, ...): all samples up to half the window away are used, and none farther away than 2^-31 days (40
   microseconds) more. *)
Theorem C106_whole_window :
  forall nan (window : double) c fillna min_obs ser (T : nat -> R) i,
    chronological ser -> moderate nan ser -> (Z.of_nat (length ser) < 2 ^ 31)%Z -> is_finite window = true -> bpow radix2 (-126) <= B2R window <= bpow radix2 127 ->
    B2R window = IZR c * bpow radix2 (-29) -> B2R (to_single window) = B2R window ->
    (forall k, (k < length ser)%nat -> 2097152 <= T k < 4194304 - / 2147483648 /\ B2R (time_of ser k) = round radix2 (FLT_exp (-1074) 53) ZnearestE (T k)) -> (i < length ser)%nat ->
    exists sel, NoDup sel /\
      (forall k, In k sel -> (k < length ser)%nat /\ present nan (value_of ser k) /\ Rabs (T k - T i) <= B2R window / 2 + / 2147483648) /\
      (forall k, (k < length ser)%nat -> present nan (value_of ser k) -> Rabs (T k - T i) <= B2R window / 2 -> In k sel) /\
      exists r, nth_error (f_boxcar nan (to_single window) fillna min_obs ser) i = Some r /\
        (~ present nan (value_of ser i) -> fillna = false -> r = B754_nan) /\
        (present nan (value_of ser i) \/ fillna = true ->
           ((Z.of_nat (length sel) < min_obs)%Z \/ sel = [] -> r = B754_nan) /\
           ((min_obs <= Z.of_nat (length sel))%Z -> sel <> [] -> close_to_mean r (map (value_of ser) sel))).
Proof.
  intros nan window c fillna mo ser T i C MD LN F B WC WS HT L.
  assert (J : forall k, (k < length ser)%nat -> 2097152 <= B2R (time_of ser k) < 4194304).
  { intros k K. destruct (HT k K) as (R0 & ->). apply rounded_range, R0. }
  destruct (C106_julian nan window fillna mo ser i C MD LN F B J L) as (sel & ND & MEM & R). rewrite WS in MEM. exists sel. split; [exact ND|].
  assert (RG : forall k, (k < length ser)%nat -> 2097152 <= T k < 4194304) by (intros k K; destruct (HT k K); lra).
  assert (RV : forall k, (k < length ser)%nat -> B2R (time_of ser k) = rnd64 (T k)) by (intros k K; exact (proj2 (HT k K))).
  split; [|split; [|exact R]].
  - intros k I. apply MEM in I as (K & P & D). split; [exact K|]. split; [exact P|]. rewrite (RV k K), (RV i L) in D. apply rounded_out; [apply RG, K|apply RG, L|exact D].
  - intros k K P D. apply MEM. split; [exact K|]. split; [exact P|]. rewrite (RV k K), (RV i L).
    replace (B2R window / 2) with (IZR c * / 1073741824) in *.
    2:{ rewrite WC. change (bp (-29)) with (/ 536870912). lra. }
    apply rounded_in; [apply RG, K|apply RG, L|exact D].
Qed.
Print Assumptions C106_whole_window.

(* Values between two numbers with few digits (0 and 100, say, or 0 and 0.5): for every series, in any order, the results are
   NaN or between the same numbers.  The limit of the length: the number of units times the length is at most 2^53. *)
Theorem C106_range :
  forall nan window fillna min_obs ser i r a b e,
    (-1074 <= e <= 950)%Z -> (Z.abs a * Z.of_nat (length ser) <= 2 ^ 53)%Z -> (Z.abs b * Z.of_nat (length ser) <= 2 ^ 53)%Z -> (Z.of_nat (length ser) <= 2 ^ 53)%Z ->
    (forall k, (k < length ser)%nat -> present nan (value_of ser k) -> is_finite (value_of ser k) = true /\ IZR a * bpow radix2 e <= B2R (value_of ser k) <= IZR b * bpow radix2 e) ->
    nth_error (f_boxcar nan window fillna min_obs ser) i = Some r ->
    r = B754_nan \/ (is_finite r = true /\ IZR a * bpow radix2 e <= B2R r <= IZR b * bpow radix2 e).
Proof.
  intros nan w fillna mo ser i r a b e E A B LN V H.
  assert (L : (i < length ser)%nat) by (rewrite <- (loop_length nan (f_limit w) fillna mo ser []); apply nth_error_Some; unfold f_boxcar in H; rewrite H; discriminate).
  rewrite (box_at nan w fillna mo ser i L) in H. set (sel := chosen nan (f_limit w) ser i) in *. pose proof (chosen_length nan (f_limit w) ser i L) as CL. fold sel in CL.
  destruct (negb (f_missing nan (value_of ser i)) || fillna); [|left; congruence]. destruct (mo <=? Z.of_nat (length sel))%Z; [|left; congruence].
  assert (ER : r = f_mean 53 1024 p53 e1024 (map (value_of ser) sel)) by congruence. rewrite ER. clear ER H.
  destruct sel as [|k0 sel'] eqn:ES; [left; apply mean_nil|]. rewrite <- ES in *. right. apply mean_between.
  - exact E.
  - rewrite ES. discriminate.
  - unfold fitting. rewrite map_length. nia.
  - unfold fitting. rewrite map_length. nia.
  - rewrite map_length. lia.
  - intros x I. apply in_map_iff in I as (k & <- & I). destruct (chosen_in nan (f_limit w) ser i k L I) as (K & M). apply V; [exact K|apply present_missing, M].
Qed.
Print Assumptions C106_range.

(* percentages remain percentages *)
Theorem C106_percentages :
  forall window fillna min_obs ser i r, (Z.of_nat (length ser) < 2 ^ 31)%Z ->
    (forall k, (k < length ser)%nat -> present (z64 (-999999)) (value_of ser k) -> is_finite (value_of ser k) = true /\ 0 <= B2R (value_of ser k) <= 100) ->
    nth_error (f_moving_average window fillna min_obs ser) i = Some r -> r = B754_nan \/ (is_finite r = true /\ 0 <= B2R r <= 100).
Proof.
  intros window fillna mo ser i r LN V H. destruct (C106_range (z64 (-999999)) (to_single window) fillna mo ser i r 0 100 0) as [N|(F & B)]; [lia|change (Z.abs 0) with 0%Z; lia|change (Z.abs 100) with 100%Z; lia|lia| |exact H|left; exact N|].
  - intros k K P. destruct (V k K P) as (F & B). split; [exact F|]. cbn [bpow]. lra.
  - right. split; [exact F|]. cbn [bpow] in B. lra.
Qed.
Print Assumptions C106_percentages.

(* values that are all the same number with few digits are returned as they are *)
Theorem C106_constant :
  forall nan window fillna min_obs ser i r a e,
    (-1074 <= e <= 950)%Z -> (Z.abs a * Z.of_nat (length ser) <= 2 ^ 53)%Z -> (Z.of_nat (length ser) <= 2 ^ 53)%Z ->
    (forall k, (k < length ser)%nat -> present nan (value_of ser k) -> is_finite (value_of ser k) = true /\ B2R (value_of ser k) = IZR a * bpow radix2 e) ->
    nth_error (f_boxcar nan window fillna min_obs ser) i = Some r -> r = B754_nan \/ (is_finite r = true /\ B2R r = IZR a * bpow radix2 e).
Proof.
  intros nan w fillna mo ser i r a e E A LN V H. destruct (C106_range nan w fillna mo ser i r a a e E A A LN) as [N|(F & B)]; [|exact H|left; exact N|right; split; [exact F|lra]].
  intros k K P. destruct (V k K P) as (F & B). split; [exact F|lra].
Qed.
Print Assumptions C106_constant.

(* ---- where the claim fails ---- *)
Definition day0 : Z := 2455197.
(* hourly data: the Julian dates of full hours, correctly rounded *)
Definition hourly (vals : list double) : list (double * double) :=
  map (fun p => (div64 (z64 (24 * day0 + Z.of_nat (fst p))) (z64 24), snd p)) (combine (seq 0 (length vals)) vals).
Definition hours (n : Z) : double := div64 (z64 n) (z64 24).
Definition sixes (n : nat) : list double := repeat (z64 0) n ++ [z64 6].

(* With a window of 10 hours the sample 5 hours away is not used (the mean of six samples is 0 instead of 1), with a window of
   4 hours the sample two hours away is (the mean of three samples is 2): rounding the window to single precision decides. *)
Theorem C106_edge_refuted :
  map (fun x => Beqb x (z64 0)) (f_moving_average (hours 10) false 1 (hourly (sixes 5))) = [true; false; false; false; false; false] /\
  map (fun x => Beqb x (z64 2)) (f_moving_average (hours 4) false 1 (hourly (sixes 2))) = [true; true; true] /\
  Bltb (to_double (to_single (hours 10))) (hours 10) = true /\ Bltb (hours 4) (to_double (to_single (hours 4))) = true.
Proof. repeat split; vm_compute; reflexivity. Qed.
Print Assumptions C106_edge_refuted.

(* Three times 0.7 has the average 0.69999...: a constant is not preserved, results can leave the range of the data. *)
Theorem C106_constant_refuted :
  let x := div64 (z64 7) (z64 10) in
  map (fun r => Bltb r x) (f_moving_average (z64 1) false 1 (hourly [x; x; x])) = [true; true; true].
Proof. vm_compute. reflexivity. Qed.
Print Assumptions C106_constant_refuted.

(* ---- the hypotheses are met ---- *)
(* half a window of six hours on hourly data with a gap: dates in order, in the range of Julian dates *)
Definition demo : list (double * double) := hourly [z64 10; z64 20; B754_nan; z64 30; z64 (-999999); z64 70; z64 80].
Lemma z64_exact n : (Z.abs n <= 2 ^ 53)%Z -> is_finite (z64 n) = true /\ B2R (z64 n) = IZR n. Proof. exact (JdProofs.z_exact n). Qed.
Lemma hour_bound k : (0 <= k <= 100)%Z -> exists t, t = div64 (z64 (24 * day0 + k)) (z64 24) /\ is_finite t = true /\
  B2R t = rnd64 (IZR (24 * day0 + k) / 24) /\ 2097152 <= B2R t < 4194304 /\ Rabs (B2R t - IZR (24 * day0 + k) / 24) <= / 4294967296.
Proof.
  intros K. eexists. split; [reflexivity|].
  destruct (z64_exact (24 * day0 + k)%Z) as (F1 & V1); [unfold day0; lia|]. destruct (z64_exact 24%Z) as (F2 & V2); [lia|].
  assert (Q : 2455197 <= IZR (24 * day0 + k) / 24 <= 2455202).
  { assert (58924728 <= IZR (24 * day0 + k) <= 58924828) by (split; apply IZR_le; unfold day0; lia). lra. }
  destruct (fdiv_cases 53 1024 p53 e1024 (z64 (24 * day0 + k)) (z64 24) F1 ltac:(rewrite V2; lra)) as [[_ [F V]]|[O _]].
  - rewrite V1, V2 in V. split; [exact F|]. split; [exact V|]. rewrite V. split; [apply rounded_range; lra|].
    rewrite JdProofs2.round_binade by lra. pose proof (Znearest_half (fun n => negb (Z.even n)) (IZR (24 * day0 + k) / 24 * 2147483648)) as N. apply Rabs_le_inv in N. apply Rabs_le. lra.
  - exfalso. rewrite V1, V2 in O. assert (Rabs (IZR (24 * day0 + k) / 24) <= bp 1005).
    { rewrite Rabs_pos_eq by lra. apply Rle_trans with (bp 22); [change (bp 22) with 4194304; lra|apply bpow_le; lia]. }
    pose proof (small1005 _ H). lra.
Qed.
Lemma demo_at k : (k < 7)%nat -> time_of demo k = div64 (z64 (24 * day0 + Z.of_nat k)) (z64 24).
Proof. intros K. do 7 (destruct k as [|k]; [reflexivity|]). lia. Qed.
Example C106_met :
  chronological demo /\ moderate (z64 (-999999)) demo /\ (Z.of_nat (length demo) < 2 ^ 31)%Z /\
  (forall k, (k < length demo)%nat -> 2097152 <= B2R (time_of demo k) < 4194304) /\
  (forall k, (k < length demo)%nat -> Rabs (B2R (time_of demo k) - (2455197 + INR k / 24)) <= / 4294967296) /\
  (let w := div64 (z64 1) (z64 4) in is_finite w = true /\ B2R w = IZR 134217728 * bpow radix2 (-29) /\ B2R (to_single w) = B2R w) /\
  map (fun r => option_map (fun z => Beqb r (z64 z)) (Some 20%Z)) (f_moving_average (div64 (z64 1) (z64 4)) true 3 demo) = [Some true; Some true; Some false; Some false; Some false; Some false; Some false].
Proof.
  assert (LEN : length demo = 7%nat) by reflexivity.
  assert (HB : forall k, (k < 7)%nat -> is_finite (time_of demo k) = true /\ B2R (time_of demo k) = rnd64 (IZR (24 * day0 + Z.of_nat k) / 24) /\ 2097152 <= B2R (time_of demo k) < 4194304 /\ Rabs (B2R (time_of demo k) - IZR (24 * day0 + Z.of_nat k) / 24) <= / 4294967296).
  { intros k K. rewrite (demo_at k K). destruct (hour_bound (Z.of_nat k)) as (t & -> & H); [lia|exact H]. }
  split; [|split; [|split; [reflexivity|split; [|split; [|split]]]]].
  - split.
    + intros t x I. apply In_nth_error in I as [k E]. assert (K : (k < 7)%nat) by (rewrite <- LEN; apply nth_error_Some; rewrite E; discriminate).
      assert (ET : time_of demo k = t) by (unfold time_of; rewrite (nth_error_nth demo k _ E); reflexivity). destruct (HB k K) as (F & _ & B & _). rewrite ET in F, B. split; [exact F|].
      rewrite Rabs_pos_eq by lra. apply Rle_trans with (bp 22); [change (bp 22) with 4194304; lra|apply bpow_le; lia].
    + intros i j p q IJ Ep Eq. assert (K : (j < 7)%nat) by (rewrite <- LEN; apply nth_error_Some; rewrite Eq; discriminate).
      assert (EP : time_of demo i = fst p) by (unfold time_of; rewrite (nth_error_nth demo i _ Ep); reflexivity). assert (EQ : time_of demo j = fst q) by (unfold time_of; rewrite (nth_error_nth demo j _ Eq); reflexivity).
      destruct (HB i ltac:(lia)) as (_ & V1 & _). destruct (HB j K) as (_ & V2 & _). rewrite <- EP, <- EQ, V1, V2. apply (rnd_le 53 1024 p53). apply Rmult_le_compat_r; [lra|]. apply IZR_le. lia.
  - assert (B900 : 1000000 <= bp 900) by (apply Rle_trans with (bp 20); [change (bp 20) with 1048576; lra|apply bpow_le; lia]).
    assert (G : forall n, (Z.abs n <= 1000000)%Z -> is_finite (z64 n) = true /\ Rabs (B2R (z64 n)) <= bp 900).
    { intros n N. destruct (z64_exact n) as (F & V); [lia|]. split; [exact F|]. rewrite V, <- abs_IZR. eapply Rle_trans; [apply IZR_le, N|exact B900]. }
    intros k K P. rewrite LEN in K. do 7 (destruct k as [|k]; [first [apply G; lia | destruct P as (P & _); discriminate P]|]). lia.
  - intros k K. apply (HB k). rewrite LEN in K. exact K.
  - intros k K. rewrite LEN in K. destruct (HB k K) as (_ & _ & _ & E). rewrite INR_IZR_INZ. rewrite plus_IZR in E. unfold day0 in E. rewrite mult_IZR in E. replace (2455197 + IZR (Z.of_nat k) / 24) with ((24 * 2455197 + IZR (Z.of_nat k)) / 24) by lra. exact E.
  - cbv zeta. split; [reflexivity|].
    assert (W : B2R (div64 (z64 1) (z64 4)) = / 4).
    { rewrite <- (SF2R_B2SF 53 1024). replace (B2SF (div64 (z64 1) (z64 4))) with (SpecFloat.S754_finite false 4503599627370496 (-54)) by (vm_compute; reflexivity). cbn [SF2R cond_Zopp]. unfold F2R. cbn [Fnum Fexp]. change (bp (-54)) with (/ 18014398509481984). lra. }
    split; [rewrite W; change (bp (-29)) with (/ 536870912); lra|]. rewrite W.
    rewrite <- (SF2R_B2SF 24 128). replace (B2SF (to_single (div64 (z64 1) (z64 4)))) with (SpecFloat.S754_finite false 8388608 (-25)) by (vm_compute; reflexivity). cbn [SF2R cond_Zopp]. unfold F2R. cbn [Fnum Fexp]. change (bp (-25)) with (/ 33554432). lra.
  - vm_compute. reflexivity.
Qed.
