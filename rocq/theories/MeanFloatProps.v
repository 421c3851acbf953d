(* C108: collocation by means in double arithmetic. *)
From Coq Require Import ZArith Reals List Lia Lra Bool.
From Flocq Require Import Core IEEE754.BinarySingleNaN.
From Verif Require Import Calendar FloatModel FloatSpec FloatProofs FloatProofs4 JdModel JdSpec BoxFloatSpec BoxFloatProofs FloatProps MeanFloatModel MeanFloatSpec MeanFloatProofs.
Import ListNotations.
Open Scope R_scope.

(* As long as no observation is closer than 200 microseconds to the edge of a window without being exactly at it (and then the window
   is a number of 128th parts of a day), every reference time gets the mean of exactly the observations in its closed window. *)
Theorem C108_windows :
  forall oob (ref other : list stamp) (values : list double) w,
    List.length other = List.length values -> Forall valid_stamp ref -> Forall valid_stamp other -> in_order ref -> in_order other ->
    (200000 <= w <= 2 ^ 61)%Z -> (forall a b, In a ref -> In b other -> clear_of w a b) ->
    dbl f_collocate_mean oob ref other values w = map (fun a => mean_of (in_window a w other values)) ref.
Proof. exact collocate_windows. Qed.
Print Assumptions C108_windows.

(* Times in whole milliseconds and windows of 24, 12, 6 or 3 hours, 90 or 45 minutes (any multiple of 675 seconds, the 128th part of a
   day): always exactly the observations in the closed window. *)
Theorem C108_parts_of_days :
  forall oob (ref other : list stamp) (values : list double) k,
    List.length other = List.length values -> Forall valid_stamp ref -> Forall valid_stamp other -> in_order ref -> in_order other ->
    (1 <= k <= 3000000)%Z -> (forall a, In a ref \/ In a other -> exists ms, ns_time a = ms * 10 ^ 6)%Z ->
    let w := (k * (675 * 10 ^ 9))%Z in
    dbl f_collocate_mean oob ref other values w = map (fun a => mean_of (in_window a w other values)) ref.
Proof.
  intros oob ref other values k L VR VO OR OO K MS w. apply C108_windows; try assumption; [unfold w; lia|].
  intros a b Ia Ib. pose proof (MS a (or_introl Ia)) as (x & Ex). pose proof (MS b (or_intror Ib)) as (y & Ey). unfold clear_of. cbv zeta. rewrite Ex, Ey.
  assert (D : (Z.abs (x * 10 ^ 6 - y * 10 ^ 6) = w \/ 200000 <= Z.abs (Z.abs (x * 10 ^ 6 - y * 10 ^ 6) - w))%Z) by (unfold w; lia).
  destruct D as [D|D]; [right; split; [exact D|right; split; [exact (MS a (or_introl Ia))|split; [exact (MS b (or_intror Ib))|exists k; reflexivity]]]|left; exact D].
Qed.
Print Assumptions C108_parts_of_days.

(* How close the mean of a window is to the exact one. *)
Theorem C108_error :
  forall (l : list double), present l <> [] -> (Z.of_nat (List.length l) < 2 ^ 31)%Z ->
    (forall x, In x (present l) -> is_finite x = true /\ Rabs (B2R x) <= bpow radix2 900) -> close_to_mean (mean_of l) (present l).
Proof.
  intros l NE LN H. assert (PL : (List.length (present l) <= List.length l)%nat).
  { clear. unfold present. induction l as [|x l IH]; cbn [filter]; [lia|]. destruct (negb _); cbn [List.length]; lia. }
  assert (E : mean_of l = dbl f_mean (present l)) by (unfold mean_of, f_mean; destruct (present l); [congruence|reflexivity]).
  rewrite E. exact (mean_close (present l) NE ltac:(lia) H).
Qed.
Print Assumptions C108_error.

(* Whatever the times and the window: values between two numbers with few digits (0 and 100, say) have means between the same numbers. *)
Lemma slice_outs oob times values half : forall ts st r, In r (dbl f_rm_loop oob times values half st ts) -> r = B754_nan \/ exists l, (forall x, In x l -> In x values) /\ (List.length l <= List.length values)%nat /\ r = mean_of l.
Proof.
  induction ts as [|t ts IH]; intros [lo up] r H; [destruct H|]. cbn [f_rm_loop] in H. unfold f_rm_step in H. cbn [In] in H. destruct H as [H|H]; [|exact (IH _ _ H)].
  destruct (_ =? 0)%Z; [left; symmetry; exact H|]. right. rewrite nanmean_mean in H. eexists. split; [|split; [|symmetry; exact H]].
  - intros x X. apply TemporalProofs.firstn_in, TemporalProofs.skipn_in in X. exact X.
  - rewrite firstn_length, skipn_length. lia.
Qed.
Theorem C108_range :
  forall oob (ref other : list stamp) (values : list double) w a b e r,
    (-1074 <= e <= 950)%Z -> (Z.abs a * Z.of_nat (List.length values) <= 2 ^ 53)%Z -> (Z.abs b * Z.of_nat (List.length values) <= 2 ^ 53)%Z -> (Z.of_nat (List.length values) <= 2 ^ 53)%Z ->
    (forall x, In x (present values) -> is_finite x = true /\ IZR a * bpow radix2 e <= B2R x <= IZR b * bpow radix2 e) ->
    In r (dbl f_collocate_mean oob ref other values w) -> r = B754_nan \/ (is_finite r = true /\ IZR a * bpow radix2 e <= B2R r <= IZR b * bpow radix2 e).
Proof.
  intros oob ref other values w a b e r E A B LN V H. apply slice_outs in H. destruct H as [H|(l & S1 & S2 & ->)]; [left; exact H|].
  destruct (present l) as [|x0 p] eqn:P; [left; unfold mean_of; rewrite P; reflexivity|]. right.
  assert (PL : (List.length (present l) <= List.length l)%nat).
  { clear. unfold present. induction l as [|x l IH]; cbn [filter]; [lia|]. destruct (negb _); cbn [List.length]; lia. }
  assert (E1 : mean_of l = dbl f_mean (present l)) by (unfold mean_of, f_mean; destruct (present l); [congruence|reflexivity]).
  rewrite E1. apply mean_between; [exact E|congruence|unfold fitting; nia|unfold fitting; nia|lia|].
  intros x X. apply V. unfold present in *. apply filter_In in X as [X1 X2]. apply filter_In. split; [apply S1, X1|exact X2].
Qed.
Print Assumptions C108_range.

Definition on_day (h mi : Z) : stamp := Stamp (mkDate 2010 1 1) h mi 0 0 0.
Ltac valid_times := repeat (apply Forall_cons; [repeat split; cbn; lia|]); apply Forall_nil.
Ltac order_times := let E1 := fresh in let E2 := fresh in
  intros i j a b L E1 E2; destruct i as [|[|[|[|i]]]]; destruct j as [|[|[|[|j]]]]; cbn [nth_error] in E1, E2;
  try (destruct i; discriminate E1); try (destruct j; discriminate E2); try discriminate E1; try discriminate E2; try lia; injection E1 as <-; injection E2 as <-; vm_compute; discriminate.
(* a window of 12 hours, an observation exactly 12 hours before a reference time *)
Example C108_parts_of_days_case :
  let ref := [on_day 13 20; on_day 18 0] in let other := [on_day 1 20; on_day 6 0; on_day 13 0] in
  Forall valid_stamp ref /\ Forall valid_stamp other /\ in_order ref /\ in_order other /\ (forall a, In a ref \/ In a other -> exists ms, ns_time a = ms * 10 ^ 6)%Z /\
  map (fun a => in_window a (64 * (675 * 10 ^ 9)) other [1; 2; 3]%Z) ref = [[1; 2; 3]; [2; 3]]%Z.
Proof.
  cbv zeta. split; [valid_times|]. split; [valid_times|]. split; [order_times|]. split; [order_times|]. split; [|vm_compute; reflexivity].
  intros a Ia. exists (ns_time a / 10 ^ 6)%Z. cbn [In] in Ia. destruct Ia as [[<-|[<-|[]]]|[<-|[<-|[<-|[]]]]]; vm_compute; reflexivity.
Qed.
Example C108_windows_case :
  let ref := [on_day 13 20; on_day 18 0] in let other := [on_day 12 30; on_day 17 0; on_day 18 58] in let w := (59 * 60 * 10 ^ 9)%Z in
  Forall valid_stamp ref /\ Forall valid_stamp other /\ in_order ref /\ in_order other /\
  (200000 <= w <= 2 ^ 61)%Z /\ (forall a b, In a ref -> In b other -> clear_of w a b) /\ map (fun a => in_window a w other [1; 2; 3]%Z) ref = [[1]; [3]]%Z.
Proof.
  cbv zeta. split; [valid_times|]. split; [valid_times|]. split; [order_times|]. split; [order_times|]. split; [lia|]. split; [|vm_compute; reflexivity].
  intros a b [<-|[<-|[]]] [<-|[<-|[<-|[]]]]; left; vm_compute; discriminate.
Qed.
Example C108_range_case : let values := [dec 12 1; B754_nan; dec 77 1] in
  List.length values = 3%nat /\ forallb (fun x => is_finite x && Bleb (dec 0 1) x && Bleb x (dec 100 1))%bool (present values) = true /\ List.length (present values) = 2%nat.
Proof. cbv zeta. repeat split; vm_compute; reflexivity. Qed.

(* A window of an hour: an observation exactly one hour before the reference time is in the closed window; it is used at three o'clock, but not at two. *)
Theorem C108_hours_refuted :
  exists v oob, let w := (60 * 60 * 10 ^ 9)%Z in
    in_window (on_day 2 0) w [on_day 1 0] [v] = [v] /\ in_window (on_day 3 0) w [on_day 2 0] [v] = [v] /\ BinarySingleNaN.is_nan v = false /\
    dbl f_collocate_mean oob [on_day 2 0] [on_day 1 0] [v] w = [B754_nan] /\
    map BinarySingleNaN.is_nan (dbl f_collocate_mean oob [on_day 3 0] [on_day 2 0] [v] w) = [false].
Proof.
  exists (dec 5 1), B754_nan. cbv zeta. assert (I : forall A (x : A), in_window (on_day 2 0) (60 * 60 * 10 ^ 9) [on_day 1 0] [x] = [x] /\ in_window (on_day 3 0) (60 * 60 * 10 ^ 9) [on_day 2 0] [x] = [x]) by (intros; split; vm_compute; reflexivity).
  split; [apply I|]. split; [apply I|]. split; [vm_compute; reflexivity|]. split; vm_compute; reflexivity.
Qed.
Print Assumptions C108_hours_refuted.
