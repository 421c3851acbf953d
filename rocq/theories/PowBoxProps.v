(* C137, continued: the moving average. *)
From Coq Require Import ZArith Reals List Lia Lra Bool.
From Flocq Require Import Core IEEE754.BinarySingleNaN.
From Verif Require Import FloatModel FloatSpec FloatProofs FloatProofs4 FloatProps TypedModel ExpFloatModel ExpFloatSpec ExpFloatProofs BoxFloatModel BoxFloatSpec BoxFloatProofs BoxFloatProofs2 GridSpec GridProofs GridProps PowFloatSpec PowFloatProofs PowFloatProps PowCollProps.
Import ListNotations.
Open Scope R_scope.

(* the number that stands for missing in the moving average *)
Notation sentinel := (z64 (-999999)).
(* the same sample in both units, or missing in both *)
Definition same_sample (k : Z) (s s' : double * double) : Prop :=
  fst s = fst s' /\ ((~ BoxFloatSpec.present sentinel (snd s) /\ ~ BoxFloatSpec.present sentinel (snd s'))
                     \/ (BoxFloatSpec.present sentinel (snd s) /\ BoxFloatSpec.present sentinel (snd s') /\ times_power k (snd s) (snd s'))).
Lemma sample_at k ser ser' : Forall2 (same_sample k) ser ser' -> forall i, same_sample k (nth i ser (B754_nan, B754_nan)) (nth i ser' (B754_nan, B754_nan)).
Proof.
  induction 1 as [|s s' ser ser' S F IH]; intros [|i]; cbn [nth]; try exact S; try apply IH; (split; [reflexivity|]); left; split; intros [N _]; discriminate N.
Qed.
Lemma sample_missing k s s' : same_sample k s s' -> f_missing sentinel (snd s) = f_missing sentinel (snd s').
Proof. intros [_ [[A B]|(A & B & _)]]; [apply missing_present in A, B|apply present_missing in A, B]; congruence. Qed.
Lemma picks_same k ser ser' limit ti : Forall2 (same_sample k) ser ser' -> forall ks, picks sentinel ser limit ti ks = picks sentinel ser' limit ti ks.
Proof.
  intros F ks. induction ks as [|j ks IH]; [reflexivity|]. cbn [picks]. unfold missing, near, value_of, time_of. pose proof (sample_at k _ _ F j) as S. rewrite (sample_missing k _ _ S), (proj1 S), IH. reflexivity.
Qed.
Lemma chosen_same k ser ser' limit i : Forall2 (same_sample k) ser ser' -> chosen sentinel limit ser i = chosen sentinel limit ser' i.
Proof. intros F. unfold chosen, time_of. rewrite (proj1 (sample_at k _ _ F i)), <- (len2 _ _ _ F), !(picks_same k ser ser' limit _ F). reflexivity. Qed.
Lemma picks_present ser limit ti ks j : In j (picks sentinel ser limit ti ks) -> f_missing sentinel (value_of ser j) = false.
Proof.
  induction ks as [|i ks IH]; [intros []|]. cbn [picks]. unfold missing. destruct (f_missing sentinel (value_of ser i)) eqn:M; [exact IH|]. destruct (near ser limit ti i); [|intros []]. intros [<-|I]; [exact M|apply IH, I].
Qed.
Lemma values_power k ser ser' limit i : Forall2 (same_sample k) ser ser' ->
  Forall2 (times_power k) (map (value_of ser) (chosen sentinel limit ser i)) (map (value_of ser') (chosen sentinel limit ser i)).
Proof.
  intros F. assert (P : forall j, In j (chosen sentinel limit ser i) -> times_power k (value_of ser j) (value_of ser' j)).
  { intros j I. assert (M : f_missing sentinel (value_of ser j) = false) by (unfold chosen in I; apply in_app_iff in I as [I|I]; apply picks_present in I; exact I).
    destruct (sample_at k _ _ F j) as [_ [[A _]|(_ & _ & T)]]; [exfalso; apply A; apply present_missing; exact M|exact T]. }
  induction (chosen sentinel limit ser i) as [|j l IH]; [constructor|]. cbn [map]. constructor; [apply P; left; reflexivity|]. apply IH. intros m I. apply P. right. exact I.
Qed.
(* Every moving average of the series in the other unit is missing where it was missing, and otherwise 2^k
   times as large, exactly.  Times, window, fillna and min_obs are arbitrary. *)
Theorem C137_moving_average :
  forall (k : Z) (window : double) (fillna : bool) (min_obs : Z) (ser ser' : list (double * double)) (i : nat),
    (0 <= k <= 2000)%Z -> Forall2 (same_sample k) ser ser' -> (Z.of_nat (List.length ser) <= 2 ^ 53)%Z -> (i < List.length ser)%nat ->
    exists r r', nth_error (f_moving_average window fillna min_obs ser) i = Some r
      /\ nth_error (f_moving_average window fillna min_obs ser') i = Some r' /\ same_result k r r'.
Proof.
  intros k window fillna mo ser ser' i K F LN L. pose proof (len2 _ _ _ F) as LE. unfold f_moving_average. rewrite (box_at sentinel _ fillna mo ser i L), (box_at sentinel _ fillna mo ser' i ltac:(lia)).
  eexists. eexists. split; [reflexivity|]. split; [reflexivity|]. unfold value_of at 1 3. rewrite <- (sample_missing k _ _ (sample_at k _ _ F i)), <- (chosen_same k ser ser' _ i F).
  destruct (negb _ || fillna)%bool; [|left; split; reflexivity]. destruct (mo <=? _)%Z; [|left; split; reflexivity].
  pose proof (values_power k ser ser' (f_limit (to_single window)) i F) as P. pose proof (chosen_length sentinel (f_limit (to_single window)) ser i L) as CL.
  destruct (chosen sentinel (f_limit (to_single window)) ser i) as [|j l] eqn:E; [left; split; reflexivity|]. rewrite <- E in *.
  right. intros FR T. apply C137_mean; [exact K|exact P|rewrite E; discriminate|rewrite map_length; lia|exact FR|exact T].
Qed.
Print Assumptions C137_moving_average.
(* That samples are missing in both units has to be asked for: missing values are written as -999999, in every
   unit.  In a unit half as large an observation of -499999.5 is taken for missing, and a missing value that was
   converted with the others is taken for an observation. *)
Theorem C137_sentinel_refuted :
  let t := z64 2451545 in let w := z64 5 in
  (forall x, In x [dyad (-999999) (-1); sentinel] -> is_finite x = true) /\
  (exists r r', f_moving_average w false 1 [(t, dyad (-999999) (-1))] = [r] /\ f_moving_average w false 1 [(t, sentinel)] = [r']
     /\ is_nan r = false /\ is_nan r' = true) /\
  (exists r r', f_moving_average w false 1 [(t, sentinel)] = [r] /\ f_moving_average w false 1 [(t, dbl fmul (z64 2) sentinel)] = [r']
     /\ is_nan r = true /\ is_nan r' = false).
Proof.
  cbv zeta. split; [intros x [<-|[<-|[]]]; vm_compute; reflexivity|]. split; eexists; eexists; (split; [reflexivity|]); (split; [reflexivity|]); split; vm_compute; reflexivity.
Qed.
Print Assumptions C137_sentinel_refuted.
Definition daily (l : list double) : list (double * double) := map (fun p => (z64 (2451545 + Z.of_nat (fst p)), snd p)) (combine (seq 0 (List.length l)) l).
Example C137_moving_average_case :
  let ser := daily [z64 3; B754_nan; sentinel; z64 (-7)] in let ser' := daily [z64 (3 * 2 ^ 4); B754_nan; sentinel; z64 (-7 * 2 ^ 4)] in
  Forall2 (same_sample 4) ser ser' /\ map (fun x => is_nan x) (f_moving_average (z64 6) true 2 ser) = [false; false; false; false].
Proof.
  cbv zeta. split; [|vm_compute; reflexivity].
  assert (Y : forall x y : double, f_missing sentinel x = false -> f_missing sentinel y = false -> times_power 4 x y -> forall t, same_sample 4 (t, x) (t, y)) by (intros x y A B T t; split; [reflexivity|]; right; apply present_missing in A, B; auto).
  assert (N : forall x y : double, f_missing sentinel x = true -> f_missing sentinel y = true -> forall t, same_sample 4 (t, x) (t, y)) by (intros x y A B t; split; [reflexivity|]; left; apply missing_present in A, B; auto).
  unfold daily. cbn [combine seq List.length map fst snd]. constructor; [apply Y; [vm_compute; reflexivity|vm_compute; reflexivity|apply z64_power; vm_compute; discriminate]|].
  constructor; [apply N; vm_compute; reflexivity|]. constructor; [apply N; vm_compute; reflexivity|]. constructor; [apply Y; [vm_compute; reflexivity|vm_compute; reflexivity|apply z64_power; vm_compute; discriminate]|constructor].
Qed.
