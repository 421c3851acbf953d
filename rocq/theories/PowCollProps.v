(* C137, continued: temporal collocation by means. *)
From Coq Require Import ZArith Reals List Lia Lra Bool.
From Flocq Require Import Core IEEE754.BinarySingleNaN.
From Verif Require Import Base Calendar FloatModel FloatSpec FloatProofs FloatProofs4 FloatProps TypedModel ExpFloatModel ExpFloatSpec ExpFloatProofs BoxFloatModel BoxFloatSpec BoxFloatProofs BoxFloatProofs2 BoxFloatProps JdModel JdSpec MeanFloatModel MeanFloatSpec MeanFloatProps GridSpec GridProofs GridProps PowFloatSpec PowFloatProofs PowFloatProps.
Import ListNotations.
Open Scope R_scope.

(* the same observation in both units, or missing in both *)
Definition same_datum (k : Z) (v v' : double) : Prop :=
  (BinarySingleNaN.is_nan v = true /\ BinarySingleNaN.is_nan v' = true) \/ times_power k v v'.
(* a result: missing in both, or 2^k times as large unless it overflows or is below the normal numbers *)
Definition same_result (k : Z) (r r' : double) : Prop :=
  (BinarySingleNaN.is_nan r = true /\ BinarySingleNaN.is_nan r' = true)
  \/ (is_finite r' = true -> bpow radix2 (-1022) < Rabs (B2R r) -> times_power k r r').
Lemma present_same k l l' : Forall2 (same_datum k) l l' -> Forall2 (times_power k) (present l) (present l').
Proof.
  induction 1 as [|v v' l l' D F IH]; [constructor|]. unfold present in *. cbn [filter]. destruct D as [[A B]|D].
  - rewrite A, B. exact IH.
  - assert (NV : BinarySingleNaN.is_nan v = false) by (destruct D as (A & _); destruct v; cbn in *; congruence). assert (NV' : BinarySingleNaN.is_nan v' = false) by (destruct D as (_ & A & _); destruct v'; cbn in *; congruence).
    rewrite NV, NV'. constructor; [exact D|exact IH].
Qed.
Lemma window_same k a w : forall other l l', Forall2 (same_datum k) l l' -> Forall2 (same_datum k) (in_window a w other l) (in_window a w other l').
Proof.
  intros other l v F. revert other. induction F as [|z x l v D F IH]; intros [|o other]; unfold in_window in *; cbn [combine filter map]; try constructor.
  cbn [fst]. destruct (Z.abs (ns_time o - ns_time a) <=? w)%Z; cbn [map snd]; [constructor; [exact D|apply IH]|apply IH].
Qed.
Lemma window_len {X} a w : forall other (l : list X), (List.length (in_window a w other l) <= List.length l)%nat.
Proof.
  intros other l. revert other. induction l as [|z l IH]; intros [|o other]; unfold in_window in *; cbn [combine filter map List.length]; try lia.
  cbn [fst]. specialize (IH other). destruct (Z.abs (ns_time o - ns_time a) <=? w)%Z; cbn [map List.length]; lia.
Qed.
Lemma filter_len {X} (f : X -> bool) l : (List.length (filter f l) <= List.length l)%nat.
Proof. induction l as [|x l IH]; cbn; [lia|]. destruct (f x); cbn; lia. Qed.
(* Observations in a unit that differs by a power of two are collocated with the same ones, and each mean is
   2^k times as large, exactly. *)
Theorem C137_collocation :
  forall oob (ref other : list stamp) (values values' : list double) (j k : Z),
    (0 <= j <= 2000)%Z -> Forall2 (same_datum j) values values' ->
    List.length other = List.length values -> Forall valid_stamp ref -> Forall valid_stamp other -> in_order ref -> in_order other ->
    (1 <= k <= 3000000)%Z -> (forall a, In a ref \/ In a other -> exists ms, ns_time a = ms * 10 ^ 6)%Z -> (Z.of_nat (List.length values) <= 2 ^ 53)%Z ->
    let w := (k * (675 * 10 ^ 9))%Z in
    Forall2 (same_result j) (dbl f_collocate_mean oob ref other values w) (dbl f_collocate_mean oob ref other values' w).
Proof.
  intros oob ref other values values' j k J S L VR VO OR OO K MS LN w. unfold w. rewrite (C108_parts_of_days oob ref other values k L VR VO OR OO K MS), (C108_parts_of_days oob ref other values' k (eq_trans L (len2 _ _ _ S)) VR VO OR OO K MS). fold w.
  clear - J S LN. induction ref as [|a ref IH]; [constructor|]. cbn [map]. constructor; [|exact IH].
  pose proof (present_same j _ _ (window_same j a w other _ _ S)) as P. pose proof (len2 _ _ _ P) as LP. pose proof (window_len a w other values) as W1. pose proof (filter_len (fun x => negb (BinarySingleNaN.is_nan x)) (in_window a w other values)) as W2.
  destruct (present (in_window a w other values)) as [|x xs] eqn:E1.
  - left. destruct (present (in_window a w other values')) eqn:E2; [|discriminate LP]. unfold mean_of. rewrite E1, E2. split; reflexivity.
  - right. assert (NE : present (in_window a w other values) <> []) by (rewrite E1; discriminate). rewrite <- E1 in *. assert (NE' : present (in_window a w other values') <> []) by (intros H; rewrite H in LP; rewrite E1 in LP; discriminate LP).
    assert (EM : forall v, present (in_window a w other v) <> [] -> mean_of (in_window a w other v) = dbl f_mean (present (in_window a w other v))) by (intros v N; unfold mean_of, f_mean; destruct (present (in_window a w other v)); [congruence|reflexivity]).
    rewrite !EM by assumption. intros F T. apply C137_mean; [exact J|exact P|exact NE| |exact F|exact T].
    unfold present in *. lia.
Qed.
Print Assumptions C137_collocation.
Example C137_collocation_case :
  let ref := [on_day 13 20; on_day 18 0] in let other := [on_day 1 20; on_day 6 0; on_day 13 0] in
  let values := [z64 20; B754_nan; z64 31] in let values' := [z64 (20 * 2 ^ 5); B754_nan; z64 (31 * 2 ^ 5)] in
  Forall valid_stamp ref /\ Forall valid_stamp other /\ in_order ref /\ in_order other /\ Forall2 (same_datum 5) values values'.
Proof.
  cbv zeta. destruct C108_parts_of_days_case as (A & B & C & D & _). split; [exact A|]. split; [exact B|]. split; [exact C|]. split; [exact D|].
  constructor; [right; apply z64_power; vm_compute; discriminate|]. constructor; [left; split; reflexivity|]. constructor; [right; apply z64_power; vm_compute; discriminate|constructor].
Qed.
