(* Sums and averages of larger numbers are not smaller, in IEEE 754 arithmetic. *)
From Coq Require Import ZArith Reals List Lia Lra Bool.
From Flocq Require Import Core IEEE754.BinarySingleNaN.
From Verif Require Import FloatModel FloatSpec FloatProofs FloatProofs4 LinFloatProofs MeanFloatModel TypedModel ExpFloatModel BoxFloatModel MonoSpec.
Import ListNotations.
Open Scope Z_scope.

Section Mono.
Variables prec emax : Z.
Context (Hp : Prec_gt_0 prec) (He : Prec_lt_emax prec emax).
Notation float := (binary_float prec emax).
Notation fadd := (fadd prec emax Hp He).
Notation fdiv := (fdiv prec emax Hp He).
Notation of_z := (of_z prec emax Hp He).

Lemma leb_trans (a b c : float) : is_nan a = false -> is_nan b = false -> is_nan c = false -> Bleb a b = true -> Bleb b c = true -> Bleb a c = true.
Proof. intros A B C L M. apply leb_sat in L; [|assumption..]. apply leb_sat in M; [|assumption..]. apply leb_sat; [assumption..|]. lra. Qed.
Lemma nan_add (a c : float) : is_nan a = false -> is_finite c = true -> is_nan (fadd a c) = false.
Proof.
  intros A C. destruct (is_finite a) eqn:F.
  - destruct (fadd_cases prec emax Hp He a c F C) as [(_ & G & _)|(_ & G & _)]; [apply fin_nan, G|rewrite G; reflexivity].
  - destruct a as [s|s| |s m e H]; try discriminate. destruct c as [t|t| |t m e H]; try discriminate; reflexivity.
Qed.
Lemma add_mono_r (b x y : float) : is_nan b = false -> is_finite x = true -> is_finite y = true -> Bleb x y = true -> Bleb (fadd b x) (fadd b y) = true.
Proof.
  intros B X Y L. pose proof (nan_add b x B X) as N. pose proof (nan_add b y B Y) as M. destruct (is_finite b) eqn:F.
  - apply (leb_sat prec emax Hp He _ _ N M) || apply (leb_sat prec emax _ _ N M). rewrite !sat_add by assumption. apply leb_sat in L; [|apply fin_nan; assumption..]. rewrite !sat_fin in L by assumption.
    apply clamp_le, rnd_le; [exact Hp|lra].
  - destruct b as [s|s| |s m e H]; try discriminate. destruct x as [t|t| |t m e H]; try discriminate; destruct y as [t'|t'| |t' m' e' H']; try discriminate; destruct s; reflexivity.
Qed.
Lemma add_le (a b x y : float) : is_nan a = false -> is_nan b = false -> is_finite x = true -> is_finite y = true -> Bleb a b = true -> Bleb x y = true ->
  is_nan (fadd a x) = false /\ is_nan (fadd b y) = false /\ Bleb (fadd a x) (fadd b y) = true.
Proof.
  intros A B X Y L M. pose proof (nan_add a x A X) as N1. pose proof (nan_add b x B X) as N2. pose proof (nan_add b y B Y) as N3. split; [exact N1|]. split; [exact N3|].
  apply (leb_trans _ (fadd b x)); try assumption; [apply add_mono; assumption|apply add_mono_r; assumption].
Qed.
Lemma count_val n : 0 < n -> n <= 2 ^ prec -> is_finite (of_z n) = true /\ Bsign (of_z n) = false /\ B2R (of_z n) <> 0%R.
Proof.
  intros P B. destruct (of_n_nn prec emax Hp He (Z.to_nat n)) as [_ S]. destruct (of_n_exact prec emax Hp He (Z.to_nat n)) as [F V]; [rewrite Z2Nat.id; lia|].
  unfold of_n in *. rewrite Z2Nat.id in * by lia. split; [exact F|]. split; [exact S|]. rewrite V. apply not_0_INR. lia.
Qed.
Lemma nan_div (a c : float) : is_nan a = false -> is_finite c = true -> B2R c <> 0%R -> is_nan (fdiv a c) = false.
Proof.
  intros A C Z. destruct (is_finite a) eqn:F.
  - destruct (fdiv_cases prec emax Hp He a c F Z) as [(_ & G & _)|(_ & G)]; [apply fin_nan, G|rewrite G; reflexivity].
  - destruct a as [s|s| |s m e H]; try discriminate. destruct c as [t|t| |t m e H]; try discriminate; reflexivity.
Qed.
Lemma mean_le (a b : float) n : is_nan a = false -> is_nan b = false -> Bleb a b = true -> 0 < n -> n <= 2 ^ prec -> not_above (fdiv a (of_z n)) (fdiv b (of_z n)).
Proof.
  intros A B L P U. destruct (count_val n P U) as (F & S & V). pose proof (nan_div a _ A F V) as N1. pose proof (nan_div b _ B F V) as N2. split; [congruence|]. intros _.
  apply div_mono; assumption.
Qed.
Lemma not_above_refl (a : float) : not_above a a.
Proof. split; [reflexivity|]. apply refl_leb. Qed.

(* ---- means of the values in a window ---- *)
Definition valid_pair (u v : float) : Prop := is_finite u = true /\ is_finite v = true /\ Bleb u v = true.
Lemma valid_values l m : Forall2 datum_not_above l m ->
  Forall2 valid_pair (filter (fun x => negb (is_nan x)) l) (filter (fun x => negb (is_nan x)) m).
Proof.
  induction 1 as [|u v l m D _ IH]; [constructor|]. cbn [filter]. destruct D as [[U V]|(U & V & L)].
  - rewrite U, V. exact IH.
  - rewrite (fin_nan _ _ u U), (fin_nan _ _ v V). constructor; [split; [exact U|split; assumption]|exact IH].
Qed.
Lemma pairs_length {X Y} (P : X -> Y -> Prop) l m : Forall2 P l m -> List.length l = List.length m.
Proof. induction 1; cbn; congruence. Qed.
Lemma sum_le l m : Forall2 valid_pair l m -> forall a b, is_nan a = false -> is_nan b = false -> Bleb a b = true ->
  is_nan (fold_left fadd l a) = false /\ is_nan (fold_left fadd m b) = false /\ Bleb (fold_left fadd l a) (fold_left fadd m b) = true.
Proof.
  induction 1 as [|u v l m (U & V & D) _ IH]; intros a b A B L; [auto|]. cbn [fold_left].
  destruct (add_le a b u v A B U V L D) as (N1 & N2 & N3). apply IH; assumption.
Qed.
Lemma filter_len {X} (p : X -> bool) l : (List.length (filter p l) <= List.length l)%nat.
Proof. induction l as [|x r IH]; [cbn; lia|]. cbn [filter]. destruct (p x); cbn [List.length]; lia. Qed.
Lemma nanmean_le l m : Forall2 datum_not_above l m -> Z.of_nat (List.length l) <= 2 ^ prec -> not_above (f_nanmean prec emax Hp He l) (f_nanmean prec emax Hp He m).
Proof.
  intros D B. pose proof (valid_values l m D) as V. unfold f_nanmean. cbv zeta. pose proof (filter_len (fun x : float => negb (is_nan x)) l) as FL.
  rewrite <- (pairs_length _ _ _ V).
  destruct (filter (fun x : float => negb (is_nan x)) l) as [|u v] eqn:E.
  - inversion V; subst. apply not_above_refl.
  - rewrite <- E in *. destruct (sum_le _ _ V (f0 prec emax) (f0 prec emax) eq_refl eq_refl eq_refl) as (N1 & N2 & L).
    apply mean_le; try assumption; [rewrite E; cbn [List.length]; lia|lia].
Qed.
Lemma firstn_2 {X Y} (P : X -> Y -> Prop) : forall n l m, Forall2 P l m -> Forall2 P (firstn n l) (firstn n m).
Proof. induction n as [|n IH]; intros l m F; [constructor|]. destruct F; [constructor|]. cbn. constructor; [assumption|]. apply IH. assumption. Qed.
Lemma skipn_2 {X Y} (P : X -> Y -> Prop) : forall n l m, Forall2 P l m -> Forall2 P (skipn n l) (skipn n m).
Proof. induction n as [|n IH]; intros l m F; [exact F|]. destruct F; [constructor|]. cbn. apply IH. assumption. Qed.
Lemma loop_le oob times v1 v2 half : Forall2 datum_not_above v1 v2 -> Z.of_nat (List.length v1) <= 2 ^ prec ->
  forall ts st, Forall2 not_above (f_rm_loop prec emax Hp He oob times v1 half st ts) (f_rm_loop prec emax Hp He oob times v2 half st ts).
Proof.
  intros D B. induction ts as [|t r IH]; intros [lo up]; [constructor|]. cbn [f_rm_loop]. unfold f_rm_step. cbv zeta.
  constructor; [|apply IH]. match goal with |- context [?x =? 0] => destruct (x =? 0) end; [apply not_above_refl|].
  apply nanmean_le; [apply firstn_2, skipn_2, D|]. rewrite firstn_length, skipn_length. lia.
Qed.
End Mono.

(* ---- moving averages ---- *)
Section BoxMono.
Variable nan : double.
Notation point_not_above := (MonoSpec.point_not_above nan).
Definition acc_le (N : Z) (a b : double * Z) : Prop :=
  snd a = snd b /\ 0 <= snd a <= N /\ (snd a = 0 -> fst a = fst b) /\ is_nan (fst a) = false /\ is_nan (fst b) = false /\ Bleb (fst a) (fst b) = true.
Lemma scan_le limit ti : forall l m, Forall2 point_not_above l m -> forall N a b, acc_le N a b -> acc_le (N + Z.of_nat (List.length l)) (f_scan nan limit ti l a) (f_scan nan limit ti m b).
Proof.
  assert (W : forall N M a b, N <= M -> acc_le N a b -> acc_le M a b) by (intros N M a b L (E & R & X); split; [exact E|split; [lia|exact X]]).
  induction 1 as [|[t x] [t' y] l m [T D] F IH]; intros N a b A; cbn [f_scan List.length]; [revert A; apply W; lia|]. cbn [fst snd] in T, D. subst t'. destruct D as [[X Y]|(X & Y & FX & FY & L)]; rewrite X, Y.
  - generalize (IH N a b A). apply W. lia.
  - destruct (Bleb (Babs (sub64 t ti)) limit).
    + replace (N + Z.of_nat (S (List.length l))) with (N + 1 + Z.of_nat (List.length l)) by lia. apply IH. destruct A as (E & R & Z0 & N1 & N2 & L').
      destruct (add_le 53 1024 p53 e1024 (fst a) (fst b) x y N1 N2 FX FY L' L) as (M1 & M2 & M3). split; [cbn [snd]; lia|]. cbn [fst snd]. split; [lia|]. split; [lia|]. auto.
    + revert A. apply W. lia.
Qed.
Lemma point_le limit fillna mo b1 b2 a1 a2 t x y : Forall2 point_not_above b1 b2 -> Forall2 point_not_above a1 a2 -> point_not_above (t, x) (t, y) ->
  Z.of_nat (List.length b1) + Z.of_nat (List.length a1) <= 2 ^ 53 ->
  not_above (f_box_point nan limit fillna mo b1 a1 t x) (f_box_point nan limit fillna mo b2 a2 t y).
Proof.
  intros FB FA D B. unfold f_box_point. assert (E : f_missing nan x = f_missing nan y) by (destruct D as [_ [[D1 D2]|(D1 & D2 & _)]]; cbn [snd] in D1, D2; congruence). rewrite E.
  destruct (negb (f_missing nan y) || fillna); [|apply not_above_refl]. cbv zeta.
  assert (A0 : acc_le 0 (zero64, 0) (zero64, 0)) by (repeat split; cbn; try lia; reflexivity).
  pose proof (scan_le limit t _ _ FB _ _ _ (scan_le limit t _ _ FA _ _ _ A0)) as S.
  destruct S as (E2 & R & Z0 & N1 & N2 & L). rewrite <- E2. destruct (mo <=? snd (f_scan nan limit t b1 (f_scan nan limit t a1 (zero64, 0)))); [|apply not_above_refl].
  destruct (Z.eq_dec (snd (f_scan nan limit t b1 (f_scan nan limit t a1 (zero64, 0)))) 0) as [Q|Q]; [rewrite (Z0 Q); apply not_above_refl|].
  apply mean_le; try assumption; [lia|]. change (2 ^ 53) with (2 ^ 53) in *. lia.
Qed.
Lemma box_le limit fillna mo : forall a1 a2, Forall2 point_not_above a1 a2 -> forall b1 b2, Forall2 point_not_above b1 b2 ->
  Z.of_nat (List.length b1) + Z.of_nat (List.length a1) <= 2 ^ 53 -> Forall2 not_above (f_box_loop nan limit fillna mo b1 a1) (f_box_loop nan limit fillna mo b2 a2).
Proof.
  induction 1 as [|[t x] [t' y] l m D F IH]; intros b1 b2 FB B; cbn [f_box_loop]; [constructor|]. assert (t = t') by exact (proj1 D). subst t'. constructor.
  - apply point_le; try assumption. constructor; assumption.
  - apply IH; [constructor; assumption|]. cbn [List.length] in *. lia.
Qed.
End BoxMono.
