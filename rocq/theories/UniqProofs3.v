(* Proofs about interp_uniq: inputs on which it never returns. *)
From Coq Require Import Lia.
From Verif Require Import Base UniqModel.
Import ListNotations.
Open Scope nat_scope.

(* ---- an invariant of the array that excludes distinct values excludes a result ---- *)
Section Invariant.
Context {T : Type} (same eqb ltb : T -> T -> bool) (half : T -> T -> T).
Variable I : list T -> Prop.
Hypothesis I_fix : forall s v s', I s -> In v s -> fix_run half s (positions eqb v s) = Ok s' -> I s'.
Hypothesis I_more : forall s, I s -> List.length (unique_index same ltb s) <> List.length s.

Lemma item_in {A} (l : list A) i x : item l i = Ok x -> In x l.
Proof. unfold item. destruct (nth_error l i) eqn:E; [|discriminate]. intros H. injection H as <-. exact (nth_error_In _ _ E). Qed.
Lemma round_inv st i st' : I (fst st) -> snd st = unique_index same ltb (fst st) -> round same eqb ltb half st i = Ok st' -> I (fst st') /\ snd st' = unique_index same ltb (fst st').
Proof.
  intros H U E. unfold round in E. destruct (item (snd st) i) as [u|]; [|discriminate]. cbn [bindR] in E. destruct (item (fst st) u) as [v|] eqn:Ev; [|discriminate]. cbn [bindR] in E.
  destruct (fix_run half (fst st) (positions eqb v (fst st))) as [s|] eqn:F; [|discriminate]. cbn [mapR bindR] in E. injection E as <-. cbn [fst snd]. split; [|reflexivity].
  exact (I_fix _ v _ H (item_in _ _ _ Ev) F).
Qed.
Lemma fold_err is e : fold_left (fun acc i => bindR acc (fun st => round same eqb ltb half st i)) is (Err e) = Err e.
Proof. induction is as [|i is IH]; [reflexivity|]. exact IH. Qed.
Lemma sweep_inv st st' : I (fst st) -> snd st = unique_index same ltb (fst st) -> sweep same eqb ltb half st = Ok st' -> I (fst st') /\ snd st' = unique_index same ltb (fst st').
Proof.
  unfold sweep. generalize (seq 0 (List.length (snd st))). intros is. revert st. induction is as [|i is IH]; intros st H U E; [cbn in E; injection E as <-; auto|].
  cbn [fold_left bindR] in E. destruct (round same eqb ltb half st i) as [s1|] eqn:R; [|rewrite fold_err in E; discriminate].
  destruct (round_inv _ _ _ H U R) as [H1 U1]. exact (IH s1 H1 U1 E).
Qed.
Lemma while_never fuel : forall st out, I (fst st) -> snd st = unique_index same ltb (fst st) -> while same eqb ltb half fuel st <> Some (Ok out).
Proof.
  induction fuel as [|fuel IH]; intros st out H U; cbn [while]; destruct (Nat.eqb_spec (List.length (snd st)) (List.length (fst st))) as [E|E];
    try (rewrite U in E; destruct (I_more _ H E)); [discriminate|].
  destruct (sweep same eqb ltb half st) as [st'|] eqn:S; [|discriminate]. destruct (sweep_inv _ _ H U S) as [H1 U1]. exact (IH st' out H1 U1).
Qed.
Lemma never src fuel out : I src -> interp_uniq same eqb ltb half fuel src <> Some (Ok out).
Proof. intros H. unfold interp_uniq. apply while_never; [exact H|reflexivity]. Qed.
End Invariant.

(* ---- np.unique counts ---- *)
Section Count.
Context {T : Type} (eqb ltb : T -> T -> bool).
Lemma insert_length p (l : list (T * nat)) : List.length (insert ltb p l) = S (List.length l).
Proof. induction l as [|q l IH]; [reflexivity|]. cbn. destruct (ltb (fst p) (fst q)); cbn; [reflexivity|]. rewrite IH. reflexivity. Qed.
Lemma unique_length src : List.length (unique_index eqb ltb src) = List.length (firsts eqb [] 0 src).
Proof. unfold unique_index. rewrite map_length. induction (firsts eqb [] 0 src) as [|p l IH]; [reflexivity|]. cbn. rewrite insert_length, IH. reflexivity. Qed.
Fixpoint fresh (seen l : list T) : Prop := match l with [] => True | x :: r => existsb (eqb x) seen = false /\ fresh (x :: seen) r end.
Lemma firsts_le l : forall seen i, List.length (firsts eqb seen i l) <= List.length l.
Proof. induction l as [|x l IH]; intros seen i; [apply le_n|]. cbn. rewrite app_length. specialize (IH (x :: seen) (S i)). destruct (existsb (eqb x) seen); cbn; lia. Qed.
Lemma firsts_fresh l : forall seen i, List.length (firsts eqb seen i l) = List.length l -> fresh seen l.
Proof.
  induction l as [|x l IH]; intros seen i H; [exact Logic.I|]. cbn in H. rewrite app_length in H. pose proof (firsts_le l (x :: seen) (S i)). cbn.
  destruct (existsb (eqb x) seen) eqn:E; cbn in H; [lia|]. split; [reflexivity|]. apply (IH _ (S i)). lia.
Qed.
Lemma fresh_seen l : forall seen x y, fresh seen l -> In x l -> In y seen -> eqb x y = false.
Proof.
  induction l as [|z l IH]; intros seen x y F Ix Iy; [destruct Ix|]. destruct F as [E F]. destruct Ix as [<-|Ix].
  - destruct (eqb z y) eqn:C; [|reflexivity]. rewrite <- E. symmetry. apply existsb_exists. exists y. auto.
  - apply (IH (z :: seen) x y F Ix). right. exact Iy.
Qed.
(* two equal elements *)
Lemma unique_two src i j a b : nth_error src i = Some a -> nth_error src j = Some b -> i < j -> eqb b a = true -> List.length (unique_index eqb ltb src) <> List.length src.
Proof.
  intros Ha Hb L E H. rewrite unique_length in H. apply firsts_fresh in H. revert i j Ha Hb L H. generalize (@nil T). induction src as [|x src IH]; intros seen i j Ha Hb L F; [destruct i; discriminate|].
  destruct j as [|j]; [lia|]. cbn in Hb. destruct F as [_ F]. destruct i as [|i].
  - injection Ha as <-. rewrite (fresh_seen src (x :: seen) b x F (nth_error_In _ _ Hb) (or_introl eq_refl)) in E. discriminate.
  - exact (IH (x :: seen) i j Ha Hb ltac:(lia) F).
Qed.
(* more elements than values *)
Fixpoint index (k : list T) (x : T) : nat := match k with [] => 0 | y :: r => if eqb x y then 0 else S (index r x) end.
Lemma index_lt k x : existsb (eqb x) k = true -> index k x < List.length k /\ exists y, nth_error k (index k x) = Some y /\ eqb x y = true.
Proof.
  induction k as [|y k IH]; intros H; [discriminate|]. cbn in *. destruct (eqb x y) eqn:E; cbn in *; [split; [lia|]; exists y; auto|]. destruct (IH H) as (L & z & Hz & Ez). split; [lia|]. exists z. auto.
Qed.
Lemma unique_pigeon src k : (forall x, In x src -> existsb (eqb x) k = true) -> (forall x y z, In x src -> In y src -> In z k -> eqb x z = true -> eqb y z = true -> eqb x y = true) ->
  List.length k < List.length src -> List.length (unique_index eqb ltb src) <> List.length src.
Proof.
  intros C TR L H. rewrite unique_length in H. apply firsts_fresh in H. assert (ND : NoDup (map (index k) src)).
  { revert H C TR. clear L. generalize (@nil T). induction src as [|x src IH]; intros seen F C TR; [constructor|]. destruct F as [E F]. cbn [map]. constructor.
    - intros X. apply in_map_iff in X as (y & Ey & Iy). destruct (index_lt k x (C x (or_introl eq_refl))) as (_ & z & Hz & Ez). destruct (index_lt k y (C y (or_intror Iy))) as (_ & w & Hw & Ew).
      rewrite Ey in Hw. assert (w = z) by congruence. subst w.
      pose proof (TR y x z (or_intror Iy) (or_introl eq_refl) (nth_error_In _ _ Hz) Ew Ez) as K. rewrite (fresh_seen src (x :: seen) y x F Iy (or_introl eq_refl)) in K. discriminate.
    - apply (IH (x :: seen) F); [intros y Iy; apply C; right; exact Iy|]. intros a b z Ia Ib. apply TR; right; assumption. }
  assert (LE : List.length (map (index k) src) <= List.length (seq 0 (List.length k))).
  { apply NoDup_incl_length; [exact ND|]. intros i Hi. apply in_map_iff in Hi as (x & <- & Ix). apply in_seq. destruct (index_lt k x (C x Ix)) as [Li _]. lia. }
  rewrite map_length, seq_length in LE. lia.
Qed.
End Count.

(* ---- values of a set that is closed under the mean ---- *)
Lemma put_length {A} i (v : A) l : List.length (put i v l) = List.length l.
Proof. revert i. induction l as [|x l IH]; intros [|i]; cbn; try reflexivity. rewrite IH. reflexivity. Qed.
Lemma put_in {A} i (v : A) l x : In x (put i v l) -> x = v \/ In x l.
Proof.
  revert i. induction l as [|y l IH]; intros [|i] H; cbn in H; [destruct H|destruct H| |].
  - destruct H as [<-|H]; [left; reflexivity|right; right; exact H].
  - destruct H as [<-|H]; [right; left; reflexivity|]. destruct (IH i H) as [->|K]; [left; reflexivity|right; right; exact K].
Qed.
Lemma fix_closed {T} (half : T -> T -> T) (P : T -> Prop) s pos s' : (forall a b, P a -> P b -> P (half a b)) -> Forall P s -> fix_run half s pos = Ok s' -> Forall P s' /\ List.length s' = List.length s.
Proof.
  intros C F E.
  assert (PUT : forall t i a b, Forall P t -> In a t -> In b t -> Forall P (put i (half a b) t)).
  { intros t i a b Ft Ia Ib. rewrite Forall_forall in *. intros x Hx. apply put_in in Hx as [->|Hx]; [apply C; apply Ft; assumption|apply Ft; exact Hx]. }
  unfold fix_run in E. destruct pos as [|p0 [|p1 pos]]; try (injection E as <-; auto).
  destruct (_ && _)%bool.
  - destruct (item s (nth _ _ _)) as [a|] eqn:Ea; [|discriminate]. cbn [bindR] in E. destruct (item s (S _)) as [b|] eqn:Eb; [|discriminate]. cbn [bindR] in E. injection E as <-.
    rewrite put_length. split; [|reflexivity]. apply PUT; [exact F|exact (item_in _ _ _ Ea)|exact (item_in _ _ _ Eb)].
  - destruct (item s p1) as [a|] eqn:Ea; [|destruct (Nat.eqb _ _); discriminate]. cbn [bindR] in E. destruct (item s (match p0 with O => _ | S k => k end)) as [b|] eqn:Eb; [|destruct (Nat.eqb _ _); discriminate]. cbn [bindR] in E.
    assert (F1 : Forall P (put p0 (half a b) s)) by (apply PUT; [exact F|exact (item_in _ _ _ Ea)|exact (item_in _ _ _ Eb)]).
    destruct (Nat.eqb _ _); [injection E as <-; rewrite put_length; auto|].
    destruct (item (put p0 (half a b) s) p0) as [c|] eqn:Ec; [|discriminate]. cbn [bindR] in E. destruct (item (put p0 (half a b) s) (S p1)) as [d|] eqn:Ed; [|discriminate]. cbn [bindR] in E. injection E as <-.
    rewrite !put_length. split; [|reflexivity]. apply PUT; [exact F1|exact (item_in _ _ _ Ec)|exact (item_in _ _ _ Ed)].
Qed.
Lemma never_closed {T} (same eqb ltb : T -> T -> bool) (half : T -> T -> T) (P : T -> Prop) (k : list T) src :
  (forall a b, P a -> P b -> P (half a b)) -> (forall x, P x -> existsb (same x) k = true) -> (forall x y z, P x -> P y -> In z k -> same x z = true -> same y z = true -> same x y = true) ->
  Forall P src -> List.length k < List.length src -> forall fuel out, interp_uniq same eqb ltb half fuel src <> Some (Ok out).
Proof.
  intros C K TR F L fuel out. apply (never same eqb ltb half (fun s => Forall P s /\ List.length s = List.length src)); [| |auto].
  - intros s v s' [Fs Ls] _ E. destruct (fix_closed half P _ _ _ C Fs E) as [F' L']. split; [exact F'|congruence].
  - intros s [Fs Ls]. rewrite Forall_forall in Fs. apply (unique_pigeon _ _ _ k); [auto| |lia]. intros x y z Hx Hy. exact (TR x y z (Fs x Hx) (Fs y Hy)).
Qed.

(* ---- integer arrays: the mean is truncated ---- *)
Open Scope Z_scope.
Definition z_half (a b : Z) : Z := Z.quot (a + b) 2.
Lemma z_half_range lo hi a b : lo <= a <= hi -> lo <= b <= hi -> lo <= z_half a b <= hi.
Proof. intros A B. unfold z_half. pose proof (Z.quot_rem' (a + b) 2) as E. pose proof (Z.rem_bound_abs (a + b) 2 ltac:(lia)) as R. lia. Qed.
Lemma never_integers src lo hi : src <> [] -> Forall (fun x => lo <= x <= hi) src -> hi - lo + 1 < Z.of_nat (List.length src) ->
  forall fuel out, interp_uniq Z.eqb Z.eqb Z.ltb z_half fuel src <> Some (Ok out).
Proof.
  intros NE F L. destruct (Z_lt_le_dec hi lo) as [E|E].
  { destruct src as [|x src]; [contradiction|]. apply Forall_inv in F. lia. }
  apply (never_closed Z.eqb Z.eqb Z.ltb z_half (fun x => lo <= x <= hi) (map (fun i => lo + Z.of_nat i) (seq 0 (Z.to_nat (hi - lo + 1))))).
  - intros a b. apply z_half_range.
  - intros x H. apply existsb_exists. exists x. split; [|apply Z.eqb_refl]. apply in_map_iff. exists (Z.to_nat (x - lo)). split; [lia|]. apply in_seq. lia.
  - intros x y z _ _ _ A B. apply Z.eqb_eq in A, B. apply Z.eqb_eq. congruence.
  - exact F.
  - rewrite map_length, seq_length. lia.
Qed.
