(* Proofs about interp_uniq on exact numbers. *)
From Coq Require Import Lqa Lia.
From Verif Require Import Base UniqModel.
Import ListNotations.
Open Scope Q_scope.

Definition q_lt (x y : Q) : bool := negb (Qle_bool y x).
Definition q_half (a b : Q) : Q := (a + b) / 2.
Notation uniqueQ := (unique_index Qeq_bool q_lt).
Notation positionsQ := (positions Qeq_bool).
Notation fixQ := (fix_run q_half).
Notation roundQ := (round Qeq_bool Qeq_bool q_lt q_half).
Notation sweepQ := (sweep Qeq_bool Qeq_bool q_lt q_half).
Notation whileQ := (while Qeq_bool Qeq_bool q_lt q_half).

Lemma q_lt_spec x y : q_lt x y = true <-> x < y.
Proof. unfold q_lt. rewrite negb_true_iff. split; intros H; [apply Qnot_le_lt; intros C; apply Qle_bool_iff in C; congruence|]. apply not_true_iff_false. intros C. apply Qle_bool_iff in C. lra. Qed.
Lemma half_between a b : a < b -> a < q_half a b < b.
Proof. intros H. unfold q_half. split; [apply Qlt_shift_div_l; lra|apply Qlt_shift_div_r; lra]. Qed.

(* ---- assignment ---- *)
Lemma put_length {A} i (v : A) l : List.length (put i v l) = List.length l.
Proof. revert i. induction l as [|x l IH]; intros [|i]; cbn; try reflexivity. rewrite IH. reflexivity. Qed.
Lemma nth_put {A} i (v : A) l j : (i < List.length l)%nat -> nth_error (put i v l) j = if Nat.eqb j i then Some v else nth_error l j.
Proof.
  revert i j. induction l as [|x l IH]; intros i j H; [cbn in H; lia|]. destruct i as [|i]; destruct j as [|j]; cbn [put nth_error Nat.eqb]; try reflexivity.
  rewrite IH by (cbn in H; lia). reflexivity.
Qed.

(* ---- ascending lists, by index ---- *)
Definition ascending (s : list Q) : Prop := forall j a b, nth_error s j = Some a -> nth_error s (S j) = Some b -> a <= b.
Definition strict_at (s : list Q) (j : nat) : bool := match nth_error s j, nth_error s (S j) with Some a, Some b => q_lt a b | _, _ => false end.
Definition ascents (s : list Q) : nat := List.length (filter (strict_at s) (seq 0 (List.length s - 1))).

Lemma ascending_le s : ascending s -> forall j k a b, (j <= k)%nat -> nth_error s j = Some a -> nth_error s k = Some b -> a <= b.
Proof.
  intros A j k a b L. revert b. induction L as [|k L IH]; intros b Ha Hb; [assert (a = b) by congruence; subst; lra|].
  destruct (nth_error s k) as [c|] eqn:Hc.
  - specialize (IH c Ha eq_refl). specialize (A k c b Hc Hb). lra.
  - exfalso. apply nth_error_None in Hc. assert (nth_error s (S k) = None) by (apply nth_error_None; lia). congruence.
Qed.
Lemma nth_lt {A} (l : list A) j : (j < List.length l)%nat -> exists a, nth_error l j = Some a.
Proof. intros H. destruct (nth_error l j) eqn:E; [eauto|]. apply nth_error_None in E. lia. Qed.
Lemma nth_some_lt {A} (l : list A) j a : nth_error l j = Some a -> (j < List.length l)%nat.
Proof. intros H. apply nth_error_Some. congruence. Qed.
Lemma strict_at_spec s j : ascending s -> (S j < List.length s)%nat -> strict_at s j = false -> exists a b, nth_error s j = Some a /\ nth_error s (S j) = Some b /\ a == b.
Proof.
  intros A L H. destruct (nth_lt s j ltac:(lia)) as (a & Ha). destruct (nth_lt s (S j) L) as (b & Hb). exists a, b. split; [exact Ha|]. split; [exact Hb|].
  unfold strict_at in H. rewrite Ha, Hb in H. specialize (A j a b Ha Hb). apply not_true_iff_false in H. rewrite q_lt_spec in H. apply Qle_antisym; [exact A|apply Qnot_lt_le; exact H].
Qed.

(* ---- a value replaced by one strictly between its neighbours ---- *)
Definition nudge (i : nat) (s s' : list Q) : Prop := exists m a b, s' = put i m s /\ (0 < i)%nat /\
  nth_error s (i - 1) = Some a /\ nth_error s (S i) = Some b /\ a < m /\ m < b.
Lemma nudge_length i s s' : nudge i s s' -> List.length s' = List.length s.
Proof. intros (m & a & b & -> & _). apply put_length. Qed.
Lemma nudge_nth i s s' : nudge i s s' -> exists m a b, (0 < i)%nat /\ (S i < List.length s)%nat /\ nth_error s (i - 1) = Some a /\ nth_error s (S i) = Some b /\ a < m /\ m < b /\
  forall j, nth_error s' j = if Nat.eqb j i then Some m else nth_error s j.
Proof.
  intros (m & a & b & -> & P & Ha & Hb & L1 & L2). pose proof (nth_some_lt _ _ _ Hb). exists m, a, b. repeat (split; [assumption|]). intros j. apply nth_put. lia.
Qed.
Lemma nudge_ascending i s s' : nudge i s s' -> ascending s -> ascending s'.
Proof.
  intros N A. destruct (nudge_nth _ _ _ N) as (m & a & b & P & L & Ha & Hb & L1 & L2 & E). intros j x y Hx Hy. rewrite E in Hx, Hy.
  destruct (Nat.eqb_spec j i) as [->|NE].
  - injection Hx as <-. destruct (Nat.eqb_spec (S i) i); [lia|]. assert (y = b) by congruence. subst. lra.
  - destruct (Nat.eqb_spec (S j) i) as [<-|NE2]; [|exact (A j x y Hx Hy)]. injection Hy as <-. replace (S j - 1)%nat with j in Ha by lia. assert (x = a) by congruence. subst. lra.
Qed.
Lemma nudge_strict i s s' : nudge i s s' -> forall j, strict_at s j = true -> strict_at s' j = true.
Proof.
  intros N j H. destruct (nudge_nth _ _ _ N) as (m & a & b & P & L & Ha & Hb & L1 & L2 & E). unfold strict_at in *. rewrite !E.
  destruct (Nat.eqb_spec j i) as [->|NE].
  - destruct (Nat.eqb_spec (S i) i); [lia|]. rewrite Hb. apply q_lt_spec. exact L2.
  - destruct (Nat.eqb_spec (S j) i) as [<-|NE2]; [|exact H]. replace (S j - 1)%nat with j in Ha by lia. rewrite Ha. apply q_lt_spec. exact L1.
Qed.
Lemma nudge_strict_new i s s' : nudge i s s' -> strict_at s' (i - 1) = true /\ strict_at s' i = true.
Proof.
  intros N. destruct (nudge_nth _ _ _ N) as (m & a & b & P & L & Ha & Hb & L1 & L2 & E). unfold strict_at. rewrite !E, Nat.eqb_refl.
  replace (S (i - 1)) with i by lia. rewrite Nat.eqb_refl. destruct (Nat.eqb_spec (i - 1) i); [lia|]. destruct (Nat.eqb_spec (S i) i); [lia|].
  rewrite Ha, Hb. split; apply q_lt_spec; assumption.
Qed.
Lemma filter_mono (p q : nat -> bool) l : (forall j, p j = true -> q j = true) -> (List.length (filter p l) <= List.length (filter q l))%nat.
Proof.
  intros H. induction l as [|x l IH]; [apply le_n|]. cbn. destruct (p x) eqn:E; [rewrite (H x E); cbn; lia|]. destruct (q x); cbn; lia.
Qed.
Lemma filter_grow (p q : nat -> bool) l x : (forall j, p j = true -> q j = true) -> In x l -> p x = false -> q x = true -> (List.length (filter p l) < List.length (filter q l))%nat.
Proof.
  intros H. induction l as [|y l IH]; intros I P Q; [destruct I|]. destruct I as [->|I].
  - cbn. rewrite P, Q. cbn. pose proof (filter_mono p q l H). lia.
  - specialize (IH I P Q). cbn. destruct (p y) eqn:E; [rewrite (H y E); cbn; lia|]. destruct (q y); cbn; lia.
Qed.
Lemma nudge_ascents i s s' : nudge i s s' -> (ascents s <= ascents s')%nat.
Proof. intros N. unfold ascents. rewrite (nudge_length _ _ _ N). apply filter_mono, (nudge_strict _ _ _ N). Qed.
Lemma nudge_gain i s s' : nudge i s s' -> strict_at s (i - 1) = false \/ strict_at s i = false -> (ascents s < ascents s')%nat.
Proof.
  intros N H. destruct (nudge_strict_new _ _ _ N) as [S1 S2]. destruct (nudge_nth _ _ _ N) as (m & a & b & P & L & _).
  unfold ascents. rewrite (nudge_length _ _ _ N). destruct H as [H|H].
  - apply (filter_grow _ _ _ (i - 1)); [apply (nudge_strict _ _ _ N)|apply in_seq; lia|exact H|exact S1].
  - apply (filter_grow _ _ _ i); [apply (nudge_strict _ _ _ N)|apply in_seq; lia|exact H|exact S2].
Qed.

(* ---- np.unique of an ascending list ---- *)
Definition starts (s : list Q) : list nat := filter (fun k => match k with O => true | S j => strict_at s j end) (seq 0 (List.length s)).

Fixpoint runs (p : option Q) (i : nat) (l : list Q) : list (Q * nat) :=
  match l with
  | [] => []
  | x :: r => (if match p with Some y => Qeq_bool x y | None => false end then [] else [(x, i)]) ++ runs (Some x) (S i) r
  end.
Lemma ascending_tail x l : ascending (x :: l) -> ascending l.
Proof. intros A j a b Ha Hb. exact (A (S j) a b Ha Hb). Qed.
Lemma firsts_runs l : forall seen p i, ascending l -> (forall x y, hd_error l = Some x -> In y seen -> y <= x) ->
  (match p with None => seen = [] | Some y => In y seen /\ forall z, In z seen -> z <= y end) -> firsts Qeq_bool seen i l = runs p i l.
Proof.
  induction l as [|x l IH]; intros seen p i A B P; [reflexivity|]. cbn [firsts runs]. f_equal.
  - assert (E : existsb (Qeq_bool x) seen = match p with Some y => Qeq_bool x y | None => false end).
    { destruct p as [y|]; [|subst; reflexivity]. destruct P as [P1 P2]. destruct (Qeq_bool x y) eqn:E.
      - apply existsb_exists. exists y. auto.
      - apply not_true_iff_false. intros H. apply existsb_exists in H as (z & Hz & Ez). apply Qeq_bool_iff in Ez. apply not_true_iff_false in E. apply E. apply Qeq_bool_iff.
        pose proof (P2 z Hz). pose proof (B x y eq_refl P1). lra. }
    rewrite E. reflexivity.
  - apply IH; [exact (ascending_tail _ _ A)| |].
    + intros z y Hz Hy. destruct l as [|w l]; [discriminate|]. injection Hz as <-. pose proof (A 0%nat x w eq_refl eq_refl). destruct Hy as [<-|Hy]; [exact H|]. pose proof (B x y eq_refl Hy). lra.
    + split; [left; reflexivity|]. intros z [<-|Hz]; [lra|]. exact (B x z eq_refl Hz).
Qed.
Lemma runs_bounds l : forall p i, ascending l -> (forall x y, hd_error l = Some x -> p = Some y -> y <= x) ->
  forall q, In q (runs p i l) -> (forall y, p = Some y -> y < fst q) .
Proof.
  induction l as [|x l IH]; intros p i A B q I y Ep; [destruct I|]. cbn [runs] in I. apply in_app_iff in I as [I|I].
  - subst p. destruct (Qeq_bool x y) eqn:E; [destruct I|]. destruct I as [<-|[]]. cbn [fst]. pose proof (B x y eq_refl eq_refl).
    apply Qle_lteq in H as [H|H]; [exact H|]. exfalso. apply not_true_iff_false in E. apply E. apply Qeq_bool_iff. symmetry. exact H.
  - pose proof (B x y eq_refl Ep). enough (x < fst q) by lra. apply (IH (Some x) (S i) (ascending_tail _ _ A)) with (q := q); [|exact I|reflexivity].
    intros z w Hz Hw. injection Hw as <-. destruct l as [|v l]; [discriminate|]. injection Hz as <-. exact (A 0%nat x v eq_refl eq_refl).
Qed.
Lemma insert_sorted p l : (forall q, In q l -> fst p < fst q) -> insert q_lt p l = p :: l.
Proof. destruct l as [|q l]; intros H; [reflexivity|]. cbn. assert (q_lt (fst p) (fst q) = true) by (apply q_lt_spec, H; left; reflexivity). rewrite H0. reflexivity. Qed.
Lemma sort_runs l : forall p i, ascending l -> fold_right (insert q_lt) [] (runs p i l) = runs p i l.
Proof.
  induction l as [|x l IH]; intros p i A; [reflexivity|]. cbn [runs]. pose proof (ascending_tail _ _ A) as A'. destruct (match p with Some y => Qeq_bool x y | None => false end); cbn [app fold_right]; rewrite (IH _ _ A'); [reflexivity|].
  apply insert_sorted. intros q I. cbn [fst]. apply (runs_bounds l (Some x) (S i) A') with (q := q); [|exact I|reflexivity].
  intros z w Hz Hw. injection Hw as <-. destruct l as [|v l]; [discriminate|]. injection Hz as <-. exact (A 0%nat x v eq_refl eq_refl).
Qed.
Lemma runs_starts s : ascending s -> forall pre l, s = pre ++ l -> map snd (runs (match rev pre with [] => None | y :: _ => Some y end) (List.length pre) l) =
  filter (fun k => match k with O => true | S j => strict_at s j end) (seq (List.length pre) (List.length l)).
Proof.
  intros A pre l. revert pre. induction l as [|x l IH]; intros pre E; [reflexivity|]. cbn [runs List.length seq filter]. rewrite map_app.
  specialize (IH (pre ++ [x])). rewrite rev_app_distr, app_length in IH. cbn [rev app List.length] in IH. rewrite Nat.add_1_r in IH. rewrite IH by (rewrite <- app_assoc; exact E).
  assert (NX : nth_error s (List.length pre) = Some x) by (rewrite E, nth_error_app2, Nat.sub_diag by lia; reflexivity).
  destruct (rev pre) as [|y r] eqn:ER.
  - assert (pre = []) by (rewrite <- (rev_involutive pre), ER; reflexivity). subst pre. reflexivity.
  - assert (EP : pre = rev r ++ [y]) by (rewrite <- (rev_involutive pre), ER; reflexivity).
    assert (LP : List.length pre = S (List.length (rev r))) by (rewrite EP, app_length; cbn; lia).
    assert (NY : nth_error s (List.length (rev r)) = Some y) by (rewrite E, EP, <- app_assoc, nth_error_app2, Nat.sub_diag by lia; reflexivity).
    rewrite LP in *. cbn iota. unfold strict_at at 2. rewrite NY, NX.
    destruct (Qeq_bool x y) eqn:EQ; destruct (q_lt y x) eqn:QL; try reflexivity; exfalso.
    + apply Qeq_bool_iff in EQ. apply q_lt_spec in QL. lra.
    + pose proof (A _ _ _ NY NX). apply not_true_iff_false in QL. rewrite q_lt_spec in QL. apply not_true_iff_false in EQ. apply EQ, Qeq_bool_iff. apply Qle_antisym; [apply Qnot_lt_le; exact QL|exact H].
Qed.
Lemma unique_starts s : ascending s -> uniqueQ s = starts s.
Proof.
  intros A. unfold unique_index. rewrite (firsts_runs s [] None 0 A) by (try reflexivity; intros x y _ []). rewrite sort_runs by exact A.
  exact (runs_starts s A [] s eq_refl).
Qed.
Lemma starts_length s : s <> [] -> List.length (starts s) = S (ascents s).
Proof.
  intros N. unfold starts, ascents. destruct s as [|x s]; [contradiction|]. cbn [List.length seq filter]. f_equal. rewrite Nat.sub_0_r || idtac.
  replace (S (List.length s) - 1)%nat with (List.length s) by lia. generalize (List.length s). intros n. rewrite <- seq_shift. generalize (seq 0 n). intros l.
  induction l as [|j l IH]; [reflexivity|]. cbn [map filter]. destruct (strict_at (x :: s) j); cbn [List.length]; rewrite IH; reflexivity.
Qed.
