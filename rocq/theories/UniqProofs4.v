(* Proofs about interp_uniq: equal ends on exact numbers, adjacent doubles. *)
From Coq Require Import Lqa Lia.
From Verif Require Import Base UniqModel UniqProofs UniqProofs2 UniqProofs3.
Import ListNotations.
Open Scope Q_scope.

Lemma positions_cons v x l : positionsQ v (x :: l) = (if Qeq_bool x v then [0%nat] else []) ++ map S (positionsQ v l).
Proof.
  unfold positions. cbn [List.length seq combine filter snd]. assert (E : forall k (l : list Q), map fst (filter (fun ix : nat * Q => Qeq_bool (snd ix) v) (combine (seq (S k) (List.length l)) l)) =
    map S (map fst (filter (fun ix : nat * Q => Qeq_bool (snd ix) v) (combine (seq k (List.length l)) l)))).
  { clear. intros k l. revert k. induction l as [|x l IH]; intros k; [reflexivity|]. cbn [List.length seq combine filter snd]. destruct (Qeq_bool x v); cbn [map]; rewrite IH; reflexivity. }
  destruct (Qeq_bool x v); cbn [map app]; rewrite E; reflexivity.
Qed.
Lemma positions_in v l i : In i (positionsQ v l) <-> exists x, nth_error l i = Some x /\ x == v.
Proof.
  revert i. induction l as [|x l IH]; intros i.
  - split; [intros []|]. intros (y & H & _). destruct i; discriminate.
  - rewrite positions_cons, in_app_iff, in_map_iff. destruct i as [|i].
    + split.
      * intros [H|(k & K & _)]; [|discriminate]. destruct (Qeq_bool x v) eqn:E; [|destruct H]. apply Qeq_bool_iff in E. exists x. auto.
      * intros (y & H & E). injection H as <-. left. apply Qeq_bool_iff in E. rewrite E. left. reflexivity.
    + split.
      * intros [H|(k & K & H)]; [destruct (Qeq_bool x v); [destruct H as [H|[]]; discriminate|destruct H]|]. injection K as <-. apply IH in H. exact H.
      * intros H. right. exists i. split; [reflexivity|]. apply IH. exact H.
Qed.
Lemma positions_sorted v l : forall i j a b, nth_error (positionsQ v l) i = Some a -> nth_error (positionsQ v l) j = Some b -> (i < j)%nat -> (a < b)%nat.
Proof.
  induction l as [|x l IH]; intros i j a b Ha Hb L; [destruct i; discriminate|]. rewrite positions_cons in Ha, Hb.
  assert (M : forall i j a b, nth_error (map S (positionsQ v l)) i = Some a -> nth_error (map S (positionsQ v l)) j = Some b -> (i < j)%nat -> (a < b)%nat).
  { clear - IH. intros i j a b Ha Hb L. rewrite nth_error_map in Ha, Hb. destruct (nth_error (positionsQ v l) i) as [c|] eqn:Ec; [|discriminate]. destruct (nth_error (positionsQ v l) j) as [d|] eqn:Ed; [|discriminate].
    injection Ha as <-. injection Hb as <-. specialize (IH i j c d Ec Ed L). lia. }
  destruct (Qeq_bool x v); cbn [app] in Ha, Hb; [|exact (M i j a b Ha Hb L)]. destruct j as [|j]; [lia|]. cbn [nth_error] in Hb. destruct i as [|i].
  - injection Ha as <-. apply nth_error_In, in_map_iff in Hb as (k & <- & _). lia.
  - exact (M i j a b Ha Hb ltac:(lia)).
Qed.
Lemma last_nth (l : list nat) d : l <> [] -> nth_error l (List.length l - 1) = Some (last l d).
Proof.
  induction l as [|x l IH]; intros H; [contradiction|]. destruct l as [|y l]; [reflexivity|]. specialize (IH ltac:(discriminate)). cbn [List.length] in *. replace (S (S (List.length l)) - 1)%nat with (S (S (List.length l) - 1)) by lia.
  cbn [nth_error]. rewrite IH. reflexivity.
Qed.
(* the first and last elements are equal *)
Definition closed (s : list Q) : Prop := exists a b, nth_error s 0 = Some a /\ nth_error s (List.length s - 1) = Some b /\ a == b /\ (2 <= List.length s)%nat.
Lemma half_same a b v : a == v -> b == v -> q_half a b == v.
Proof. intros A B. unfold q_half. rewrite A, B. field. Qed.
Lemma item_nth {A} (l : list A) i x : item l i = Ok x -> nth_error l i = Some x.
Proof. unfold item. destruct (nth_error l i); [|discriminate]. intros H. injection H as ->. reflexivity. Qed.
Lemma fix_closed_ends s v s' : closed s -> fixQ s (positionsQ v s) = Ok s' -> closed s'.
Proof.
  intros (a & b & Ha & Hb & E & L) F. pose proof (positions_in v s) as PI. pose proof (positions_sorted v s) as PS. set (pos := positionsQ v s) in *. set (n := List.length s) in *.
  unfold fix_run in F. fold n in F. destruct pos as [|p0 [|p1 ps]] eqn:EP; [injection F as <-; exists a, b; auto|injection F as <-; exists a, b; auto|].
  pose proof (last_nth (p0 :: p1 :: ps) p0 ltac:(discriminate)) as HL. set (pl := last (p0 :: p1 :: ps) p0) in *.
  assert (L1 : (p0 < p1)%nat) by (apply (PS 0%nat 1%nat); [reflexivity|reflexivity|lia]).
  assert (L2 : (p1 <= pl)%nat).
  { destruct ps as [|q ps]; [unfold pl; cbn; lia|]. apply Nat.lt_le_incl. apply (PS 1%nat (List.length (p0 :: p1 :: q :: ps) - 1)%nat); [reflexivity|exact HL|cbn [List.length]; lia]. }
  destruct (proj1 (PI p0) (or_introl eq_refl)) as (x0 & H0 & E0). destruct (proj1 (PI p1) (or_intror (or_introl eq_refl))) as (x1 & H1 & E1).
  destruct (proj1 (PI pl) (nth_error_In _ _ HL)) as (xl & Hl & El).
  pose proof (nth_some_lt _ _ _ H0). pose proof (nth_some_lt _ _ _ H1). pose proof (nth_some_lt _ _ _ Hl). fold n in H, H2, H3.
  destruct (Nat.eq_dec p0 0) as [Z|NZ].
  - (* the run contains both ends *)
    subst p0. assert (x0 = a) by congruence. subst x0. assert (IN : In (n - 1)%nat (0%nat :: p1 :: ps)) by (apply PI; exists b; split; [exact Hb|rewrite <- E; exact E0]).
    assert (PL : pl = (n - 1)%nat).
    { apply In_nth_error in IN as (k & Hk). pose proof (nth_some_lt _ _ _ Hk) as Lk. destruct (Nat.eq_dec k (List.length (0%nat :: p1 :: ps) - 1)) as [->|NK]; [congruence|].
      pose proof (PS k _ _ _ Hk HL ltac:(lia)). lia. }
    rewrite PL, !Nat.eqb_refl, Nat.ltb_irrefl in F. cbn [Nat.eqb andb] in F. rewrite (item_some _ _ _ H1) in F. cbn [bindR] in F. rewrite (item_some _ _ _ Hb) in F. cbn [bindR] in F. injection F as <-.
    change (closed (put 0 (q_half x1 b) s)). unfold closed. exists (q_half x1 b), b.
    rewrite UniqProofs.put_length, !nth_put by (fold n; lia). fold n. cbn [Nat.eqb]. destruct (Nat.eqb_spec (n - 1) 0); [lia|]. split; [reflexivity|]. split; [exact Hb|]. split; [|exact L].
    rewrite (half_same x1 b v E1); [rewrite <- E, E0; reflexivity|rewrite <- E; exact E0].
  - (* the run contains neither *)
    assert (PL : pl <> (n - 1)%nat).
    { intros PL. rewrite PL, Hb in Hl. injection Hl as <-. assert (IN : In 0%nat (p0 :: p1 :: ps)) by (apply PI; exists a; split; [exact Ha|rewrite E; exact El]).
      destruct IN as [IN|IN]; [congruence|]. apply In_nth_error in IN as (k & Hk). pose proof (PS 0%nat (S k) p0 0%nat eq_refl Hk ltac:(lia)). lia. }
    destruct (Nat.eqb_spec p0 0); [contradiction|]. cbn [andb] in F. destruct (Nat.eqb_spec pl (n - 1)); [contradiction|].
    destruct p0 as [|p]; [contradiction|].
    rewrite (item_some _ _ _ H1) in F. cbn [bindR] in F. destruct (item s p) as [y|]; [|discriminate]. cbn [bindR] in F.
    destruct (item _ (S p)) as [c|]; [|discriminate]. cbn [bindR] in F. destruct (item _ (S p1)) as [d|]; [|discriminate]. cbn [bindR] in F. injection F as <-.
    change (closed (put p1 (q_half c d) (put (S p) (q_half x1 y) s))). unfold closed. exists a, b. assert (LP : List.length (put (S p) (q_half x1 y) s) = n) by apply UniqProofs.put_length. rewrite UniqProofs.put_length, LP. rewrite !nth_put by (rewrite ?LP; fold n; lia).
    destruct (Nat.eqb_spec 0 p1); [lia|]. destruct (Nat.eqb_spec (n - 1) p1); [lia|]. destruct (Nat.eqb_spec 0 (S p)); [lia|]. destruct (Nat.eqb_spec (n - 1) (S p)); [lia|]. auto.
Qed.
Lemma never_closed_ends src : closed src -> forall fuel out, interp_uniq Qeq_bool Qeq_bool q_lt q_half fuel src <> Some (Ok out).
Proof.
  intros C fuel out. apply (never Qeq_bool Qeq_bool q_lt q_half closed); [| |exact C].
  - intros s v s' H _ F. exact (fix_closed_ends s v s' H F).
  - intros s (a & b & Ha & Hb & E & L). apply (unique_two _ _ s 0 (List.length s - 1) a b Ha Hb); [lia|]. apply Qeq_bool_iff. symmetry. exact E.
Qed.
