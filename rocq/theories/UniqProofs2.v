(* Proofs about interp_uniq on exact numbers: one round, one sweep, termination. *)
From Coq Require Import Lqa Lia.
From Verif Require Import Base UniqModel UniqProofs.
Import ListNotations.
Open Scope Q_scope.

(* ---- what one correction may do to an ascending list ---- *)
Definition isolated (s : list Q) (j : nat) : Prop :=
  (j < List.length s)%nat /\ (j = 0%nat \/ strict_at s (j - 1) = true) /\ (S j = List.length s \/ strict_at s j = true).
Record step (s s' : list Q) : Prop := {
  st_len : List.length s' = List.length s;
  st_asc : ascending s';
  st_strict : forall j, strict_at s j = true -> strict_at s' j = true;
  st_iso : forall j, isolated s j -> nth_error s' j = nth_error s j;
  st_first : nth_error s' 0 = nth_error s 0;
  st_last : nth_error s' (List.length s - 1) = nth_error s (List.length s - 1);
  st_gain : s' = s \/ (ascents s < ascents s')%nat }.
Lemma step_refl s : ascending s -> step s s.
Proof. intros A. constructor; auto. Qed.
Lemma step_isolated s s' j : step s s' -> isolated s j -> isolated s' j.
Proof. intros P (L & B & C). pose proof (st_len _ _ P). pose proof (st_strict _ _ P). split; [lia|]. split; [destruct B; auto|]. destruct C; [left; lia|auto]. Qed.
Lemma step_trans a b c : step a b -> step b c -> step a c.
Proof.
  intros P Q. constructor.
  - rewrite (st_len _ _ Q). apply (st_len _ _ P).
  - apply (st_asc _ _ Q).
  - intros j H. apply (st_strict _ _ Q), (st_strict _ _ P), H.
  - intros j H. rewrite (st_iso _ _ Q) by exact (step_isolated _ _ _ P H). apply (st_iso _ _ P), H.
  - rewrite (st_first _ _ Q). apply (st_first _ _ P).
  - rewrite <- (st_last _ _ P), <- (st_len _ _ P). apply (st_last _ _ Q).
  - destruct (st_gain _ _ P) as [->|G1]; [exact (st_gain _ _ Q)|]. destruct (st_gain _ _ Q) as [->|G2]; right; lia.
Qed.
(* a nudge of an element equal to a neighbour *)
Lemma nudge_step i s s' : ascending s -> nudge i s s' -> strict_at s (i - 1) = false \/ strict_at s i = false -> step s s'.
Proof.
  intros A N F. destruct (nudge_nth _ _ _ N) as (m & a & b & P & L & Ha & Hb & L1 & L2 & E). constructor.
  - apply (nudge_length _ _ _ N).
  - apply (nudge_ascending _ _ _ N A).
  - apply (nudge_strict _ _ _ N).
  - intros j (Lj & B & C). rewrite E. destruct (Nat.eqb_spec j i) as [->|]; [|reflexivity]. exfalso. destruct F as [F|F]; [destruct B; [lia|congruence]|destruct C; [lia|congruence]].
  - rewrite E. destruct (Nat.eqb_spec 0 i); [lia|reflexivity].
  - rewrite E. destruct (Nat.eqb_spec (List.length s - 1) i); [lia|reflexivity].
  - right. apply (nudge_gain _ _ _ N F).
Qed.
(* two nudges, of elements equal to a neighbour in the list before both *)
Lemma nudge2_step i k s s1 s' : ascending s -> nudge i s s1 -> nudge k s1 s' -> (strict_at s (i - 1) = false \/ strict_at s i = false) ->
  (strict_at s (k - 1) = false \/ strict_at s k = false) -> step s s'.
Proof.
  intros A N M F G. pose proof (nudge_step _ _ _ A N F) as P. destruct (nudge_nth _ _ _ M) as (m & a & b & P0 & L & Ha & Hb & L1 & L2 & E).
  pose proof (nudge_length _ _ _ N) as EL. pose proof (nudge_length _ _ _ M) as EL2. constructor.
  - congruence.
  - apply (nudge_ascending _ _ _ M), (st_asc _ _ P).
  - intros j H. apply (nudge_strict _ _ _ M), (st_strict _ _ P), H.
  - intros j H. rewrite E. destruct (Nat.eqb_spec j k) as [->|]; [|apply (st_iso _ _ P), H].
    exfalso. destruct H as (Lj & B & C). destruct G as [G|G]; [destruct B; [lia|congruence]|destruct C; [lia|congruence]].
  - rewrite E. destruct (Nat.eqb_spec 0 k); [lia|apply (st_first _ _ P)].
  - rewrite E. destruct (Nat.eqb_spec (List.length s - 1) k); [lia|apply (st_last _ _ P)].
  - right. pose proof (nudge_gain _ _ _ N F). pose proof (nudge_ascents _ _ _ M). lia.
Qed.

(* ---- the positions of a value ---- *)
Lemma pos_app (f : nat * Q -> bool) a b k : map fst (filter f (combine (seq k (List.length (a ++ b))) (a ++ b))) =
  map fst (filter f (combine (seq k (List.length a)) a)) ++ map fst (filter f (combine (seq (k + List.length a) (List.length b)) b)).
Proof.
  revert k. induction a as [|x a IH]; intros k; [cbn [app List.length seq combine filter map]; rewrite Nat.add_0_r; reflexivity|].
  cbn [app List.length seq combine filter]. rewrite Nat.add_succ_r. destruct (f (k, x)); cbn [map app]; [f_equal|]; rewrite IH; reflexivity.
Qed.
Lemma pos_none v l k : (forall x, In x l -> ~ x == v) -> map fst (filter (fun ix : nat * Q => Qeq_bool (snd ix) v) (combine (seq k (List.length l)) l)) = [].
Proof.
  revert k. induction l as [|x l IH]; intros k H; [reflexivity|]. cbn [List.length seq combine filter snd]. destruct (Qeq_bool x v) eqn:E.
  - apply Qeq_bool_iff in E. exfalso. exact (H x (or_introl eq_refl) E).
  - apply IH. intros y Hy. apply H. right. exact Hy.
Qed.
Lemma pos_all v l k : (forall x, In x l -> x == v) -> map fst (filter (fun ix : nat * Q => Qeq_bool (snd ix) v) (combine (seq k (List.length l)) l)) = seq k (List.length l).
Proof.
  revert k. induction l as [|x l IH]; intros k H; [reflexivity|]. cbn [List.length seq combine filter snd].
  assert (E : Qeq_bool x v = true) by (apply Qeq_bool_iff, H; left; reflexivity). rewrite E. cbn [map]. f_equal. apply IH. intros y Hy. apply H. right. exact Hy.
Qed.
Lemma split_while v l : exists a b, l = a ++ b /\ (forall x, In x a -> x == v) /\ (forall x, hd_error b = Some x -> ~ x == v).
Proof.
  induction l as [|x l (a & b & E & Ha & Hb)]; [exists [], []; repeat split; [intros x []|discriminate]|].
  destruct (Qeq_dec x v) as [H|H].
  - exists (x :: a), b. split; [cbn; f_equal; exact E|]. split; [|exact Hb]. intros y [<-|Hy]; auto.
  - exists [], (x :: l). split; [reflexivity|]. split; [intros y []|]. intros y Hy. injection Hy as <-. exact H.
Qed.
(* the run that starts at u *)
Record run (s : list Q) (u r : nat) (v : Q) : Prop := {
  r_pos : positionsQ v s = seq u r;
  r_one : (1 <= r)%nat;
  r_in : (u + r <= List.length s)%nat;
  r_eq : forall j x, (u <= j < u + r)%nat -> nth_error s j = Some x -> x == v;
  r_before : forall j x, (j < u)%nat -> nth_error s j = Some x -> x < v;
  r_after : forall j x, (u + r <= j)%nat -> nth_error s j = Some x -> v < x }.
Lemma run_exists s u v : ascending s -> nth_error s u = Some v -> (u = 0%nat \/ strict_at s (u - 1) = true) -> exists r, run s u r v.
Proof.
  intros A N B. destruct (nth_error_split s u N) as (pre & rest & Es & Lp).
  destruct (split_while v rest) as (mid & post & Er & Hm & Hp). exists (S (List.length mid)).
  assert (Es' : s = pre ++ (v :: mid) ++ post) by (rewrite Es, Er; reflexivity).
  assert (Len : List.length s = (u + S (List.length mid) + List.length post)%nat) by (rewrite Es', !app_length, Lp; cbn [List.length]; lia).
  assert (Before : forall j x, (j < u)%nat -> nth_error s j = Some x -> x < v).
  { intros j x Hj Hx. destruct B as [B|B]; [lia|]. unfold strict_at in B. replace (S (u - 1)) with u in B by lia. rewrite N in B. destruct (nth_error s (u - 1)) as [a|] eqn:Ea; [|discriminate].
    apply q_lt_spec in B. pose proof (ascending_le s A j (u - 1) x a ltac:(lia) Hx Ea). lra. }
  assert (After : forall j x, (u + S (List.length mid) <= j)%nat -> nth_error s j = Some x -> v < x).
  { intros j x Hj Hx. pose proof (nth_some_lt _ _ _ Hx) as Lj. destruct post as [|w post]; [cbn [List.length] in Len; lia|].
    assert (Nw : nth_error s (u + S (List.length mid)) = Some w).
    { rewrite Es', app_assoc, nth_error_app2; rewrite app_length, Lp; cbn [List.length]; [|lia]. rewrite Nat.sub_diag. reflexivity. }
    pose proof (ascending_le s A u (u + S (List.length mid)) v w ltac:(lia) N Nw). pose proof (ascending_le s A _ j w x Hj Nw Hx). pose proof (Hp w eq_refl).
    apply Qle_lteq in H as [H|H]; [lra|]. exfalso. apply H1. symmetry. exact H. }
  assert (Eq : forall j x, (u <= j < u + S (List.length mid))%nat -> nth_error s j = Some x -> x == v).
  { intros j x Hj Hx. rewrite Es', nth_error_app2 in Hx by lia. rewrite nth_error_app1 in Hx by (cbn [List.length]; lia). apply nth_error_In in Hx. destruct Hx as [<-|Hx]; [reflexivity|exact (Hm x Hx)]. }
  constructor; [|lia|lia|exact Eq|exact Before|exact After].
  unfold positions. rewrite Es' at 1 2. rewrite pos_app, pos_app, pos_none, pos_all, pos_none; cbn [List.length].
  - rewrite app_nil_r, Lp. reflexivity.
  - intros x Hx. apply In_nth_error in Hx as (j & Hj). assert (Hs : nth_error s (u + S (List.length mid) + j) = Some x).
    { rewrite Es', app_assoc, nth_error_app2; rewrite app_length, Lp; cbn [List.length]; [|lia]. replace (_ - _)%nat with j by lia. exact Hj. }
    apply After in Hs; [lra|lia].
  - intros x [<-|Hx]; [reflexivity|exact (Hm x Hx)].
  - intros x Hx. apply In_nth_error in Hx as (j & Hj). pose proof (nth_some_lt _ _ _ Hj). assert (Hs : nth_error s j = Some x) by (rewrite Es', nth_error_app1 by lia; exact Hj).
    apply Before in Hs; [lra|lia].
Qed.

(* ---- the correction of one run ---- *)
Lemma item_some {A} (l : list A) i x : nth_error l i = Some x -> item l i = Ok x.
Proof. intros H. unfold item. rewrite H. reflexivity. Qed.
Lemma last_seq u r d : last (seq u (S r)) d = (u + r)%nat.
Proof. revert u. induction r as [|r IH]; intros u; [cbn; lia|]. change (seq u (S (S r))) with (u :: seq (S u) (S r)). cbn [last]. change (seq (S u) (S r)) with (S u :: seq (S (S u)) r) at 1. cbn iota. rewrite IH. lia. Qed.
Lemma not_strict s j a b : nth_error s j = Some a -> nth_error s (S j) = Some b -> a == b -> strict_at s j = false.
Proof. intros Ha Hb E. unfold strict_at. rewrite Ha, Hb. apply not_true_iff_false. rewrite q_lt_spec. lra. Qed.

Lemma fix_long s u r v : ascending s -> run s u (S (S r)) v -> (u <> 0 \/ u + S (S r) <> List.length s)%nat ->
  exists s', fixQ s (seq u (S (S r))) = Ok s' /\ step s s' /\ s' <> s.
Proof.
  intros A R NC. pose proof (r_in _ _ _ _ R) as In. set (n := List.length s) in *.
  destruct (nth_lt s u ltac:(lia)) as (x0 & H0). destruct (nth_lt s (S u) ltac:(lia)) as (x1 & H1).
  pose proof (r_eq _ _ _ _ R u x0 ltac:(lia) H0) as E0. pose proof (r_eq _ _ _ _ R (S u) x1 ltac:(lia) H1) as E1.
  assert (F0 : strict_at s u = false) by (apply (not_strict s u x0 x1 H0 H1); rewrite E0, E1; reflexivity).
  assert (Diff : forall s', step s s' -> (ascents s < ascents s')%nat -> s' <> s) by (intros s' _ L ->; lia).
  unfold fix_run. change (seq u (S (S r))) with (u :: S u :: seq (S (S u)) r) at 1. cbn iota. rewrite (last_seq u (S r)). rewrite seq_length.
  replace (S (S r) - 2)%nat with r by lia. rewrite seq_nth by lia. fold n.
  destruct (Nat.eqb_spec u 0) as [->|Hu].
  - (* the run is at the start *)
    cbn [andb]. assert (L : (0 + S r < n - 1)%nat) by lia. apply Nat.ltb_lt in L as ->.
    destruct (nth_lt s (0 + r) ltac:(lia)) as (a & Ha). destruct (nth_lt s (S (0 + S r)) ltac:(lia)) as (b & Hb). rewrite (item_some _ _ _ Ha), (item_some _ _ _ Hb). cbn [bindR].
    destruct (nth_lt s (S (0 + r)) ltac:(lia)) as (c & Hc).
    pose proof (r_eq _ _ _ _ R (0 + r)%nat _ ltac:(lia) Ha) as Ea. pose proof (r_after _ _ _ _ R (S (0 + S r)) _ ltac:(lia) Hb) as Lb. pose proof (r_eq _ _ _ _ R (S (0 + r)) _ ltac:(lia) Hc) as Ec.
    assert (Lab : a < b) by lra. destruct (half_between _ _ Lab) as [M1 M2].
    assert (N : nudge (0 + S r) s (put (0 + S r) (q_half a b) s)).
    { exists (q_half a b), a, b. split; [reflexivity|]. split; [lia|]. replace (0 + S r - 1)%nat with (0 + r)%nat by lia. auto. }
    assert (F : strict_at s (0 + S r - 1) = false) by (replace (0 + S r - 1)%nat with (0 + r)%nat by lia; apply (not_strict s _ a c Ha Hc); rewrite Ea, Ec; reflexivity).
    exists (put (0 + S r) (q_half a b) s). split; [reflexivity|]. pose proof (nudge_step _ _ _ A N (or_introl F)) as P. split; [exact P|]. apply Diff; [exact P|]. apply (nudge_gain _ _ _ N). left. exact F.
  - cbn [andb]. destruct u as [|p]; [contradiction|].
    destruct (nth_lt s p ltac:(lia)) as (b & Hb). pose proof (r_before _ _ _ _ R p _ ltac:(lia) Hb) as Lb.
    rewrite (item_some _ _ _ H1), (item_some _ _ _ Hb). cbn [bindR]. set (m := q_half x1 b).
    assert (Lm : b < m /\ m < v). { assert (Lbx : b < x1) by lra. destruct (half_between _ _ Lbx) as [M1 M2]. assert (Em : m == q_half b x1) by (unfold m, q_half; field). lra. }
    assert (N : nudge (S p) s (put (S p) m s)). { exists m, b, x1. replace (S p - 1)%nat with p by lia. repeat (split; [auto; lia|]). lra. }
    pose proof (nudge_step _ _ _ A N (or_intror F0)) as P. pose proof (nudge_gain _ _ _ N (or_intror F0)) as G.
    destruct (Nat.eqb_spec (S p + S r) (n - 1)) as [EL|NL].
    + (* at the end *) exists (put (S p) m s). split; [reflexivity|]. split; [exact P|]. exact (Diff _ P G).
    + (* in the middle *)
      assert (Hm : nth_error (put (S p) m s) (S p) = Some m) by (rewrite nth_put, Nat.eqb_refl by (fold n; lia); reflexivity).
      destruct (nth_lt s (S (S (S p))) ltac:(fold n; lia)) as (c & Hc).
      assert (Hc' : nth_error (put (S p) m s) (S (S (S p))) = Some c). { rewrite nth_put by (fold n; lia). destruct (Nat.eqb_spec (S (S (S p))) (S p)); [lia|exact Hc]. }
      rewrite (item_some _ _ _ Hm), (item_some _ _ _ Hc'). cbn [bindR].
      assert (Lc : v <= c) by (destruct r as [|r]; [pose proof (r_after _ _ _ _ R (S (S (S p))) _ ltac:(lia) Hc); lra|pose proof (r_eq _ _ _ _ R (S (S (S p))) _ ltac:(lia) Hc); lra]).
      assert (Lmc : m < c) by lra. destruct (half_between _ _ Lmc) as [M1 M2].
      assert (N2 : nudge (S (S p)) (put (S p) m s) (put (S (S p)) (q_half m c) (put (S p) m s))).
      { exists (q_half m c), m, c. replace (S (S p) - 1)%nat with (S p) by lia. repeat (split; [auto; lia|]). exact M2. }
      assert (F1 : strict_at s (S (S p) - 1) = false) by (replace (S (S p) - 1)%nat with (S p) by lia; exact F0).
      pose proof (nudge2_step _ _ _ _ _ A N N2 (or_intror F0) (or_introl F1)) as P2.
      eexists. split; [reflexivity|]. split; [exact P2|]. apply Diff; [exact P2|]. pose proof (nudge_ascents _ _ _ N2). lia.
Qed.

(* ---- one round ---- *)
Definition spread (s : list Q) : Prop := exists a b, nth_error s 0 = Some a /\ nth_error s (List.length s - 1) = Some b /\ a < b.
Lemma step_spread s s' : step s s' -> spread s -> spread s'.
Proof. intros P (a & b & Ha & Hb & L). exists a, b. rewrite (st_len _ _ P), (st_first _ _ P), (st_last _ _ P). auto. Qed.
Lemma starts_in s u : In u (starts s) <-> (u < List.length s)%nat /\ (u = 0%nat \/ strict_at s (u - 1) = true).
Proof.
  unfold starts. rewrite filter_In, in_seq. split.
  - intros ((_ & L) & H). split; [lia|]. destruct u as [|u]; [auto|]. right. replace (S u - 1)%nat with u by lia. exact H.
  - intros (L & H). split; [lia|]. destruct u as [|u]; [reflexivity|]. destruct H as [H|H]; [discriminate|]. replace (S u - 1)%nat with u in H by lia. exact H.
Qed.
Lemma round_step s i : ascending s -> spread s -> (i < List.length (starts s))%nat ->
  exists s', roundQ (s, starts s) i = Ok (s', starts s') /\ step s s' /\
    (s' = s -> forall u, nth_error (starts s) i = Some u -> S u = List.length s \/ strict_at s u = true).
Proof.
  intros A SP L. destruct (nth_lt _ _ L) as (u & Hu). pose proof (nth_error_In _ _ Hu) as IU. apply starts_in in IU as (LU & B).
  destruct (nth_lt _ _ LU) as (v & Hv). destruct (run_exists s u v A Hv B) as (r & R).
  unfold round. cbn [fst snd]. rewrite (item_some _ _ _ Hu). cbn [bindR]. rewrite (item_some _ _ _ Hv). cbn [bindR]. rewrite (r_pos _ _ _ _ R).
  destruct r as [|[|r]]; [pose proof (r_one _ _ _ _ R); lia| |].
  - exists s. cbn [seq fix_run mapR bindR]. rewrite (unique_starts s A). split; [reflexivity|]. split; [apply step_refl, A|].
    intros _ w Hw. assert (w = u) by congruence. subst w. pose proof (r_in _ _ _ _ R). destruct (Nat.eq_dec (S u) (List.length s)) as [E|E]; [left; exact E|right].
    destruct (nth_lt s (S u) ltac:(lia)) as (x & Hx). pose proof (r_after _ _ _ _ R (S u) x ltac:(lia) Hx). unfold strict_at. rewrite Hv, Hx. apply q_lt_spec. exact H0.
  - assert (NC : (u <> 0 \/ u + S (S r) <> List.length s)%nat).
    { destruct (Nat.eq_dec u 0) as [->|]; [|auto]. destruct (Nat.eq_dec (0 + S (S r)) (List.length s)) as [E|]; [|auto]. exfalso.
      destruct SP as (a & b & Ha & Hb & Lab). pose proof (r_eq _ _ _ _ R 0%nat _ ltac:(lia) Ha). pose proof (r_eq _ _ _ _ R (List.length s - 1)%nat _ ltac:(lia) Hb). lra. }
    destruct (fix_long s u r v A R NC) as (s' & E & P & D). exists s'. rewrite E. cbn [mapR bindR]. rewrite (unique_starts s' (st_asc _ _ P)). split; [reflexivity|]. split; [exact P|]. intros C. contradiction.
Qed.

(* ---- one sweep ---- *)
Lemma step_ascents s s' : step s s' -> (ascents s <= ascents s')%nat.
Proof. intros P. destruct (st_gain _ _ P) as [->|]; lia. Qed.
Lemma spread_nonempty s : spread s -> s <> [].
Proof. intros (a & b & H & _) ->. discriminate. Qed.
Lemma sweep_fold is : forall s, ascending s -> spread s -> (forall i, In i is -> (i < List.length (starts s))%nat) ->
  exists s', fold_left (fun acc i => bindR acc (fun st => roundQ st i)) is (Ok (s, starts s)) = Ok (s', starts s') /\ step s s' /\
    (s' = s -> forall i u, In i is -> nth_error (starts s) i = Some u -> S u = List.length s \/ strict_at s u = true).
Proof.
  induction is as [|i is IH]; intros s A SP L.
  - exists s. split; [reflexivity|]. split; [apply step_refl, A|]. intros _ i u [].
  - cbn [fold_left bindR]. destruct (round_step s i A SP (L i (or_introl eq_refl))) as (s1 & E1 & P1 & C1). rewrite E1.
    pose proof (step_spread _ _ P1 SP) as SP1.
    destruct (IH s1 (st_asc _ _ P1) SP1) as (s2 & E2 & P2 & C2).
    { intros k Hk. specialize (L k (or_intror Hk)). rewrite starts_length in * by (apply spread_nonempty; assumption). pose proof (step_ascents _ _ P1). lia. }
    exists s2. split; [exact E2|]. split; [exact (step_trans _ _ _ P1 P2)|]. intros E k u Hk Hu. subst s2.
    assert (s1 = s). { destruct (st_gain _ _ P1) as [G|G]; [exact G|]. pose proof (step_ascents _ _ P2). lia. }
    subst s1. destruct Hk as [<-|Hk]; [exact (C1 eq_refl u Hu)|exact (C2 eq_refl k u Hk Hu)].
Qed.
Lemma sweep_step s : ascending s -> spread s -> exists s', sweepQ (s, starts s) = Ok (s', starts s') /\ step s s' /\
  (s' = s -> forall u, In u (starts s) -> S u = List.length s \/ strict_at s u = true).
Proof.
  intros A SP. destruct (sweep_fold (seq 0 (List.length (starts s))) s A SP) as (s' & E & P & C); [intros i Hi; apply in_seq in Hi; lia|].
  exists s'. split; [exact E|]. split; [exact P|]. intros D u Hu. apply In_nth_error in Hu as (i & Hi). apply (C D i u); [|exact Hi]. apply in_seq. pose proof (nth_some_lt _ _ _ Hi). lia.
Qed.

(* ---- all distinct ---- *)
Lemma filter_length_le {A} (p : A -> bool) l : (List.length (filter p l) <= List.length l)%nat.
Proof. induction l as [|x l IH]; [apply le_n|]. cbn. destruct (p x); cbn; lia. Qed.
Lemma ascents_bound s : (ascents s <= List.length s - 1)%nat.
Proof. unfold ascents. etransitivity; [apply (filter_length_le)|]. rewrite seq_length. apply le_n. Qed.
Lemma filter_full (p : nat -> bool) l : (List.length l <= List.length (filter p l))%nat -> forall x, In x l -> p x = true.
Proof.
  induction l as [|y l IH]; intros L x I; [destruct I|]. cbn [filter List.length] in L. pose proof (filter_length_le p l). destruct (p y) eqn:E; cbn [List.length] in L; [|lia].
  destruct I as [<-|I]; [exact E|]. apply IH; [lia|exact I].
Qed.
Lemma full_strict s : (List.length s - 1 <= ascents s)%nat -> forall j, (S j < List.length s)%nat -> strict_at s j = true.
Proof. intros H j L. apply (filter_full (strict_at s) (seq 0 (List.length s - 1))); [rewrite seq_length; exact H|apply in_seq; lia]. Qed.
Lemma filter_all (p : nat -> bool) l : (forall x, In x l -> p x = true) -> filter p l = l.
Proof. induction l as [|y l IH]; intros H; [reflexivity|]. cbn [filter]. rewrite (H y (or_introl eq_refl)). f_equal. apply IH. intros x I. apply H. right. exact I. Qed.
Lemma stuck_full s : (forall u, In u (starts s) -> S u = List.length s \/ strict_at s u = true) -> ascents s = (List.length s - 1)%nat.
Proof.
  intros H. assert (K : forall j, (j < List.length s)%nat -> In j (starts s)).
  { induction j as [|j IH]; intros L; [apply starts_in; auto|]. apply starts_in. split; [exact L|right]. replace (S j - 1)%nat with j by lia.
    destruct (H j (IH ltac:(lia))) as [E|E]; [lia|exact E]. }
  unfold ascents. rewrite filter_all, seq_length; [reflexivity|]. intros j Hj. apply in_seq in Hj. destruct (H j (K j ltac:(lia))) as [E|E]; [lia|exact E].
Qed.

(* ---- the while loop ---- *)
Lemma while_done fuel : forall s, ascending s -> spread s -> (List.length s - 1 - ascents s <= fuel)%nat ->
  exists s', whileQ fuel (s, starts s) = Some (Ok s') /\ step s s' /\ (List.length s - 1 <= ascents s')%nat.
Proof.
  assert (T : forall s fuel, spread s -> (List.length s - 1 <= ascents s)%nat -> whileQ fuel (s, starts s) = Some (Ok s)).
  { intros s f SP L. assert (E : List.length (starts s) = List.length s).
    { rewrite starts_length by (apply spread_nonempty, SP). pose proof (ascents_bound s). destruct s; [exfalso; apply (spread_nonempty _ SP eq_refl)|]. cbn [List.length] in *. lia. }
    destruct f; cbn [while fst snd]; rewrite E, Nat.eqb_refl; reflexivity. }
  induction fuel as [|fuel IH]; intros s A SP L.
  - exists s. split; [apply T; [exact SP|lia]|]. split; [apply step_refl, A|lia].
  - destruct (le_lt_dec (List.length s - 1) (ascents s)) as [F|F]; [exists s; split; [apply T; assumption|split; [apply step_refl, A|exact F]]|].
    destruct (sweep_step s A SP) as (s1 & E1 & P1 & C1).
    assert (G : (ascents s < ascents s1)%nat). { destruct (st_gain _ _ P1) as [D|G]; [|exact G]. pose proof (stuck_full s (C1 D)). lia. }
    destruct (IH s1 (st_asc _ _ P1) (step_spread _ _ P1 SP)) as (s2 & E2 & P2 & F2); [rewrite (st_len _ _ P1); lia|].
    exists s2. rewrite (st_len _ _ P1) in F2. split; [|split; [exact (step_trans _ _ _ P1 P2)|exact F2]].
    cbn [while fst snd]. rewrite starts_length by (apply spread_nonempty, SP). destruct (Nat.eqb_spec (S (ascents s)) (List.length s)); [lia|].
    rewrite E1. exact E2.
Qed.
