(* Proofs about schedules of a parallel validation. *)
From Coq Require Import Lia.
From Verif Require Import StartSpec.
Open Scope nat_scope.

Lemma set_nth_length {A} i (a : A) l : List.length (set_nth i a l) = List.length l.
Proof. revert i. induction l as [|x l IH]; intros [|i]; cbn; auto. Qed.
Lemma set_nth_same {A} i (a : A) l : i < List.length l -> nth_error (set_nth i a l) i = Some a.
Proof. revert i. induction l as [|x l IH]; intros [|i] H; cbn in *; try lia; [reflexivity|]. apply IH. lia. Qed.
Lemma set_nth_other {A} i j (a : A) l : i <> j -> nth_error (set_nth i a l) j = nth_error l j.
Proof. revert i j. induction l as [|x l IH]; intros [|i] [|j] H; cbn; try reflexivity; try lia. apply IH. lia. Qed.
Lemma nth_error_firstn {A} (l : list A) k a : nth_error l k = Some a -> firstn (S k) l = firstn k l ++ [a].
Proof. revert k. induction l as [|x l IH]; intros [|k] H; try discriminate; [injection H as ->; reflexivity|]. cbn [firstn app]. rewrite <- (IH k H). reflexivity. Qed.

Section S.
Variables (J R D : Type) (process : J -> R) (store : D -> R -> D * option err) (jobs : list J) (d0 : D).
Notation step := (step process store jobs).
Notation run := (run process store jobs).
Notation seqs := (sequential store).

Lemma sequential_snoc l r : forall d, seqs d (l ++ [r]) = match seqs d l with (d', None) => store d' r | x => x end.
Proof.
  induction l as [|a l IH]; intros d; cbn.
  - destruct (store d r) as [d' [e|]]; reflexivity.
  - destruct (store d a) as [d' [e|]]; [reflexivity|apply IH].
Qed.
Lemma run_app l1 : forall s l2, run s (l1 ++ l2) = match run s l1 with Some s' => run s' l2 | None => None end.
Proof. induction l1 as [|e l1 IH]; intros s l2; cbn; [reflexivity|]. destruct (step s e); [apply IH|reflexivity]. Qed.
Lemma run_snoc l e s : run s (l ++ [e]) = match run s l with Some s' => step s' e | None => None end.
Proof. rewrite run_app. destruct (run s l) as [s'|]; [|reflexivity]. cbn. destruct (step s' e); reflexivity. Qed.

Record ok (s : cstate D) : Prop := {
  o_len : List.length (s_tasks s) = List.length jobs;
  o_disk : match s_out s with
           | StoreError e => s_written s < List.length jobs /\ seqs d0 (map process (firstn (S (s_written s)) jobs)) = (s_disk s, Some e)
           | Ended => s_written s = List.length jobs /\ seqs d0 (map process jobs) = (s_disk s, None)
           | _ => s_written s <= List.length jobs /\ seqs d0 (map process (firstn (s_written s) jobs)) = (s_disk s, None)
           end
}.
Lemma ok_initial : ok (initial jobs d0).
Proof. constructor; cbn; [apply map_length|split; [lia|reflexivity]]. Qed.
Lemma ok_step s e s' : ok s -> step s e = Some s' -> ok s'.
Proof.
  intros [L O] E. unfold StartModel.step in E. destruct (s_out s) eqn:U; try discriminate. destruct O as [O1 O2]. destruct e as [i|i| | |].
  - destruct (nth_error (s_tasks s) i) as [[f| |]|] eqn:T; try discriminate. injection E as <-. constructor; cbn; [rewrite set_nth_length; exact L|auto].
  - destruct (nth_error (s_tasks s) i) as [[f| |]|] eqn:T; try discriminate. injection E as <-. constructor; cbn; [rewrite set_nth_length; exact L|auto].
  - destruct (nth_error jobs (s_written s)) as [j|] eqn:Ej.
    + assert (LT : s_written s < List.length jobs) by (apply nth_error_Some; congruence).
      destruct (nth_error (s_tasks s) (s_written s)) as [[f| |]|] eqn:T; try discriminate.
      * destruct (store (s_disk s) (process j)) as [d [x|]] eqn:St; injection E as <-; constructor; cbn [s_tasks s_out s_written s_disk]; try exact L;
          (split; [lia|]); rewrite (nth_error_firstn _ _ _ Ej), map_app; cbn [map]; rewrite sequential_snoc, O2; exact St.
      * injection E as <-. constructor; cbn; auto.
    + injection E as <-. apply nth_error_None in Ej. assert (W : s_written s = List.length jobs) by lia. constructor; cbn; [exact L|]. split; [exact W|].
      rewrite W, firstn_all in O2. exact O2.
  - destruct (existsb broken (s_tasks s)); [|discriminate]. injection E as <-. constructor; cbn; auto.
  - injection E as <-. constructor; cbn; auto.
Qed.
Lemma ok_run l : forall s s', ok s -> run s l = Some s' -> ok s'.
Proof.
  induction l as [|e l IH]; intros s s' O E; cbn in E; [injection E as <-; exact O|].
  destruct (step s e) as [s1|] eqn:E1; [|discriminate]. exact (IH s1 s' (ok_step s e s1 O E1) E).
Qed.

(* ---- failures *)
Definition counts (l : list event) (s : cstate D) : Prop :=
  (forall i, match nth_error (s_tasks s) i with
            | Some (Waiting f) => f = failures_of i l /\ f <= 2
            | Some Finished => failures_of i l <= 2
            | Some Broken => failures_of i l = 3
            | None => failures_of i l = 0
            end) /\
  (s_out s = RemoteError -> exists i, nth_error (s_tasks s) i = Some Broken).
Lemma failures_snoc i l e : failures_of i (l ++ [e]) = failures_of i l + (match e with Fail j => if Nat.eqb i j then 1 else 0 | _ => 0 end).
Proof. unfold failures_of. rewrite filter_app, app_length. f_equal. destruct e as [| j | | |]; cbn; try reflexivity. destruct (Nat.eqb i j); reflexivity. Qed.
Lemma counts_initial : counts [] (initial jobs d0).
Proof.
  split; [|discriminate]. intros i. cbn. rewrite nth_error_map. destruct (nth_error jobs i); cbn; [split; [reflexivity|lia]|reflexivity].
Qed.
Lemma counts_step l s e s' : counts l s -> step s e = Some s' -> counts (l ++ [e]) s'.
Proof.
  intros [C CR] E. unfold StartModel.step in E. destruct (s_out s) eqn:U; try discriminate. destruct e as [i|i| | |].
  - destruct (nth_error (s_tasks s) i) as [[f| |]|] eqn:T; try discriminate. injection E as <-.
    assert (LT : i < List.length (s_tasks s)) by (apply nth_error_Some; congruence).
    split; [|discriminate]. intros j. cbn [s_tasks]. rewrite failures_snoc, Nat.add_0_r. specialize (C j). destruct (Nat.eq_dec i j) as [<-|N].
    + rewrite set_nth_same by exact LT. rewrite T in C. lia.
    + rewrite set_nth_other by exact N. exact C.
  - destruct (nth_error (s_tasks s) i) as [[f| |]|] eqn:T; try discriminate. injection E as <-.
    assert (LT : i < List.length (s_tasks s)) by (apply nth_error_Some; congruence).
    split; [|discriminate]. intros j. cbn [s_tasks]. rewrite failures_snoc. specialize (C j). destruct (Nat.eq_dec i j) as [<-|N].
    + rewrite set_nth_same by exact LT. rewrite T in C. rewrite Nat.eqb_refl. unfold retries. destruct (Nat.ltb_spec f 2); lia.
    + rewrite set_nth_other by exact N. assert (X : Nat.eqb j i = false) by (apply Nat.eqb_neq; lia). rewrite X, Nat.add_0_r. exact C.
  - assert (K : forall s1, s_tasks s1 = s_tasks s -> (s_out s1 = RemoteError -> exists i, nth_error (s_tasks s) i = Some Broken) -> counts (l ++ [Collect]) s1).
    { intros s1 E1 E2. split; [|rewrite E1; exact E2]. intros j. rewrite failures_snoc, Nat.add_0_r, E1. apply C. }
    destruct (nth_error jobs (s_written s)) as [j|] eqn:Ej.
    + destruct (nth_error (s_tasks s) (s_written s)) as [[f| |]|] eqn:T; try discriminate.
      * destruct (store (s_disk s) (process j)) as [d [x|]] eqn:St; injection E as <-; apply K; cbn; [reflexivity|discriminate|reflexivity|discriminate].
      * injection E as <-. apply K; cbn; [reflexivity|]. intros _. exists (s_written s). exact T.
    + injection E as <-. apply K; cbn; [reflexivity|discriminate].
  - destruct (existsb broken (s_tasks s)) eqn:B; [|discriminate]. injection E as <-. split; cbn.
    + intros j. rewrite failures_snoc, Nat.add_0_r. apply C.
    + intros _. apply existsb_exists in B as (t & Ht & Bt). destruct t; try discriminate. apply In_nth_error in Ht. exact Ht.
  - injection E as <-. split; cbn; [|discriminate]. intros j. rewrite failures_snoc, Nat.add_0_r. apply C.
Qed.
Lemma counts_run l : forall l0 s s', counts l0 s -> run s l = Some s' -> counts (l0 ++ l) s'.
Proof.
  induction l as [|e l IH]; intros l0 s s' O E; cbn in E; [injection E as <-; rewrite app_nil_r; exact O|].
  destruct (step s e) as [s1|] eqn:E1; [|discriminate]. change (e :: l) with ([e] ++ l). rewrite app_assoc. exact (IH _ s1 s' (counts_step _ s e s1 O E1) E).
Qed.
Lemma no_remote_error l s : run (initial jobs d0) l = Some s -> (forall i, failures_of i l <= 2) -> s_out s <> RemoteError.
Proof.
  intros E F X. destruct (counts_run l [] _ _ counts_initial E) as [C R0]. destruct (R0 X) as (i & T). specialize (C i). rewrite T in C. change ([] ++ l)%list with l in C. specialize (F i). lia.
Qed.
Lemma remote_error_why l s : run (initial jobs d0) l = Some s -> s_out s = RemoteError -> exists i, i < List.length jobs /\ failures_of i l = 3.
Proof.
  intros E X. destruct (counts_run l [] _ _ counts_initial E) as [C R0]. destruct (R0 X) as (i & T). exists i. specialize (C i). rewrite T in C. split; [|exact C].
  assert (O := o_len _ (ok_run l _ _ ok_initial E)). rewrite <- O. apply nth_error_Some. congruence.
Qed.

(* ---- schedules end *)
Definition weight (t : task) : nat := match t with Waiting f => 3 - f | _ => 0 end.
Definition measure (s : cstate D) : nat :=
  list_sum (map weight (s_tasks s)) + (List.length jobs - s_written s) + match s_out s with Running => 1 | _ => 0 end.
Lemma set_nth_weight i a b l : nth_error l i = Some a -> weight b < weight a -> list_sum (map weight (set_nth i b l)) < list_sum (map weight l).
Proof.
  revert i. induction l as [|x l IH]; intros [|i] E H; try discriminate; unfold list_sum in *; cbn [nth_error set_nth map fold_right] in *.
  - injection E as ->. lia.
  - specialize (IH i E H). lia.
Qed.
Lemma measure_step l s e s' : ok s -> counts l s -> step s e = Some s' -> measure s' < measure s.
Proof.
  intros O [C _] E. unfold StartModel.step in E. unfold measure. destruct (s_out s) eqn:U; try discriminate. destruct e as [i|i| | |].
  - destruct (nth_error (s_tasks s) i) as [[f| |]|] eqn:T; try discriminate. injection E as <-. specialize (C i). rewrite T in C. cbn [s_tasks s_written s_out].
    assert (X := set_nth_weight i _ Finished _ T). cbn [weight] in X. lia.
  - destruct (nth_error (s_tasks s) i) as [[f| |]|] eqn:T; try discriminate. injection E as <-. specialize (C i). rewrite T in C. cbn [s_tasks s_written s_out].
    assert (X := set_nth_weight i _ (if Nat.ltb f retries then Waiting (S f) else Broken) _ T). unfold retries in *. destruct (Nat.ltb_spec f 2); cbn [weight] in X; lia.
  - destruct (nth_error jobs (s_written s)) as [j|] eqn:Ej.
    + assert (LT : s_written s < List.length jobs) by (apply nth_error_Some; congruence).
      destruct (nth_error (s_tasks s) (s_written s)) as [[f| |]|] eqn:T; try discriminate.
      * destruct (store (s_disk s) (process j)) as [d [x|]] eqn:St; injection E as <-; cbn [s_tasks s_written s_out]; lia.
      * injection E as <-. cbn [s_tasks s_written s_out]. lia.
    + injection E as <-. cbn [s_tasks s_written s_out]. lia.
  - destruct (existsb broken (s_tasks s)); [|discriminate]. injection E as <-. cbn [s_tasks s_written s_out]. lia.
  - injection E as <-. cbn [s_tasks s_written s_out]. lia.
Qed.
Lemma run_length l : forall l0 s s', ok s -> counts l0 s -> run s l = Some s' -> List.length l + measure s' <= measure s.
Proof.
  induction l as [|e l IH]; intros l0 s s' O C E; cbn in E; [injection E as <-; cbn; lia|].
  destruct (step s e) as [s1|] eqn:E1; [|discriminate]. assert (M := measure_step l0 s e s1 O C E1).
  assert (X := IH (l0 ++ [e]) s1 s' (ok_step _ _ _ O E1) (counts_step _ _ _ _ C E1) E). cbn [List.length]. lia.
Qed.
Lemma sum_threes (l : list J) : list_sum (map (fun _ => weight (Waiting 0)) l) = 3 * List.length l.
Proof. clear. induction l as [|j l IH]; [reflexivity|]. unfold list_sum in *. cbn [map fold_right weight List.length] in *. lia. Qed.
Lemma measure_initial : measure (initial jobs d0) = 4 * List.length jobs + 1.
Proof.
  unfold measure, initial. cbn [s_tasks s_written s_out]. rewrite map_map, sum_threes. lia.
Qed.
Lemma schedule_bound l s : run (initial jobs d0) l = Some s -> List.length l <= 4 * List.length jobs + 1.
Proof. intros E. assert (X := run_length l [] _ _ ok_initial counts_initial E). rewrite measure_initial in X. lia. Qed.

(* ---- and can always go on to their end *)
Definition good (e : event) : Prop := match e with Succeed _ | Collect => True | _ => False end.
Lemma finish n : forall l0 s, measure s <= n -> ok s -> counts l0 s -> s_out s = Running -> (forall t, In t (s_tasks s) -> t <> Broken) ->
  exists l s', run s l = Some s' /\ (forall e, In e l -> good e) /\ (s_out s' = Ended \/ exists x, s_out s' = StoreError x).
Proof.
  induction n as [|n IH]; intros l0 s M O C U NB.
  - unfold measure in M. rewrite U in M. lia.
  - assert (NX : forall e s1, good e -> step s e = Some s1 -> (forall t, In t (s_tasks s1) -> t <> Broken) -> (s_out s1 = Running \/ s_out s1 = Ended \/ exists x, s_out s1 = StoreError x) ->
       exists l s', run s l = Some s' /\ (forall e, In e l -> good e) /\ (s_out s' = Ended \/ exists x, s_out s' = StoreError x)).
    { intros e s1 G E1 NB1 [U1|U1].
      - assert (MS := measure_step l0 s e s1 O C E1).
        destruct (IH (l0 ++ [e]) s1) as (l & s' & E & GL & F); [lia|exact (ok_step _ _ _ O E1)|exact (counts_step _ _ _ _ C E1)|exact U1|exact NB1|].
        exists (e :: l), s'. cbn. rewrite E1. split; [exact E|]. split; [|exact F]. intros e' [<-|H]; [exact G|exact (GL e' H)].
      - exists [e], s1. cbn. rewrite E1. split; [reflexivity|]. split; [|exact U1]. intros e' [<-|[]]. exact G. }
    destruct (nth_error jobs (s_written s)) as [j|] eqn:Ej.
    + assert (LT : s_written s < List.length jobs) by (apply nth_error_Some; congruence).
      destruct (nth_error (s_tasks s) (s_written s)) as [t|] eqn:T.
      * destruct t as [f| |].
        -- eapply (NX (Succeed (s_written s))); [exact Logic.I|unfold StartModel.step; rewrite U, T; reflexivity| |left; reflexivity]. cbn [s_tasks].
           intros t Ht. apply In_nth_error in Ht as (k & Hk). destruct (Nat.eq_dec (s_written s) k) as [<-|N].
           ++ rewrite set_nth_same in Hk by (apply nth_error_Some; congruence). congruence.
           ++ rewrite set_nth_other in Hk by exact N. apply nth_error_In in Hk. apply NB. exact Hk.
        -- destruct (store (s_disk s) (process j)) as [d [x|]] eqn:St.
           ++ eapply (NX Collect); [exact Logic.I|unfold StartModel.step; rewrite U, Ej, T, St; reflexivity|exact NB|right; right; eexists; reflexivity].
           ++ eapply (NX Collect); [exact Logic.I|unfold StartModel.step; rewrite U, Ej, T, St; reflexivity|exact NB|left; reflexivity].
        -- exfalso. apply (NB Broken); [apply nth_error_In in T; exact T|reflexivity].
      * apply nth_error_None in T. rewrite (o_len s O) in T. lia.
    + eapply (NX Collect); [exact Logic.I|unfold StartModel.step; rewrite U, Ej; reflexivity|exact NB|right; left; reflexivity].
Qed.
Lemma can_finish l s : run (initial jobs d0) l = Some s -> s_out s = Running -> (forall i, failures_of i l <= 2) ->
  exists l' s', run s l' = Some s' /\ (forall e, In e l' -> good e) /\ (s_out s' = Ended \/ exists x, s_out s' = StoreError x).
Proof.
  intros E U F. assert (C := counts_run l [] _ _ counts_initial E). eapply (finish _ l s (le_n _)); [exact (ok_run l _ _ ok_initial E)|exact C|exact U|].
  intros t Ht ->. apply In_nth_error in Ht as (i & T). destruct C as [C _]. specialize (C i). rewrite T in C. change ([] ++ l)%list with l in C. specialize (F i). lia.
Qed.
End S.
