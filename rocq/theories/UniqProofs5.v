(* Proofs about interp_uniq: missing values, and arrays without any. *)
From Coq Require Import Lia.
From Verif Require Import Base UniqModel UniqProofs UniqProofs3.
Import ListNotations.
Open Scope nat_scope.

(* ---- numbers that can be missing ---- *)
Definition n_same (a b : option Q) : bool := match a, b with Some x, Some y => Qeq_bool x y | None, None => true | _, _ => false end.
Definition n_eqb (a b : option Q) : bool := match a, b with Some x, Some y => Qeq_bool x y | _, _ => false end.
Definition n_lt (a b : option Q) : bool := match a, b with Some x, Some y => q_lt x y | Some _, None => true | None, _ => false end.
Definition n_half (a b : option Q) : option Q := match a, b with Some x, Some y => Some (q_half x y) | _, _ => None end.

(* ---- a map that respects the operations respects the function ---- *)
Section Hom.
Context {U T : Type} (f : U -> T) (same eqb ltb : U -> U -> bool) (half : U -> U -> U) (same' eqb' ltb' : T -> T -> bool) (half' : T -> T -> T).
Hypothesis H1 : forall a b, same' (f a) (f b) = same a b.
Hypothesis H2 : forall a b, eqb' (f a) (f b) = eqb a b.
Hypothesis H3 : forall a b, ltb' (f a) (f b) = ltb a b.
Hypothesis H4 : forall a b, half' (f a) (f b) = f (half a b).
Notation g := (fun p : U * nat => (f (fst p), snd p)).
Notation h := (fun st : list U * list nat => (map f (fst st), snd st)).

Lemma existsb_hom x seen : existsb (same' (f x)) (map f seen) = existsb (same x) seen.
Proof. induction seen as [|y seen IH]; [reflexivity|]. cbn. rewrite H1, IH. reflexivity. Qed.
Lemma firsts_hom l : forall seen i, firsts same' (map f seen) i (map f l) = map g (firsts same seen i l).
Proof.
  induction l as [|x l IH]; intros seen i; [reflexivity|]. cbn [map firsts]. rewrite existsb_hom, map_app, <- (IH (x :: seen)). destruct (existsb (same x) seen); reflexivity.
Qed.
Lemma insert_hom p l : insert ltb' (g p) (map g l) = map g (insert ltb p l).
Proof. induction l as [|q l IH]; [reflexivity|]. cbn [map insert fst]. rewrite H3. destruct (ltb (fst p) (fst q)); [reflexivity|]. rewrite IH. reflexivity. Qed.
Lemma unique_hom l : unique_index same' ltb' (map f l) = unique_index same ltb l.
Proof.
  unfold unique_index. pose proof (firsts_hom l [] 0) as E. cbn [map] in E. rewrite E. clear E.
  assert (E : fold_right (insert ltb') [] (map g (firsts same [] 0 l)) = map g (fold_right (insert ltb) [] (firsts same [] 0 l))).
  { induction (firsts same [] 0 l) as [|p r IH]; [reflexivity|]. cbn [map fold_right]. rewrite IH. apply insert_hom. }
  rewrite E, map_map. reflexivity.
Qed.
Lemma combine_hom {A} (k : list A) (l : list U) : combine k (map f l) = map (fun ix => (fst ix, f (snd ix))) (combine k l).
Proof. revert l. induction k as [|i k IH]; intros [|x l]; try reflexivity. cbn. rewrite IH. reflexivity. Qed.
Lemma positions_hom v l : positions eqb' (f v) (map f l) = positions eqb v l.
Proof.
  unfold positions. rewrite map_length, combine_hom. generalize (combine (seq 0 (List.length l)) l). intros k.
  induction k as [|[i x] k IH]; [reflexivity|]. cbn [map filter snd fst]. rewrite H2. destruct (eqb x v); cbn [map fst]; rewrite IH; reflexivity.
Qed.
Lemma item_hom l i : item (map f l) i = mapR f (item l i).
Proof. unfold item. revert i. induction l as [|x l IH]; intros [|i]; try reflexivity. exact (IH i). Qed.
Lemma put_hom i v l : put i (f v) (map f l) = map f (put i v l).
Proof. revert i. induction l as [|x l IH]; intros [|i]; try reflexivity. cbn. rewrite IH. reflexivity. Qed.
Lemma fix_run_hom l pos : fix_run half' (map f l) pos = mapR (map f) (fix_run half l pos).
Proof.
  unfold fix_run. rewrite map_length. destruct pos as [|p0 [|p1 pos]]; try reflexivity.
  destruct (_ && _)%bool.
  - rewrite !item_hom. destruct (item l (nth _ _ _)); [|reflexivity]. cbn [mapR bindR]. destruct (item l (S _)); [|reflexivity]. cbn [mapR bindR]. rewrite H4, put_hom. reflexivity.
  - destruct (Nat.eqb _ _).
    + rewrite !item_hom. destruct (item l p1); [|reflexivity]. cbn [mapR bindR]. destruct (item l _); [|reflexivity]. cbn [mapR bindR]. rewrite H4, put_hom. reflexivity.
    + rewrite !item_hom. destruct (item l p1) as [a|]; [|reflexivity]. cbn [mapR bindR]. destruct (item l (match p0 with 0 => _ | S k => k end)) as [b|]; [|reflexivity]. cbn [mapR bindR].
      rewrite H4, put_hom, !item_hom. destruct (item (put p0 (half a b) l) p0); [|reflexivity]. cbn [mapR bindR]. destruct (item (put p0 (half a b) l) _); [|reflexivity]. cbn [mapR bindR]. rewrite H4, put_hom. reflexivity.
Qed.
Lemma round_hom st i : round same' eqb' ltb' half' (h st) i = mapR h (round same eqb ltb half st i).
Proof.
  unfold round. cbn [fst snd]. destruct (item (snd st) i) as [u|]; [|reflexivity]. cbn [bindR mapR]. rewrite item_hom. destruct (item (fst st) u) as [v|]; [|reflexivity]. cbn [bindR mapR].
  rewrite positions_hom, fix_run_hom. destruct (fix_run half (fst st) _) as [s|]; [|reflexivity]. cbn [bindR mapR fst snd]. rewrite unique_hom. reflexivity.
Qed.
Lemma sweep_hom st : sweep same' eqb' ltb' half' (h st) = mapR h (sweep same eqb ltb half st).
Proof.
  unfold sweep. cbn [snd]. generalize (seq 0 (List.length (snd st))). intros is. revert st. induction is as [|i is IH]; intros st; [reflexivity|].
  cbn [fold_left bindR]. rewrite round_hom. destruct (round same eqb ltb half st i) as [s|e]; cbn [mapR bindR].
  - exact (IH s).
  - rewrite !fold_err. reflexivity.
Qed.
Lemma while_hom fuel : forall st, while same' eqb' ltb' half' fuel (h st) = option_map (mapR (map f)) (while same eqb ltb half fuel st).
Proof.
  induction fuel as [|fuel IH]; intros st; cbn [while fst snd]; rewrite map_length; destruct (Nat.eqb _ _); try reflexivity.
  pose proof (sweep_hom st) as E. cbn [fst snd] in E. rewrite E. destruct (sweep same eqb ltb half st) as [s|e]; cbn [mapR bindR]; [exact (IH s)|reflexivity].
Qed.
Lemma interp_uniq_hom fuel l : interp_uniq same' eqb' ltb' half' fuel (map f l) = option_map (mapR (map f)) (interp_uniq same eqb ltb half fuel l).
Proof. unfold interp_uniq. rewrite unique_hom. exact (while_hom fuel (l, unique_index same ltb l)). Qed.
End Hom.

(* ---- a position that is missing stays missing ---- *)
Lemma nth_put_other {A} i j (v : A) l : i <> j -> nth_error (put i v l) j = nth_error l j.
Proof. revert i j. induction l as [|x l IH]; intros [|i] [|j] H; try reflexivity; try congruence. cbn. apply IH. congruence. Qed.
Lemma positions_some v s p : In p (positions n_eqb v s) -> exists x, nth_error s p = Some (Some x).
Proof.
  unfold positions. intros H. apply in_map_iff in H as ((i & x) & <- & H). apply filter_In in H as [H E]. cbn [fst snd] in *.
  assert (N : nth_error s i = Some x).
  { apply In_nth_error in H as (k & Hk). clear E. assert (G : forall (l : list (option Q)) a k i x, nth_error (combine (seq a (List.length l)) l) k = Some (i, x) -> i = a + k /\ nth_error l k = Some x).
    { induction l as [|y l IH]; intros a k0 i0 x0 E; [destruct k0; discriminate|]. destruct k0 as [|k0]; cbn in E; [injection E as <- <-; split; [lia|reflexivity]|]. destruct (IH (S a) k0 i0 x0 E) as [-> N]. split; [lia|exact N]. }
    destruct (G s 0 k i x Hk) as [-> N]. exact N. }
  destruct x as [x|]; [|destruct v; discriminate]. exists x. exact N.
Qed.
Lemma missing_stays s v s' i : nth_error s i = Some None -> fix_run n_half s (positions n_eqb v s) = Ok s' -> nth_error s' i = Some None.
Proof.
  intros N E. assert (P : forall p, In p (positions n_eqb v s) -> p <> i).
  { intros p Hp ->. destruct (positions_some _ _ _ Hp) as (x & Hx). congruence. }
  unfold fix_run in E. destruct (positions n_eqb v s) as [|p0 [|p1 pos]]; try (injection E as <-; exact N).
  assert (PL : In (last (p0 :: p1 :: pos) p0) (p0 :: p1 :: pos)).
  { generalize (p1 :: pos). clear. intros l. generalize p0 at 1 3. revert p0. induction l as [|y l IH]; intros d a; [left; reflexivity|]. right. exact (IH d y). }
  destruct (_ && _)%bool.
  - destruct (item s (nth _ _ _)) as [a|]; [|discriminate]. cbn [bindR] in E. destruct (item s (S _)) as [b|]; [|discriminate]. cbn [bindR] in E.
    assert (X : s' = put (last (p0 :: p1 :: pos) p0) (n_half a b) s) by congruence. rewrite X, nth_put_other; [exact N|]. apply P, PL.
  - pose proof (P p0 (or_introl eq_refl)) as Q0. pose proof (P p1 (or_intror (or_introl eq_refl))) as Q1. destruct (Nat.eqb _ _).
    + destruct (item s p1) as [a|]; [|discriminate]. cbn [bindR] in E. destruct (item s _) as [b|]; [|discriminate]. cbn [bindR] in E.
      assert (X : s' = put p0 (n_half a b) s) by congruence. rewrite X, nth_put_other; [exact N|exact Q0].
    + destruct (item s p1) as [a|]; [|discriminate]. cbn [bindR] in E. destruct (item s (match p0 with O => _ | S k => k end)) as [b|]; [|discriminate]. cbn [bindR] in E.
      destruct (item (put p0 (n_half a b) s) p0) as [c|]; [|discriminate]. cbn [bindR] in E. destruct (item (put p0 (n_half a b) s) (S p1)) as [d|]; [|discriminate]. cbn [bindR] in E.
      assert (X : s' = put p1 (n_half c d) (put p0 (n_half a b) s)) by congruence. rewrite X, !nth_put_other; [exact N|exact Q0|exact Q1].
Qed.
Lemma never_missing src i j : i < j -> nth_error src i = Some None -> nth_error src j = Some None ->
  forall fuel out, interp_uniq n_same n_eqb n_lt n_half fuel src <> Some (Ok out).
Proof.
  intros L Hi Hj fuel out. apply (never n_same n_eqb n_lt n_half (fun s => nth_error s i = Some None /\ nth_error s j = Some None)); [| |auto].
  - intros s v s' [A B] _ E. split; [exact (missing_stays s v s' i A E)|exact (missing_stays s v s' j B E)].
  - intros s [A B]. exact (unique_two n_same n_lt s i j None None A B L eq_refl).
Qed.

(* ---- whatever is returned ---- *)
Section Result.
Context {T : Type} (same eqb ltb : T -> T -> bool) (half : T -> T -> T) (J : list T -> Prop).
Hypothesis J_fix : forall s v s', J s -> fix_run half s (positions eqb v s) = Ok s' -> J s'.
Lemma fold_keeps is : forall st st', J (fst st) /\ snd st = unique_index same ltb (fst st) -> fold_left (fun acc i => bindR acc (fun st => round same eqb ltb half st i)) is (Ok st) = Ok st' ->
  J (fst st') /\ snd st' = unique_index same ltb (fst st').
Proof.
  induction is as [|i is IH]; intros st st' H E; [cbn in E; injection E as <-; exact H|]. cbn [fold_left bindR] in E.
  destruct (round same eqb ltb half st i) as [s1|] eqn:R; [|rewrite fold_err in E; discriminate]. refine (IH s1 st' _ E). clear IH E.
  unfold round in R. destruct (item (snd st) i) as [u|]; [|discriminate]. cbn [bindR] in R. destruct (item (fst st) u) as [v|]; [|discriminate]. cbn [bindR] in R.
  destruct (fix_run half (fst st) (positions eqb v (fst st))) as [s|] eqn:F; [|discriminate]. cbn [mapR bindR] in R. injection R as <-. cbn [fst snd]. split; [exact (J_fix _ _ _ (proj1 H) F)|reflexivity].
Qed.
Lemma while_result fuel : forall st out, J (fst st) /\ snd st = unique_index same ltb (fst st) -> while same eqb ltb half fuel st = Some (Ok out) ->
  J out /\ List.length (unique_index same ltb out) = List.length out.
Proof.
  induction fuel as [|fuel IH]; intros st out H E; cbn [while] in E; destruct (Nat.eqb_spec (List.length (snd st)) (List.length (fst st))) as [L|L]; try discriminate.
  - injection E as <-. destruct H as [A B]. split; [exact A|]. rewrite <- B. exact L.
  - injection E as <-. destruct H as [A B]. split; [exact A|]. rewrite <- B. exact L.
  - destruct (sweep same eqb ltb half st) as [st'|] eqn:S; [|discriminate]. exact (IH st' out (fold_keeps _ _ _ H S) E).
Qed.
Lemma result fuel src out : J src -> interp_uniq same eqb ltb half fuel src = Some (Ok out) ->
  J out /\ forall i j a b, i < j -> nth_error out i = Some a -> nth_error out j = Some b -> same b a = false.
Proof.
  intros H E. destruct (while_result fuel (src, unique_index same ltb src) out (conj H eq_refl) E) as [A B]. split; [exact A|].
  intros i j a b L Ha Hb. destruct (same b a) eqn:X; [|reflexivity]. destruct (unique_two same ltb out i j a b Ha Hb L X B).
Qed.
End Result.
Lemma fix_length {T} (half : T -> T -> T) s pos s' : fix_run half s pos = Ok s' -> List.length s' = List.length s.
Proof. intros E. apply (fix_closed half (fun _ => True) s pos s'); [auto|apply Forall_forall; auto|exact E]. Qed.
Lemma result_missing fuel src out : interp_uniq n_same n_eqb n_lt n_half fuel src = Some (Ok out) ->
  List.length out = List.length src /\ (forall i, nth_error src i = Some None -> nth_error out i = Some None) /\
  (forall i j a b, i < j -> nth_error out i = Some a -> nth_error out j = Some b -> n_same b a = false).
Proof.
  intros E.
  assert (K : forall s v s', (List.length s = List.length src /\ forall i, nth_error src i = Some None -> nth_error s i = Some None) -> fix_run n_half s (positions n_eqb v s) = Ok s' ->
    List.length s' = List.length src /\ forall i, nth_error src i = Some None -> nth_error s' i = Some None).
  { intros s v s' [A B] F. split; [rewrite (fix_length _ _ _ _ F); exact A|]. intros i Hi. exact (missing_stays s v s' i (B i Hi) F). }
  destruct (result n_same n_eqb n_lt n_half _ K fuel src out (conj eq_refl (fun i H => H)) E) as [[A B] C]. auto.
Qed.
