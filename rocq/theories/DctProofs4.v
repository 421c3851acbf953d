(* Proofs about smoothn: the iteration, and what it is given. *)
From Coq Require Import Lra Lia.
From Verif Require Import Base RStats RStatsProofs MetricsModel MetricsProofs DctModel DctSpec DctProofs1 DctProofs2 DctProofs3.
Open Scope R_scope.

Lemma valid_spec o d i : valid_at o d i = true <-> ~ gap o d i.
Proof.
  unfold valid_at, gap. rewrite andb_true_iff.
  assert (A : match o_gap o with None => np_isfinite (d i) | Some g => match d i with Some v => if Req_EM_T v g then false else true | None => true end end = true <-> d i <> o_gap o).
  { destruct (o_gap o) as [g|], (d i) as [v|]; cbn; try (split; congruence). destruct (Req_EM_T v g); split; congruence. }
  rewrite A. destruct (o_exclude o) as [m|].
  - split.
    + intros [H1 H2] [G|(m' & E & G)]; [contradiction|]. injection E as <-. rewrite G in H2. discriminate.
    + intros H. split; [tauto|]. destruct (m i) eqn:E; [|reflexivity]. exfalso. apply H. right. exists m. auto.
  - split; [intros [H1 _] [G|(m' & E & _)]; [contradiction|discriminate]|tauto].
Qed.

(* the largest weight *)
Lemma fold_max (f : index -> R) l : forall m, m <= fold_left (fun m j => Rmax m (f j)) l m /\
  (forall j, In j l -> f j <= fold_left (fun m j => Rmax m (f j)) l m) /\
  (fold_left (fun m j => Rmax m (f j)) l m = m \/ exists j, In j l /\ f j = fold_left (fun m j => Rmax m (f j)) l m).
Proof.
  induction l as [|a l IH]; intros m; cbn [fold_left].
  - split; [lra|]. split; [intros j []|left; reflexivity].
  - destruct (IH (Rmax m (f a))) as (A & B & C). pose proof (Rmax_l m (f a)). pose proof (Rmax_r m (f a)). split; [lra|]. split.
    + intros j [<-|J]; [lra|apply B, J].
    + destruct C as [C|(j & J & C)]; [|right; exists j; split; [right|]; assumption].
      destruct (Rle_dec m (f a)) as [L|L]; [right|left].
      * exists a. split; [left; reflexivity|]. rewrite C. rewrite Rmax_right by exact L. reflexivity.
      * rewrite C. rewrite Rmax_left by lra. reflexivity.
Qed.
Lemma arr_max_spec shape w : size shape <> 0%nat -> (forall j, In j (indices shape) -> w j <= arr_max shape w) /\ exists j, In j (indices shape) /\ w j = arr_max shape w.
Proof.
  unfold size, arr_max. destruct (indices shape) as [|i l]; [cbn; congruence|]. intros _. destruct (fold_max w l (w i)) as (A & B & C). split.
  - intros j [<-|J]; [exact A|apply B, J].
  - destruct C as [C|(j & J & C)]; [exists i; split; [left; reflexivity|congruence]|exists j; split; [right; exact J|exact C]].
Qed.

(* the arguments of the iteration *)
Definition yv (o : options) (d : arr (option R)) : arr R := fun i => match (if valid_at o d i then d i else Some 0) with Some v => v | None => 0 end.
Definition wraw (o : options) (shape : list nat) : arr (option R) :=
  match o_weights o with None => fun _ => Some 1 | Some (_, w) => fun i => fdiv (w i) (arr_max shape w) end.
Definition wv (o : options) (shape : list nat) (d : arr (option R)) : arr R := fun i => match (if valid_at o d i then wraw o shape i else Some 0) with Some v => v | None => 0 end.
Definition weightedv (o : options) (shape : list nat) (d : arr (option R)) : bool := existsb (fun i => if Req_EM_T (wv o shape d i) 1 then false else true) (indices shape).
Definition rfv (b : bool) : R := if b then 7 / 4 else 1.

Section Run.
Variable fmin : (R -> option R) -> R -> R -> R -> R.
Variable nearest : list nat -> arr bool -> index -> index.
Variable keep : nat -> nat.
Notation run := (smoothn fmin nearest keep).
Definition startv (o : options) (shape : list nat) (d : arr (option R)) : arr R :=
  match o_init o with
  | Some (_, g) => g
  | None => if weightedv o shape d then calc_init_guess nearest keep shape (yv o d) (fun i => negb (valid_at o d i)) else fun _ => 0
  end.
Definition outerv (o : options) (shape : list nat) (d : arr (option R)) (lam : arr R) : res (state * Z) :=
  outer fmin shape (o_order o) lam (yv o d) (valid_at o d) (wv o shape d) (rfv (weightedv o shape d)) (o_smooth o) (o_tolz o) (o_robust o) (o_maxiter o) 3 0 1
           (St (startv o shape d) (startv o shape d) (TolNum 1) 0 (o_smooth o) (wv o shape d) None (weightedv o shape d)).
Definition zoutv (o : options) (st : state) : arr (option R) := fun i => match o_exclude o with Some m => if m i then o_gap o else Some (z st i) | None => Some (z st i) end.
Definition outv (o : options) (shape : list nat) (d : arr (option R)) (st : state) (flag : Z) : outcome :=
  Out (Some (zoutv o st)) (smooth st) flag (Some (startv o shape d)) None (Some (wtot st)) (score st) (fun i => if valid_at o d i then d i else Some 0).

(* the conditions under which the iteration is reached *)
Definition weights_shape_ok (o : options) (shape : list nat) : Prop := forall sh w, o_weights o = Some (sh, w) -> sh = shape.
Definition init_shape_ok (o : options) (shape : list nat) : Prop := forall sh w, o_init o = Some (sh, w) -> sh = shape.
Definition ready (o : options) (shape : list nat) (d : arr (option R)) (lam : arr R) : Prop :=
  weights_shape_ok o shape /\ (2 <= size shape)%nat /\
  (forall i, In i (indices shape) -> (if valid_at o d i then d i else Some 0) <> None) /\
  (forall i, In i (indices shape) -> exists v, (if valid_at o d i then wraw o shape i else Some 0) = Some v /\ 0 <= v) /\
  lambda shape (o_axis o) = Ok lam /\ init_shape_ok o shape /\ (1 <= List.length shape <= 3)%nat /\ (forall s, o_smooth o = Some s -> 0 <= s).

Lemma smoothn_ready o shape d lam : ready o shape d lam ->
  run shape d o = bindR (outerv o shape d lam) (fun sf =>
    bindR (match o_smooth o, smooth (fst sf) with None, None => Err EType | _, _ => Ok tt end) (fun _ => Ok (outv o shape d (fst sf) (snd sf)))).
Proof.
  intros (WS & SZ & D & W & L & IS & DIM & SP). unfold smoothn.
  assert (E1 : (match o_weights o with None => Ok (fun _ : index => Some 1) | Some (sh, w) =>
           if list_eq_dec Nat.eq_dec sh shape then if Nat.eqb (size shape) 0 then Err EValue else Ok (fun i => fdiv (w i) (arr_max shape w)) else Err EValue end) = Ok (wraw o shape)).
  { unfold wraw. unfold weights_shape_ok in WS. destruct (o_weights o) as [[sh w]|]; [|reflexivity]. destruct (list_eq_dec Nat.eq_dec sh shape) as [_|N]; [|exfalso; apply N, (WS sh w eq_refl)].
    destruct (Nat.eqb_spec (size shape) 0); [lia|reflexivity]. }
  rewrite E1. cbn [bindR]. rewrite (proj2 (Nat.ltb_ge (size shape) 2)) by exact SZ.
  match goal with |- (if existsb ?n ?l then _ else _) = _ => assert (E2 : existsb n l = false) end.
  { match goal with |- ?x = false => destruct x eqn:E end; [|reflexivity]. apply existsb_exists in E as (i & I & E). destruct (W i I) as (v & V & VP). rewrite V in E. destruct (Rlt_dec v 0); [lra|discriminate]. }
  rewrite E2, L. cbn [bindR].
  match goal with |- bindR (match o_init o with _ => _ end) _ = _ => idtac end.
  assert (E3 : forall (b : bool) (g : arr R), match o_init o with Some (sh, g0) => if list_eq_dec Nat.eq_dec sh shape then Ok g0 else Err EOther | None => Ok (if b then g else fun _ => 0) end =
     Ok (match o_init o with Some (_, g0) => g0 | None => if b then g else fun _ => 0 end)).
  { intros b g. unfold init_shape_ok in IS. destruct (o_init o) as [[sh g0]|]; [|reflexivity]. destruct (list_eq_dec Nat.eq_dec sh shape) as [_|N]; [reflexivity|exfalso; apply N, (IS sh g0 eq_refl)]. }
  rewrite E3. cbn [bindR].
  assert (E4 : (Nat.eqb (List.length shape) 0 || Nat.ltb 3 (List.length shape))%bool = false).
  { apply orb_false_iff. split; [apply Nat.eqb_neq; lia|apply Nat.ltb_ge; lia]. }
  rewrite E4.
  assert (E5 : existsb (fun i => is_nan (if valid_at o d i then d i else Some 0) || is_nan (if valid_at o d i then wraw o shape i else Some 0))%bool (indices shape) = false).
  { match goal with |- ?x = false => destruct x eqn:E end; [|reflexivity]. apply existsb_exists in E as (i & I & E). destruct (W i I) as (v & V & VP). rewrite V in E. pose proof (D i I) as Di.
    destruct (if valid_at o d i then d i else Some 0); [discriminate|congruence]. }
  rewrite E5.
  assert (E6 : match o_smooth o with Some s => if Rlt_dec s 0 then true else false | None => false end = false).
  { destruct (o_smooth o) as [s|]; [|reflexivity]. pose proof (SP s eq_refl). destruct (Rlt_dec s 0); [lra|reflexivity]. }
  rewrite E6. cbn [orb]. reflexivity.
Qed.
End Run.

(* ---- one iteration *)
Definition pen (lam : arr R) (order : nat) (s : R) : arr R := fun k => s * lam k ^ order.
Lemma pow10_log10 s : 0 < s -> pow10 (log10 s) = s.
Proof.
  intros H. unfold pow10, log10, Rpower. assert (ln 10 <> 0). { assert (0 < ln 10) by (rewrite <- ln_1; apply ln_increasing; lra). lra. }
  replace (ln s / ln 10 * ln 10) with (ln s) by (field; assumption). apply exp_ln, H.
Qed.
Lemma pow10_pos p : 0 < pow10 p. Proof. apply exp_pos. Qed.

Section Step.
Variable fmin : (R -> option R) -> R -> R -> R -> R.
Variables (shape : list nat) (order : nat) (lam data : arr R) (valid : arr bool) (weights : arr R) (rf : R) (given : option R) (tolz : R).
Hypothesis order_ok : order = 1%nat \/ order = 2%nat.
Hypothesis given_ok : forall s, given = Some s -> 0 <= s.

Lemma step_ok j st : exists st' s, inner_step fmin shape order lam data valid rf given j st = Ok st' /\
  smooth st' = Some s /\ 0 <= s /\ (given = None -> 0 < s) /\ (forall s', given = Some s' -> s = s') /\
  z st' = (fun i => rf * sm shape (pen lam order s) (pull (wtot st) data (z st)) i + (1 - rf) * z st i) /\
  z0 st' = z st' /\ wtot st' = wtot st /\ isweighted st' = isweighted st /\ tol st' = next_tol shape (isweighted st) valid (z st') (z0 st).
Proof.
  unfold inner_step. set (c := dctNd shape _). set (p := match given with Some s => log10 s | None => _ end).
  set (s := match given with Some s => if Req_EM_T s 0 then 0 else pow10 p | None => pow10 p end).
  assert (O : (Nat.eqb order 1 || Nat.eqb order 2)%bool = true) by (destruct order_ok as [-> | ->]; reflexivity).
  unfold gcv at 1. rewrite O. cbn [bindR snd fst]. eexists. exists s. split; [reflexivity|]. cbn [smooth z z0 wtot isweighted tol].
  assert (S0 : 0 <= s /\ (given = None -> 0 < s) /\ (forall s', given = Some s' -> s = s')).
  { subst s p. destruct given as [s'|].
    - pose proof (given_ok s' eq_refl) as P. destruct (Req_EM_T s' 0) as [->|NZ].
      + split; [lra|]. split; [discriminate|]. intros ? [= <-]. reflexivity.
      + rewrite pow10_log10 by lra. split; [exact P|]. split; [discriminate|]. intros ? [= <-]. reflexivity.
    - pose proof (pow10_pos (if (Nat.eqb j 0 || power_of_two j)%bool then fmin (fun p : R => match gcv shape (pow10 p) lam c (fun i : index => Some (data i)) order (weights_arg shape (wtot st)) with Ok r => fst r | Err _ => None end)
         (log10 (s_bound order (List.length shape) (99 / 100))) (log10 (s_bound order (List.length shape) (1 / 1000000))) (1 / 10) else pbest st)). 
      split; [lra|]. split; [intros _; assumption|discriminate]. }
  destruct S0 as (A & B & C). repeat split; assumption.
Qed.
End Step.
