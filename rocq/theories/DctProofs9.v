(* Proofs about smoothn, continued: every mode of operation; constant data; gaps; range of the result. *)
From Coq Require Import Lra Lia FunctionalExtensionality.
From Verif Require Import Base RStats RStatsProofs MetricsModel MetricsProofs DctModel DctSpec DctProofs1 DctProofs2 DctProofs3 DctProofs4 DctProofs5 DctProofs6 DctProofs7 DctProofs8.
Open Scope R_scope.

(* ---- the robust rounds *)
Section Rounds.
Variable fmin : (R -> option R) -> R -> R -> R -> R.
Variables (shape : list nat) (order : nat) (lam data : arr R) (valid : arr bool) (weights : arr R) (rf : R) (given : option R) (tolz : R) (robust : bool) (maxiter : nat).
Hypothesis order_ok : order = 1%nat \/ order = 2%nat.
Hypothesis given_ok : forall s, given = Some s -> 0 < s.
Hypothesis maxiter_ok : (1 <= maxiter)%nat.
Hypothesis tolz_ok : tolz < 1.
Notation step := (inner_step fmin shape order lam data valid rf given).
Lemma given_nonneg : forall s, given = Some s -> 0 <= s. Proof. intros s E. left. apply given_ok, E. Qed.
Definition fine (st : state) : Prop := exists s, smooth st = Some s /\ 0 < s /\ forall s', given = Some s' -> s = s'.
Lemma step_fine j st st' : step j st = Ok st' -> fine st' /\ wtot st' = wtot st.
Proof.
  intros E. destruct (step_ok fmin shape order lam data valid rf given order_ok given_nonneg j st) as (st1 & s & E1 & ES & SN & SG & SE & EZ & EZ0 & EW & EI & ET). rewrite E in E1. injection E1 as <-.
  split; [|exact EW]. exists s. split; [exact ES|]. split; [|exact SE]. destruct given as [s'|] eqn:G; [rewrite (SE s' eq_refl); apply given_ok; reflexivity|apply SG; reflexivity].
Qed.
Definition next_round (st : state) (w : arr R) : state := St (z st) (z0 st) (TolNum 1) (pbest st) (smooth st) (fun i => weights i * w i) (score st) true.
Lemma outer_ind (P Q : state -> Prop) :
  (forall j st st', P st \/ Q st -> step j st = Ok st' -> Q st') ->
  (forall st w, robust = true -> Q st -> (forall i, 0 <= w i <= 1) -> P (next_round st w) \/ Q (next_round st w)) ->
  forall rounds i flag st, (1 <= rounds)%nat -> (P st \/ Q st) -> tol st = TolNum 1 ->
  exists st' flag', outer fmin shape order lam data valid weights rf given tolz robust maxiter rounds i flag st = Ok (st', flag') /\ fine st' /\
    ((Q st' /\ robust = false) \/ (robust = true /\ exists st1 w, Q st1 /\ (forall i, 0 <= w i <= 1) /\ st' = next_round st1 w)) /\ (flag' = flag \/ (flag' = 3%Z /\ (maxiter <= i + rounds - 1)%nat)).
Proof.
  intros HS HR. assert (RW : forall res h m i, 0 <= robust_weights shape res h m i <= 1).
  { intros res h m i. unfold robust_weights. destruct (robust_spread shape res m) as [mad|]; [|lra]. destruct (Req_EM_T mad 0); [lra|]. destruct (Rlt_dec h 1); [|lra].
    set (u := (_ / (2385 / 1000)) ^ 2). assert (0 <= u) by apply pow2_ge_0. assert (D : 0 < 1 + u) by lra. split.
    - apply Rmult_le_pos; [lra|left; apply Rinv_0_lt_compat, D].
    - apply (Rmult_le_reg_r (1 + u)); [exact D|]. unfold Rdiv. rewrite Rmult_assoc, Rinv_l by lra. lra. }
  induction rounds as [|r IH]; intros i flag st RN PS T; [lia|]. destruct maxiter as [|m] eqn:EM; [lia|].
  assert (X : exists st1, inner fmin shape order lam data valid rf given tolz (S m) 0 st = Ok st1 /\ Q st1 /\ fine st1).
  { cbn [inner]. rewrite T. change (exceeds (TolNum 1) tolz) with (if Rlt_dec tolz 1 then true else false). destruct (Rlt_dec tolz 1); [|lra].
    destruct (step_ok fmin shape order lam data valid rf given order_ok given_nonneg 0 st) as (st1 & s & E1 & _). rewrite E1. cbn [bindR].
    destruct (inner_ind fmin shape order lam data valid rf given tolz order_ok given_nonneg (fun st => Q st /\ fine st)) with (fuel := m) (j := 1%nat) (st := st1) as (st2 & E2 & Q2 & F2).
    - intros j a b [QA FA] _ E. split; [apply (HS j a b (or_intror QA) E)|apply (step_fine j a b E)].
    - split; [apply (HS 0%nat st st1 PS E1)|apply (step_fine 0 st st1 E1)].
    - exists st2. auto. }
  destruct X as (st1 & E1 & Q1 & F1). cbn [outer]. rewrite E1. cbn [bindR].
  set (flag1 := if (Nat.leb (S m) i && exceeds (tol st1) tolz)%bool then 3%Z else flag).
  assert (FL : flag1 = flag \/ (flag1 = 3%Z /\ (S m <= i)%nat)).
  { unfold flag1. destruct (Nat.leb_spec (S m) i); cbn [andb]; [|left; reflexivity]. destruct (exceeds (tol st1) tolz); [right; auto|left; reflexivity]. }
  destruct robust eqn:ER.
  - pose proof F1 as (s & ES & SP & SE). rewrite ES. set (w := robust_weights shape _ _ _).
    assert (WR : forall i, 0 <= w i <= 1) by (intros; apply RW).
    change (St (z st1) (z0 st1) (TolNum 1) (pbest st1) (Some s) (fun i0 => weights i0 * w i0) (score st1) true) with (St (z st1) (z0 st1) (TolNum 1) (pbest st1) (Some s) (fun i0 => weights i0 * w i0) (score st1) true).
    replace (St (z st1) (z0 st1) (TolNum 1) (pbest st1) (Some s) (fun i0 => weights i0 * w i0) (score st1) true) with (next_round st1 w) by (unfold next_round; rewrite ES; reflexivity).
    destruct r as [|r].
    + cbn [outer]. exists (next_round st1 w), flag1. split; [reflexivity|]. split; [exists s; split; [exact ES|auto]|]. split; [right; split; [reflexivity|]; exists st1, w; auto|]. destruct FL as [->|[-> ?]]; [left; reflexivity|right; split; [reflexivity|lia]].
    + destruct (IH (S i) flag1 (next_round st1 w) ltac:(lia) (HR st1 w eq_refl Q1 WR) eq_refl) as (st' & fl & E' & F' & Q' & FL').
      exists st', fl. split; [exact E'|]. split; [exact F'|]. split; [exact Q'|]. destruct FL' as [->|[-> ?]]; [|right; split; [reflexivity|lia]]. destruct FL as [->|[-> ?]]; [left; reflexivity|right; split; [reflexivity|lia]].
  - exists st1, flag1. split; [reflexivity|]. split; [exact F1|]. split; [left; auto|]. destruct FL as [->|[-> ?]]; [left; reflexivity|right; split; [reflexivity|lia]].
Qed.
End Rounds.

Section Modes.
Variable fmin : (R -> option R) -> R -> R -> R -> R.
Variable nearest : list nat -> arr bool -> index -> index.
Variable keep : nat -> nat.
Notation run := (smoothn fmin nearest keep).

Lemma run_ind shape d o (P Q : state -> Prop) : usable shape d o ->
  (forall lam j st st', pen_nonneg_lam shape lam -> P st \/ Q st -> inner_step fmin shape (o_order o) lam (yv o d) (valid_at o d) (rfv (weightedv o shape d)) (o_smooth o) j st = Ok st' -> Q st') ->
  (forall st w, o_robust o = true -> Q st -> (forall i, 0 <= w i <= 1) -> P (next_round (wv o shape d) st w) \/ Q (next_round (wv o shape d) st w)) ->
  P (St (startv nearest keep o shape d) (startv nearest keep o shape d) (TolNum 1) 0 (o_smooth o) (wv o shape d) None (weightedv o shape d)) ->
  exists st flag s, run shape d o = Ok (outv nearest keep o shape d st flag) /\ smooth st = Some s /\ 0 < s /\ (forall s', o_smooth o = Some s' -> s = s') /\
    ((Q st /\ o_robust o = false) \/ (o_robust o = true /\ exists st1 w, Q st1 /\ (forall i, 0 <= w i <= 1) /\ st = next_round (wv o shape d) st1 w)) /\
    (flag = 1%Z \/ (flag = 3%Z /\ (o_maxiter o <= 2)%nat)).
Proof.
  intros U HS HR H0. destruct (usable_ready shape d o U) as (lam & RD & L). rewrite (smoothn_ready fmin nearest keep o shape d lam RD). destruct U as (_ & AX & OR & _ & _ & _ & MI & TZ & SMP).
  destruct (outer_ind fmin shape (o_order o) lam (yv o d) (valid_at o d) (wv o shape d) (rfv (weightedv o shape d)) (o_smooth o) (o_tolz o) (o_robust o) (o_maxiter o) OR SMP MI ltac:(lra) P Q
     (fun j st st' => HS lam j st st' L) HR 3 0 1 _ ltac:(lia) (or_introl H0) eq_refl) as (st & flag & E & (s & ES & SP & SE) & QS & FL).
  exists st, flag, s. unfold outerv. rewrite E. cbn [bindR fst snd]. rewrite ES. split; [destruct (o_smooth o); reflexivity|]. split; [first [exact ES|reflexivity]|]. split; [exact SP|]. split; [exact SE|]. split; [exact QS|]. destruct FL as [->|[-> ?]]; [left; reflexivity|right; split; [reflexivity|lia]].
Qed.

(* every usable call returns numbers *)
Lemma run_numbers shape d o : usable shape d o -> exists out zz s, run shape d o = Ok out /\ r_z out = Some zz /\ r_smooth out = Some s /\ 0 < s /\ (forall s', o_smooth o = Some s' -> s = s') /\
  (forall i, In i (indices shape) -> (match o_exclude o with Some m => m i = true -> zz i = o_gap o | None => True end) /\ (~ (exists m, o_exclude o = Some m /\ m i = true) -> exists v, zz i = Some v)) /\
  (r_flag out = 1%Z \/ (r_flag out = 3%Z /\ (o_maxiter o <= 2)%nat)) /\
  (exists fw, r_weights out = Some fw /\ forall i, In i (indices shape) -> 0 <= fw i <= wv o shape d i /\ (o_robust o = false -> fw i = wv o shape d i)).
Proof.
  intros U. pose proof (usable_wv shape d o U) as WV. pose proof U as (_ & _ & OR & _ & _ & _ & _ & _ & SMP).
  destruct (run_ind shape d o (fun st => wtot st = wv o shape d) (fun st => o_robust o = false -> wtot st = wv o shape d) U) as (st & flag & s & E & ES & SP & SE & QS & FL).
  - intros lam j st st' L PS E RB. destruct (step_fine fmin shape (o_order o) lam (yv o d) (valid_at o d) (rfv (weightedv o shape d)) (o_smooth o) OR SMP j st st' E) as [_ EW]. rewrite EW. destruct PS as [A|A]; auto.
  - intros st w RB _ _. right. congruence.
  - reflexivity.
  - exists (outv nearest keep o shape d st flag), (zoutv o st), s. split; [exact E|]. split; [reflexivity|]. split; [exact ES|]. split; [exact SP|]. split; [exact SE|]. split.
    { intros i I. unfold zoutv. destruct (o_exclude o) as [m|].
      - destruct (m i) eqn:M; (split; [intros; congruence || reflexivity|]); intros NX; [exfalso; apply NX; exists m; auto|eexists; reflexivity].
      - split; [exact Logic.I|]. intros _. eexists. reflexivity. }
    split; [exact FL|]. exists (wtot st). split; [reflexivity|]. intros i I. destruct (WV i I) as [_ W1].
    destruct QS as [[QS RB]|[RB (st1 & w & _ & WR & ->)]].
    + rewrite (QS RB). split; [lra|reflexivity].
    + cbn [wtot next_round]. split; [|congruence]. pose proof (WR i). split; [apply Rmult_le_pos; lra|]. assert (wv o shape d i * w i <= wv o shape d i * 1) by (apply Rmult_le_compat_l; lra). lra.
Qed.

(* constant data *)
Definition nearest_ok : Prop := forall shape mask i, In i (indices shape) -> mask i = true -> (exists j, In j (indices shape) /\ mask j = false) -> In (nearest shape mask i) (indices shape) /\ mask (nearest shape mask i) = false.
Lemma laplacian_const shape c : forall i, laplacian shape (fun _ => c) i = 0.
Proof.
  induction shape as [|n rest IH]; intros [|i0 is]; cbn [laplacian]; try reflexivity. rewrite IH. unfold second_diff. destruct (Nat.eqb i0 0), (Nat.ltb (S i0) n); ring.
Qed.
Lemma laplacian_zero shape v : (forall i, v i = 0) -> forall i, laplacian shape v i = 0.
Proof. intros H i. rewrite (functional_extensionality v (fun _ => 0) H). apply laplacian_const. Qed.
Lemma sm_const shape lam order s c q : pen_nonneg_lam shape lam -> 0 <= s -> order = 1%nat \/ order = 2%nat -> (forall i, In i (indices shape) -> q i = c) -> forall i, In i (indices shape) -> sm shape (pen lam order s) q i = c.
Proof.
  intros L SP O H. apply (sm_solves shape lam order s q (fun _ => c) L SP O). intros i I. rewrite (H i I). destruct O as [-> | ->]; unfold rough_op; cbn [Nat.eqb].
  - rewrite laplacian_const. ring.
  - rewrite laplacian_zero by (apply laplacian_const). ring.
Qed.
Lemma inside_origin shape : (forall n, In n shape -> (1 <= keep n)%nat) -> inside keep shape (origin shape) = true.
Proof.
  induction shape as [|n rest IH]; intros K; [reflexivity|]. cbn [inside origin List.length repeat]. change (repeat 0%nat (List.length rest)) with (origin rest). rewrite IH by (intros m M; apply K; right; exact M).
  pose proof (K n (or_introl eq_refl)). rewrite (proj2 (Nat.ltb_lt 0 (keep n))) by lia. reflexivity.
Qed.
Lemma guess_const shape y mask c : size shape <> 0%nat -> nearest_ok -> (forall n, In n shape -> (1 <= keep n)%nat) -> (exists j, In j (indices shape) /\ mask j = false) ->
  (forall i, In i (indices shape) -> mask i = false -> y i = c) -> forall i, In i (indices shape) -> calc_init_guess nearest keep shape y mask i = c.
Proof.
  intros SZ NO KO EX H i I. unfold calc_init_guess. set (f := fun i => if mask i then y (nearest shape mask i) else y i).
  assert (F : forall j, In j (indices shape) -> f j = c).
  { intros j J. unfold f. destruct (mask j) eqn:M; [|apply H; assumption]. destruct (NO shape mask j J M EX) as [A B]. apply H; assumption. }
  transitivity (idctNd shape (dctNd shape f) i); [|rewrite idct_dct by exact I; apply F, I]. apply idct_ext; [|exact I]. intros k K.
  destruct (list_eq_dec Nat.eq_dec k (origin shape)) as [->|NE]; [rewrite inside_origin by exact KO; reflexivity|].
  rewrite (dct_ext shape f (fun _ => c) F k K), (dct_const shape c k K NE). destruct (inside keep shape k); reflexivity.
Qed.
Lemma run_constant shape d o c : usable shape d o -> nearest_ok -> (forall n, In n shape -> (1 <= keep n)%nat) -> o_init o = None -> (exists j, In j (indices shape) /\ ~ gap o d j) ->
  values_of o shape d (fun _ => c) -> exists out zz, run shape d o = Ok out /\ r_z out = Some zz /\ forall i, In i (indices shape) -> ~ (exists m, o_exclude o = Some m /\ m i = true) -> zz i = Some c.
Proof.
  intros U NO KO IN EX VO. pose proof U as ((_ & SZ) & _ & OR & _ & _ & _ & _ & _ & SMP). assert (SN : forall s, o_smooth o = Some s -> 0 <= s) by (intros s E; left; apply SMP, E).
  assert (YC : forall i, In i (indices shape) -> valid_at o d i = true -> yv o d i = c). { intros i I V. apply (usable_yv shape d o (fun _ => c) U VO i I). apply valid_spec, V. }
  set (blank := fun st : state => forall i, In i (indices shape) -> valid_at o d i = false -> wtot st i = 0).
  assert (WB : forall i, valid_at o d i = false -> wv o shape d i = 0) by (intros i V; unfold wv; rewrite V; reflexivity).
  set (Q := fun st : state => blank st /\ forall i, In i (indices shape) -> z st i = c).
  set (P := fun st : state => wtot st = wv o shape d /\ weightedv o shape d = false).
  destruct (run_ind shape d o (fun st => P st \/ Q st) Q U) as (st & flag & s & E & ES & SP & SE & QS & FL).
  - intros lam j st st' L PS E. destruct (step_ok fmin shape (o_order o) lam (yv o d) (valid_at o d) (rfv (weightedv o shape d)) (o_smooth o) OR SN j st) as (st1 & s1 & E1 & _ & S0 & _ & _ & EZ & _ & EW & _).
    rewrite E in E1. injection E1 as <-. assert (PS' : P st \/ Q st) by tauto. destruct PS' as [[PW PF]|[QB QZ]].
    + split; [intros i I V; rewrite EW, PW; apply WB, V|]. intros i I. rewrite EZ, PF. unfold rfv. rewrite (sm_const shape lam (o_order o) s1 c) by (try assumption; intros k K; unfold pull; rewrite PW, (proj1 (weighted_false o shape d) PF k K);
        assert (V : valid_at o d k = true) by (destruct (valid_at o d k) eqn:V; [reflexivity|]; pose proof (WB k V); pose proof (proj1 (weighted_false o shape d) PF k K); lra); rewrite (YC k K V); ring). ring.
    + split; [intros i I V; rewrite EW; apply QB; assumption|]. intros i I. rewrite EZ. rewrite (QZ i I). rewrite (sm_const shape lam (o_order o) s1 c); try assumption; [ring|].
      intros k K. unfold pull. rewrite (QZ k K). destruct (valid_at o d k) eqn:V; [rewrite (YC k K V)|rewrite (QB k K V)]; ring.
  - intros st w _ [QB QZ] _. right. split; [|exact QZ]. intros i I V. cbn [wtot next_round]. rewrite (WB i V). ring.
  - destruct (weightedv o shape d) eqn:W; [right|left; split; reflexivity]. split; [intros i I V; apply WB, V|]. cbn [z]. unfold startv. rewrite IN, W.
    apply guess_const; try assumption; [lia| |].
    + destruct EX as (j & J & G). exists j. split; [exact J|]. rewrite (proj2 (valid_spec o d j) G). reflexivity.
    + intros i I M. apply YC; [exact I|]. destruct (valid_at o d i); [reflexivity|discriminate].
  - exists (outv nearest keep o shape d st flag), (zoutv o st). split; [exact E|]. split; [reflexivity|]. intros i I NX. unfold zoutv.
    assert (ZC : z st i = c). { destruct QS as [[[_ QZ] _]|[_ (st1 & w & [_ QZ] & _ & ->)]]; apply QZ, I. }
    destruct (o_exclude o) as [m|]; [|rewrite ZC; reflexivity]. destruct (m i) eqn:M; [exfalso; apply NX; exists m; auto|rewrite ZC; reflexivity].
Qed.

(* what is stored at gaps does not matter *)
Lemma run_gaps shape d d' o : (2 <= size shape)%nat -> (forall i, gap o d i <-> gap o d' i) -> (forall i, ~ gap o d i -> d i = d' i) -> run shape d o = run shape d' o.
Proof.
  intros SZ G E. unfold smoothn.
  assert (V : valid_at o d = valid_at o d'). { apply functional_extensionality. intros i. destruct (valid_at o d' i) eqn:V'; [apply valid_spec; rewrite G; apply valid_spec, V'|apply valid_gap; rewrite G; apply valid_gap, V']. }
  rewrite V. cbv zeta. rewrite (proj2 (Nat.ltb_ge (size shape) 2)) by exact SZ.
  assert (C : forall i, (if valid_at o d' i then d i else Some 0) = (if valid_at o d' i then d' i else Some 0)).
  { intros i. destruct (valid_at o d' i) eqn:V'; [|reflexivity]. apply E. apply valid_spec. rewrite V. exact V'. }
  assert (C1 := functional_extensionality _ _ C).
  assert (C2 : (fun i => match (if valid_at o d' i then d i else Some 0) with Some v => v | None => 0 end) = (fun i => match (if valid_at o d' i then d' i else Some 0) with Some v => v | None => 0 end)) by (apply functional_extensionality; intros i; rewrite C; reflexivity).
  rewrite C1, C2. f_equal. apply functional_extensionality. intros weights.
  assert (C3 : (fun i => is_nan (if valid_at o d' i then d i else Some 0) || is_nan (if valid_at o d' i then weights i else Some 0))%bool = (fun i => is_nan (if valid_at o d' i then d' i else Some 0) || is_nan (if valid_at o d' i then weights i else Some 0))%bool) by (apply functional_extensionality; intros i; rewrite C; reflexivity).
  rewrite C3. reflexivity.
Qed.
End Modes.
