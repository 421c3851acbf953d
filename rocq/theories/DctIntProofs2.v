From Coq Require Import Reals Lra Lia.
From Verif Require Import Base RStats MetricsModel DctModel DctSpec DctAutoSpec DctProofs1 DctProofs2 DctProofs3 DctProofs4 DctProofs5 DctProofs6 DctProofs11 DctAutoProofs4 DctIntModel DctIntSpec DctIntProofs.
Open Scope R_scope.

Lemma dct_wave shape k v : In k (indices shape) -> dctNd shape v k = scaleN shape k * total shape (fun i => wave shape k i * v i).
Proof.
  intros K. rewrite dctNd_kernel by exact K. rewrite <- total_scal. apply total_ext. intros i I. rewrite (kernel_wave shape k i K I). ring.
Qed.
Lemma lambda1_pos n k : (0 < k < n)%nat -> 0 < lambda1 n k.
Proof.
  intros H. unfold lambda1. assert (N : 0 < INR n) by (apply lt_0_INR; lia). assert (K0 : 0 < INR k) by (apply lt_0_INR; lia). assert (K : INR k < INR n) by (apply lt_INR; lia). pose proof PI_RGT_0 as P.
  assert (X : 0 < PI * INR k / INR n < PI).
  { split; [apply Rmult_lt_0_compat; [nra|apply Rinv_0_lt_compat, N]|]. apply (Rmult_lt_reg_r (INR n)); [exact N|]. replace (PI * INR k / INR n * INR n) with (PI * INR k) by (field; lra). nra. }
  assert (C : cos (PI * INR k / INR n) < cos 0) by (apply cos_decreasing_1; lra). rewrite cos_0 in C. lra.
Qed.
Lemma lamN_pos shape : forall k, In k (indices shape) -> (exists k0, In k0 k /\ (0 < k0)%nat) -> 0 < lamN shape k.
Proof.
  induction shape as [|n rest IH]; intros k K (k1 & I1 & P1).
  - apply in_indices_nil in K as ->. destruct I1.
  - apply in_indices in K as (k0 & ks & -> & K & KS). cbn [lamN]. destruct I1 as [-> | I1].
    + pose proof (lambda1_pos n k1 (conj P1 K)). pose proof (lamN_nonneg rest ks). lra.
    + pose proof (lambda1_nonneg n k0). pose proof (IH ks KS (ex_intro _ k1 (conj I1 P1))). lra.
Qed.

Section Calls.
Variable fmin : (R -> option R) -> R -> R -> R -> R.
Variable nearest : list nat -> arr bool -> index -> index.
Variable keep : nat -> nat.

Lemma typed_complete shape d o y : usable shape d o -> o_robust o = false -> complete shape d o y ->
  exists out s u, smoothn_cast to_integer fmin nearest keep shape d o = Ok out /\ r_flag out = 1%Z /\ r_smooth out = Some s /\ 0 < s /\ (forall s', o_smooth o = Some s' -> s = s') /\ gives shape out u /\
    forall k, In k (indices shape) -> (1 + s * lamNc to_integer shape k ^ o_order o) * total shape (fun i => wave shape k i * u i) = total shape (fun i => wave shape k i * y i).
Proof.
  intros U RB C. destruct (lambda_cast_default to_integer shape) as (lam & L & LN).
  destruct (cast_complete to_integer fmin nearest keep shape d o lam U L RB (complete_weights shape d o y U C)) as (out & s & zz & A & B & E & D & F & G & H).
  exists out, s, (sm shape (pen lam (o_order o) s) (yv o d)). repeat (split; [assumption|]). split; [exists zz; split; assumption|]. intros k K.
  assert (P : forall k, In k (indices shape) -> 0 <= pen lam (o_order o) s k).
  { intros k1 K1. unfold pen. rewrite (LN k1 K1). apply Rmult_le_pos; [lra|]. apply pow_le, lamNc_nonneg. }
  pose proof (sm_coeff shape (pen lam (o_order o) s) P (yv o d) k K) as X. unfold pen in X at 1. rewrite (LN k K) in X. rewrite !dct_wave in X by exact K.
  pose proof (scaleN_pos shape k K) as SP.
  rewrite (total_ext shape (fun i => wave shape k i * yv o d i) (fun i => wave shape k i * y i)) in X by (intros i I; rewrite (complete_values shape d o y U C i I); reflexivity).
  apply (Rmult_eq_reg_l (scaleN shape k)); [|lra]. rewrite <- X. ring.
Qed.
Lemma slow_kept shape d o y : usable shape d o -> o_robust o = false -> complete shape d o y ->
  exists out u, smoothn_cast to_integer fmin nearest keep shape d o = Ok out /\ gives shape out u /\
    forall k, In k (indices shape) -> slow shape k -> total shape (fun i => wave shape k i * u i) = total shape (fun i => wave shape k i * y i).
Proof.
  intros U RB C. pose proof U as (_ & _ & OR & _). destruct (typed_complete shape d o y U RB C) as (out & s & u & A & _ & _ & _ & _ & G & H). exists out, u. split; [exact A|]. split; [exact G|].
  intros k K S. rewrite <- (H k K), (lamNc_slow shape k S). destruct OR as [-> | ->]; cbn [pow]; ring.
Qed.
Lemma damped shape d o y : usable shape d o -> o_robust o = false -> complete shape d o y ->
  exists out s u, smoothn fmin nearest keep shape d o = Ok out /\ r_smooth out = Some s /\ 0 < s /\ (forall s', o_smooth o = Some s' -> s = s') /\ gives shape out u /\
    forall k, In k (indices shape) -> (1 + s * lamN shape k ^ o_order o) * total shape (fun i => wave shape k i * u i) = total shape (fun i => wave shape k i * y i).
Proof.
  intros U RB C. destruct (complete_smooth fmin nearest keep shape d o y U RB C) as (out & s & lam & A & B & E & D & F & LP & L & G).
  exists out, s, (sm shape (pen lam (o_order o) s) y). repeat (split; [assumption|]). intros k K. destruct (lambda_default shape) as (lam2 & L2 & LN). assert (EL : lam2 = lam) by congruence. subst lam2.
  assert (P : forall k, In k (indices shape) -> 0 <= pen lam (o_order o) s k).
  { intros k1 K1. unfold pen. rewrite (LN k1 K1). apply Rmult_le_pos; [lra|]. apply pow_le, lamN_nonneg. }
  pose proof (sm_coeff shape (pen lam (o_order o) s) P y k K) as X. unfold pen in X at 1. rewrite (LN k K) in X. rewrite !dct_wave in X by exact K.
  pose proof (scaleN_pos shape k K) as SP. apply (Rmult_eq_reg_l (scaleN shape k)); [|lra]. rewrite <- X. ring.
Qed.
(* the two results differ if the data contain a slow wave *)
Lemma differ shape d o y k : usable shape d o -> o_robust o = false -> complete shape d o y ->
  In k (indices shape) -> slow shape k -> (exists k0, In k0 k /\ (0 < k0)%nat) -> total shape (fun i => wave shape k i * y i) <> 0 ->
  exists out out' u u', smoothn fmin nearest keep shape d o = Ok out /\ smoothn_cast to_integer fmin nearest keep shape d o = Ok out' /\ gives shape out u /\ gives shape out' u' /\
    exists i, In i (indices shape) /\ u i <> u' i.
Proof.
  intros U RB C K S PK NZ. destruct (damped shape d o y U RB C) as (out & s & u & A & _ & D & _ & G & H). destruct (slow_kept shape d o y U RB C) as (out' & u' & A' & G' & H').
  exists out, out', u, u'. repeat (split; [assumption|]). specialize (H k K). specialize (H' k K S). pose proof (lamN_pos shape k K PK) as LP.
  destruct (Forall_Exists_dec (fun i => u i = u' i) (fun i => Req_EM_T (u i) (u' i)) (indices shape)) as [F|E].
  - exfalso. rewrite Forall_forall in F. rewrite (total_ext shape (fun i => wave shape k i * u i) (fun i => wave shape k i * u' i)) in H by (intros i I; rewrite (F i I); reflexivity).
    rewrite H' in H. assert (0 < s * lamN shape k ^ o_order o) by (apply Rmult_lt_0_compat; [exact D|apply pow_lt, LP]). apply NZ. nra.
  - apply Exists_exists in E as (i & I & N). exists i. split; assumption.
Qed.

(* ---- the smoothing parameter *)
Definition tenth (s : option R) : Prop := s = None \/ exists e : Z, s = Some (powerRZ 10 e).
Definition int_state (st : state) : Prop := (exists e, pbest st = IZR e) /\ tenth (smooth st).
Lemma pow10_int e : pow10 (IZR e) = powerRZ 10 e.
Proof. unfold pow10. rewrite powerRZ_Rpower by lra. reflexivity. Qed.
Lemma step_int shape order lam data valid rf j st st' : int_state st ->
  inner_step (fminbound_cast to_integer fmin) shape order lam data valid rf None j st = Ok st' -> int_state st'.
Proof.
  intros [(e & PE) _] E. unfold inner_step in E. cbv zeta in E.
  match type of E with context [if (Nat.eqb j 0 || power_of_two j)%bool then ?a else ?b] => set (p0 := if (Nat.eqb j 0 || power_of_two j)%bool then a else b) in E end.
  assert (PI' : exists e', p0 = IZR e').
  { subst p0. destruct (Nat.eqb j 0 || power_of_two j)%bool; [unfold fminbound_cast; apply to_integer_is|exists e; exact PE]. }
  clearbody p0. destruct PI' as (e' & ->).
  destruct (gcv _ _ _ _ _ _ _) as [sg|] in E; [|discriminate]. cbn [bindR] in E. injection E as <-. split; cbn [pbest smooth]; [exists e'; reflexivity|].
  right. exists e'. rewrite pow10_int. reflexivity.
Qed.
Lemma inner_int shape order lam data valid rf tolz : forall fuel j st st', int_state st ->
  inner (fminbound_cast to_integer fmin) shape order lam data valid rf None tolz fuel j st = Ok st' -> int_state st'.
Proof.
  induction fuel as [|f IH]; intros j st st' P E; cbn [inner] in E; [injection E as <-; exact P|].
  destruct (exceeds (tol st) tolz); [|injection E as <-; exact P].
  destruct (inner_step _ _ _ _ _ _ _ _ _ _) as [st1|] eqn:E1 in E; [|discriminate]. cbn [bindR] in E. exact (IH _ _ _ (step_int _ _ _ _ _ _ _ _ _ P E1) E).
Qed.
Lemma outer_int shape order lam data valid weights rf tolz robust maxiter : forall rounds i flag st r, int_state st ->
  outer (fminbound_cast to_integer fmin) shape order lam data valid weights rf None tolz robust maxiter rounds i flag st = Ok r -> int_state (fst r).
Proof.
  induction rounds as [|n IH]; intros i flag st r P E; cbn [outer] in E; [injection E as <-; exact P|].
  destruct (inner _ _ _ _ _ _ _ _ _ _ _ _) as [st1|] eqn:E1 in E; [|discriminate]. cbn [bindR] in E. pose proof (inner_int _ _ _ _ _ _ _ _ _ _ _ P E1) as P1.
  destruct robust; [|injection E as <-; exact P1]. destruct (smooth st1) as [s|] eqn:ES; [|discriminate].
  apply (IH _ _ _ _) in E; [exact E|]. split; [exact (proj1 P1)|]. cbn [smooth]. rewrite <- ES. exact (proj2 P1).
Qed.
Lemma power_of_ten shape d o out s : o_smooth o = None -> smoothn_cast to_integer fmin nearest keep shape d o = Ok out -> r_smooth out = Some s -> exists e : Z, s = powerRZ 10 e.
Proof.
  intros SN E ES. unfold smoothn_cast in E. rewrite SN in E.
  destruct (match o_weights o with None => _ | Some _ => _ end) as [ws|]; [|discriminate]. cbn [bindR] in E.
  destruct (Nat.ltb (size shape) 2); [assert (X : out = Out None None 2 None None None None d) by congruence; rewrite X in ES; discriminate|]. cbv zeta in E.
  destruct (existsb _ _) in E; [discriminate|]. destruct (lambda_cast _ _ _) as [lam|]; [|discriminate]. cbn [bindR] in E.
  destruct (match o_init o with Some _ => _ | None => _ end) as [start|]; [|discriminate]. cbn [bindR] in E.
  destruct (Nat.eqb (List.length shape) 0 || Nat.ltb 3 (List.length shape))%bool; [discriminate|].
  match type of E with (if ?b then _ else _) = _ => destruct b end.
  - destruct (Nat.eqb (o_order o) 1 || Nat.eqb (o_order o) 2)%bool; [|discriminate].
    assert (X : r_smooth out = None) by (match type of E with Ok ?v = _ => assert (Y : v = out) by congruence end; rewrite <- Y; reflexivity). congruence.
  - destruct (outer _ _ _ _ _ _ _ _ _ _ _ _ _ _ _ _) as [sf|] eqn:EO in E; [|discriminate]. cbn [bindR] in E.
    assert (P : int_state (fst sf)) by (eapply outer_int; [|exact EO]; split; [exists 0%Z; reflexivity|left; reflexivity]).
    destruct (smooth (fst sf)) as [s1|] eqn:S1; [|discriminate]. cbn [bindR] in E.
    assert (X : r_smooth out = Some s1) by (match type of E with Ok ?v = _ => assert (Y : v = out) by congruence end; rewrite <- Y; reflexivity).
    destruct P as [_ [P|(e & P)]]; [congruence|]. exists e. congruence.
Qed.
(* ---- the initial guess *)
Lemma initial_integers shape d o out g : o_init o = None -> smoothn_cast to_integer fmin nearest keep shape d o = Ok out -> r_init out = Some g -> forall i, exists v, g i = IZR v.
Proof.
  intros IN E EG i. unfold smoothn_cast in E. rewrite IN in E.
  destruct (match o_weights o with None => _ | Some _ => _ end) as [ws|]; [|discriminate]. cbn [bindR] in E.
  destruct (Nat.ltb (size shape) 2); [assert (X : r_init out = None) by (match type of E with Ok ?v = _ => assert (Y : v = out) by congruence end; rewrite <- Y; reflexivity); congruence|]. cbv zeta in E.
  destruct (existsb _ _) in E; [discriminate|]. destruct (lambda_cast _ _ _) as [lam|]; [|discriminate]. cbn [bindR] in E.
  destruct (Nat.eqb (List.length shape) 0 || Nat.ltb 3 (List.length shape))%bool; [discriminate|].
  match type of E with (if ?b then _ else _) = _ => destruct b end.
  - destruct (Nat.eqb (o_order o) 1 || Nat.eqb (o_order o) 2)%bool; [|discriminate].
    assert (X : r_init out = None) by (match type of E with Ok ?v = _ => assert (Y : v = out) by congruence end; rewrite <- Y; reflexivity). congruence.
  - destruct (outer _ _ _ _ _ _ _ _ _ _ _ _ _ _ _ _) as [sf|] eqn:EO in E; [|discriminate]. cbn [bindR] in E.
    destruct (match o_smooth o with Some _ => _ | None => _ end) as [u|]; [|discriminate]. cbn [bindR] in E.
    match type of E with Ok (Out _ _ _ (Some ?x) _ _ _ _) = _ => assert (X : r_init out = Some x) by (match type of E with Ok ?v = _ => assert (Y : v = out) by congruence end; rewrite <- Y; reflexivity) end.
    rewrite X in EG. match type of EG with Some ?x = Some ?y => assert (Y : x = y) by congruence end. rewrite <- Y.
    match goal with |- exists v, (if ?b then _ else _) i = _ => destruct b end; [unfold init_guess_cast; apply to_integer_is|exists 0%Z; reflexivity].
Qed.
End Calls.
