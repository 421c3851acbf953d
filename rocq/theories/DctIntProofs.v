From Coq Require Import Reals Lra Lia.
From Verif Require Import Base RStats MetricsModel DctModel DctSpec DctAutoSpec DctProofs1 DctProofs2 DctProofs3 DctProofs4 DctProofs5 DctProofs6 DctIntModel DctIntSpec.
Open Scope R_scope.

(* ---- doubles *)
Lemma cast_double fmin nearest keep : smoothn_cast to_double fmin nearest keep = smoothn fmin nearest keep.
Proof. reflexivity. Qed.

(* ---- truncation *)
Lemma Int_part_zero x : 0 <= x < 1 -> Int_part x = 0%Z.
Proof.
  intros [A B]. destruct (base_Int_part x) as [C D]. assert (E : (Int_part x < 1)%Z) by (apply lt_IZR; lra).
  assert (F : (-1 < Int_part x)%Z) by (apply lt_IZR; lra). lia.
Qed.
Lemma to_integer_zero x : 0 <= x < 1 -> to_integer x = 0.
Proof. intros H. unfold to_integer. destruct (Rle_dec 0 x); [|lra]. rewrite Int_part_zero by exact H. reflexivity. Qed.
Lemma to_integer_nonneg x : 0 <= x -> 0 <= to_integer x.
Proof.
  intros H. unfold to_integer. destruct (Rle_dec 0 x); [|lra]. destruct (base_Int_part x) as [C D].
  assert (F : (-1 < Int_part x)%Z) by (apply lt_IZR; lra). apply IZR_le. lia.
Qed.
Lemma to_integer_is x : exists k, to_integer x = IZR k.
Proof. unfold to_integer. destruct (Rle_dec 0 x); [eexists; reflexivity|]. exists (- Int_part (- x))%Z. rewrite opp_IZR. reflexivity. Qed.

(* ---- eigenvalues *)
Lemma lambda1_slow n k : (3 * k < n)%nat -> 0 <= lambda1 n k < 1.
Proof.
  intros H. split; [apply lambda1_nonneg|]. unfold lambda1.
  assert (N : 0 < INR n) by (apply lt_0_INR; lia).
  assert (K : 3 * INR k < INR n). { replace 3 with (INR 3) by (cbn; lra). rewrite <- mult_INR. apply lt_INR. lia. }
  assert (K0 : 0 <= INR k) by apply pos_INR. pose proof PI_RGT_0 as P.
  assert (X : 0 <= PI * INR k / INR n < PI / 3).
  { split; [apply Rmult_le_pos; [nra|left; apply Rinv_0_lt_compat, N]|]. apply (Rmult_lt_reg_r (INR n)); [exact N|]. replace (PI * INR k / INR n * INR n) with (PI * INR k) by (field; lra). nra. }
  assert (C : cos (PI / 3) < cos (PI * INR k / INR n)) by (apply cos_decreasing_1; lra).
  rewrite cos_PI3 in C. lra.
Qed.
Lemma lambda_sum_cast_all cast shape m : forall p acc, (p + m = List.length shape)%nat ->
  exists l, lambda_sum_cast cast shape (List.length shape) p (seq 0 (List.length shape)) (seq p m) acc = Ok l /\
    forall k, In k (indices shape) -> l k = acc k + rsum (map (fun q => cast (lambda1 (nth q shape 0%nat) (nth q k 0%nat))) (seq p m)).
Proof.
  induction m as [|m IH]; intros p acc H.
  - exists acc. split; [reflexivity|]. intros. cbn. ring.
  - cbn [seq lambda_sum_cast].
    assert (E : exists l, lambda_entry shape (List.length shape) p p (seq 0 (List.length shape)) = Ok l /\ forall k, In k (indices shape) -> l k = lambda1 (nth p shape 0%nat) (nth p k 0%nat)).
    { destruct (lambda_sum_all shape (S m) p (fun _ => 0) H) as (l & E & L). cbn [seq lambda_sum] in E.
      unfold lambda_entry in *. destruct (nth_error shape p) as [n|] eqn:NE; [|discriminate].
      destruct (Nat.ltb 1 (countb (Nat.eqb p) (seq 0 (List.length shape))) && negb (Nat.eqb n 1))%bool; [discriminate|].
      destruct (Nat.ltb (List.length shape) (List.length shape)); [discriminate|]. cbv zeta in *.
      assert (T : (List.length shape - List.length shape + p)%nat = p) by lia. rewrite T in *.
      assert (NT : nth p shape 0%nat = n) by (apply nth_error_nth; exact NE). rewrite NT in *.
      destruct (Nat.eqb_spec n 1) as [->|N1].
      - eexists. split; [reflexivity|]. intros k K. cbn beta. f_equal.
        assert (B : (nth p k 0 < 1)%nat).
        { clear - K NE. revert p k K NE. induction shape as [|n rest IH]; intros p k K NE; [destruct p; discriminate|]. apply in_indices in K as (k0 & ks & -> & K & KS).
          destruct p as [|p]; cbn in NE |- *; [injection NE as ->; exact K|]. exact (IH p ks KS NE). }
        lia.
      - rewrite Nat.eqb_refl. eexists. split; [reflexivity|]. intros. reflexivity. }
    destruct E as (l & -> & L). cbn [bindR].
    destruct (IH (S p) (fun k => acc k + cast (l k))) as (l2 & E2 & L2); [lia|]. exists l2. split; [exact E2|]. intros k K. rewrite (L2 k K), (L k K). cbn [map rsum]. ring.
Qed.
Fixpoint lamNc (cast : R -> R) (shape k : list nat) : R :=
  match shape, k with n :: rest, k0 :: ks => cast (lambda1 n k0) + lamNc cast rest ks | _, _ => 0 end.
Lemma lamNc_sum cast shape : forall k, In k (indices shape) -> rsum (map (fun q => cast (lambda1 (nth q shape 0%nat) (nth q k 0%nat))) (seq 0 (List.length shape))) = lamNc cast shape k.
Proof.
  induction shape as [|n rest IH]; intros k K; [reflexivity|]. apply in_indices in K as (k0 & ks & -> & K & KS). cbn [List.length seq map rsum nth lamNc].
  rewrite <- (IH ks KS), <- seq_shift, map_map. reflexivity.
Qed.
Lemma lambda_cast_default cast shape : exists lam, lambda_cast cast shape None = Ok lam /\ forall k, In k (indices shape) -> lam k = lamNc cast shape k.
Proof.
  unfold lambda_cast. cbv zeta. rewrite seq_length. destruct (lambda_sum_cast_all cast shape (List.length shape) 0 (fun _ => 0) eq_refl) as (l & E & L).
  exists l. split; [exact E|]. intros k K. rewrite (L k K), (lamNc_sum cast shape k K). ring.
Qed.
Lemma lamNc_slow shape : forall k, slow shape k -> lamNc to_integer shape k = 0.
Proof.
  intros k S. induction S as [|n k0 rest ks H S IH]; [reflexivity|]. cbn [lamNc]. rewrite IH, to_integer_zero by (apply lambda1_slow, H). ring.
Qed.
Lemma lamNc_nonneg shape : forall k, 0 <= lamNc to_integer shape k.
Proof. induction shape as [|n rest IH]; intros [|k0 ks]; cbn [lamNc]; try lra. pose proof (to_integer_nonneg _ (lambda1_nonneg n k0)). pose proof (IH ks). lra. Qed.

(* ---- complete data without weights *)
Section Run.
Variable cast : R -> R.
Variable fmin : (R -> option R) -> R -> R -> R -> R.
Variable nearest : list nat -> arr bool -> index -> index.
Variable keep : nat -> nat.
Definition startc (o : options) (shape : list nat) (d : arr (option R)) : arr R :=
  match o_init o with
  | Some (_, g) => g
  | None => if weightedv o shape d then init_guess_cast cast nearest keep shape (yv o d) (fun i => negb (valid_at o d i)) else fun _ => 0
  end.
Definition outerc (o : options) (shape : list nat) (d : arr (option R)) (lam : arr R) : res (state * Z) :=
  outer (fminbound_cast cast fmin) shape (o_order o) lam (yv o d) (valid_at o d) (wv o shape d) (rfv (weightedv o shape d)) (o_smooth o) (o_tolz o) (o_robust o) (o_maxiter o) 3 0 1
           (St (startc o shape d) (startc o shape d) (TolNum 1) 0 (o_smooth o) (wv o shape d) None (weightedv o shape d)).
Definition outc (o : options) (shape : list nat) (d : arr (option R)) (st : state) (flag : Z) : outcome :=
  Out (Some (zoutv o st)) (smooth st) flag (Some (startc o shape d)) None (Some (wtot st)) (score st) (fun i => if valid_at o d i then d i else Some 0).

Lemma cast_ready o shape d lam : usable shape d o -> lambda_cast cast shape None = Ok lam ->
  smoothn_cast cast fmin nearest keep shape d o = bindR (outerc o shape d lam) (fun sf =>
    bindR (match o_smooth o, smooth (fst sf) with None, None => Err EType | _, _ => Ok tt end) (fun _ => Ok (outc o shape d (fst sf) (snd sf)))).
Proof.
  intros U L. destruct (usable_ready shape d o U) as (lam0 & (WS & SZ & D & W & _ & IS & DIM & SP) & _). pose proof U as (_ & AX & _). unfold smoothn_cast.
  assert (E1 : (match o_weights o with None => Ok (fun _ : index => Some 1) | Some (sh, w) =>
           if list_eq_dec Nat.eq_dec sh shape then if Nat.eqb (size shape) 0 then Err EValue else Ok (fun i => fdiv (w i) (arr_max shape w)) else Err EValue end) = Ok (wraw o shape)).
  { unfold wraw. unfold weights_shape_ok in WS. destruct (o_weights o) as [[sh w]|]; [|reflexivity]. destruct (list_eq_dec Nat.eq_dec sh shape) as [_|N]; [|exfalso; apply N, (WS sh w eq_refl)].
    destruct (Nat.eqb_spec (size shape) 0); [lia|reflexivity]. }
  rewrite E1. cbn [bindR]. rewrite (proj2 (Nat.ltb_ge (size shape) 2)) by exact SZ.
  match goal with |- (if existsb ?n ?l then _ else _) = _ => assert (E2 : existsb n l = false) end.
  { match goal with |- ?x = false => destruct x eqn:E end; [|reflexivity]. apply existsb_exists in E as (i & I & E). destruct (W i I) as (v & V & VP). rewrite V in E. destruct (Rlt_dec v 0); [lra|discriminate]. }
  rewrite E2, AX, L. cbn [bindR].
  assert (E3 : forall (b : bool) (g : arr R), match o_init o with Some (sh, g0) => if list_eq_dec Nat.eq_dec sh shape then Ok g0 else Err EOther | None => Ok (if b then g else fun _ => 0) end =
     Ok (match o_init o with Some (_, g0) => g0 | None => if b then g else fun _ => 0 end)).
  { intros b g. unfold init_shape_ok in IS. destruct (o_init o) as [[sh g0]|]; [|reflexivity]. destruct (list_eq_dec Nat.eq_dec sh shape) as [_|N]; [reflexivity|exfalso; apply N, (IS sh g0 eq_refl)]. }
  rewrite E3. cbn [bindR].
  assert (E4 : (Nat.eqb (List.length shape) 0 || Nat.ltb 3 (List.length shape))%bool = false).
  { apply orb_false_iff. split; [apply Nat.eqb_neq; lia|apply Nat.ltb_ge; lia]. }
  rewrite E4.
  assert (E5 : existsb (fun i => is_nan (if valid_at o d i then d i else Some 0) || is_nan (if valid_at o d i then wraw o shape i else Some 0))%bool (indices shape) = false).
  { match goal with |- ?x = false => destruct x eqn:E end; [|reflexivity]. apply existsb_exists in E as (i & I & E). destruct (W i I) as (v & V & VP). rewrite V in E. pose proof (D i I) as Di.
    destruct (if valid_at o d i then d i else Some 0); [discriminate|congruence]. }
  rewrite E5.
  assert (E6 : match o_smooth o with Some s => if Rlt_dec s 0 then true else false | None => false end = false).
  { destruct (o_smooth o) as [s|]; [|reflexivity]. pose proof (SP s eq_refl). destruct (Rlt_dec s 0); [lra|reflexivity]. }
  rewrite E6. cbn [orb]. reflexivity.
Qed.

Lemma cast_complete shape d o lam : usable shape d o -> lambda_cast cast shape None = Ok lam ->
  o_robust o = false -> (forall i, In i (indices shape) -> wv o shape d i = 1) ->
  exists out s zz, smoothn_cast cast fmin nearest keep shape d o = Ok out /\ r_flag out = 1%Z /\ r_smooth out = Some s /\ 0 < s /\ (forall s', o_smooth o = Some s' -> s = s') /\
    r_z out = Some zz /\ (forall i, In i (indices shape) -> zz i = Some (sm shape (pen lam (o_order o) s) (yv o d) i)).
Proof.
  intros U L RB W. rewrite (cast_ready o shape d lam U L). destruct U as (_ & _ & OR & _ & _ & _ & MI & TZ & SMP).
  pose proof (proj2 (weighted_false o shape d) W) as NW. unfold outerc. rewrite NW. set (start := startc o shape d).
  assert (GO : forall s, o_smooth o = Some s -> 0 <= s) by (intros s E; left; apply SMP, E).
  destruct (o_maxiter o) as [|m] eqn:EM; [lia|]. set (st0 := St start start (TolNum 1) 0 (o_smooth o) (wv o shape d) None false).
  destruct (step_ok (fminbound_cast cast fmin) shape (o_order o) lam (yv o d) (valid_at o d) (rfv false) (o_smooth o) OR GO 0 st0) as (st' & s & E & ES & SN & SG & SE & EZ & EZ0 & EW & EI & ET).
  pose proof (next_tol_unweighted _ _ _ _ _ (eq_sym ET)) as ET2.
  assert (XF : exceeds (tol st') (o_tolz o) = false). { destruct ET2 as [-> | ->]; [|reflexivity]. cbn. destruct (Rlt_dec (o_tolz o) 0); [lra|reflexivity]. }
  assert (INN : inner (fminbound_cast cast fmin) shape (o_order o) lam (yv o d) (valid_at o d) (rfv false) (o_smooth o) (o_tolz o) (S m) 0 st0 = Ok st').
  { cbn [inner]. change (exceeds (tol st0) (o_tolz o)) with (if Rlt_dec (o_tolz o) 1 then true else false). destruct (Rlt_dec (o_tolz o) 1); [|lra]. rewrite E. cbn [bindR]. destruct m; cbn [inner]; [reflexivity|]. rewrite XF. reflexivity. }
  cbn [outer]. rewrite INN, RB. cbn [bindR]. rewrite XF, andb_false_r. cbn [fst snd bindR]. rewrite ES.
  replace (match o_smooth o with Some _ | _ => Ok tt end) with (@Ok unit tt) by (destruct (o_smooth o); reflexivity). cbn [bindR].
  eexists. exists s, (zoutv o st'). split; [reflexivity|]. unfold outc. cbn [r_flag r_smooth r_z]. split; [reflexivity|]. split; [exact ES|].
  split. { destruct (o_smooth o) as [s'|] eqn:EO; [rewrite (SE s' eq_refl); apply SMP; reflexivity|apply SG; reflexivity]. }
  split; [exact SE|]. split; [reflexivity|]. intros i I. unfold zoutv.
  assert (NG : ~ gap o d i). { intros G. pose proof (W i I) as Wi. unfold wv in Wi. rewrite (proj2 (valid_gap o d i) G) in Wi. lra. }
  assert (EX : match o_exclude o with Some m => m i = false | None => True end).
  { destruct (o_exclude o) as [mm|] eqn:EE; [|exact Logic.I]. destruct (mm i) eqn:M; [|reflexivity]. exfalso. apply NG. right. exists mm. auto. }
  assert (Z : z st' i = sm shape (pen lam (o_order o) s) (yv o d) i).
  { rewrite EZ. unfold rfv. cbn [z wtot st0]. replace (1 * sm shape (pen lam (o_order o) s) (pull (wv o shape d) (yv o d) start) i + (1 - 1) * start i) with (sm shape (pen lam (o_order o) s) (pull (wv o shape d) (yv o d) start) i) by ring.
    apply sm_ext; [reflexivity| |exact I]. intros j J. unfold pull. rewrite (W j J). ring. }
  destruct (o_exclude o) as [mm|]; [rewrite EX|]; rewrite Z; reflexivity.
Qed.
End Run.
