(* Proofs about smoothn, continued: the initial guess, iterations without search, axes, unusable arguments. *)
From Coq Require Import Lra Lia.
From Verif Require Import Base RStats RStatsProofs MetricsModel MetricsProofs DctModel DctSpec DctProofs1 DctProofs2 DctProofs3 DctProofs4 DctProofs5 DctProofs6 DctProofs7 DctProofs8 DctProofs9 DctProofs11 DctProofs12 DctAutoSpec DctAutoProofs DctAutoProofs2.
Open Scope R_scope.

(* ---- coarse arrays *)
Fixpoint scaleN (shape : list nat) (k : index) : R :=
  match shape, k with n :: rest, k0 :: ks => sqrt ((if Nat.eqb k0 0 then 1 else 2) / INR n) * scaleN rest ks | _, _ => 1 end.
Lemma kernel_wave shape : forall k i, In k (indices shape) -> In i (indices shape) -> kernelN shape k i = scaleN shape k * wave shape k i.
Proof.
  induction shape as [|n rest IH]; intros k i K I; [apply in_indices_nil in K, I; subst; cbn; ring|].
  apply in_indices in K as (k0 & ks & -> & K0 & KS). apply in_indices in I as (i0 & is & -> & I0 & IS). cbn [kernelN scaleN wave]. rewrite (IH ks is KS IS). unfold kernel. ring.
Qed.
Lemma scaleN_pos shape : forall k, In k (indices shape) -> 0 < scaleN shape k.
Proof.
  induction shape as [|n rest IH]; intros k K; [apply in_indices_nil in K; subst; cbn; lra|].
  apply in_indices in K as (k0 & ks & -> & K0 & KS). cbn [scaleN]. apply Rmult_lt_0_compat; [|apply IH, KS]. apply sqrt_lt_R0. apply Rdiv_lt_0_compat; [destruct (Nat.eqb k0 0); lra|]. apply lt_0_INR. lia.
Qed.
Lemma inside_low keep shape : forall k, In k (indices shape) -> (inside keep shape k = true <-> Forall2 (fun k0 n => (k0 < keep n)%nat) k shape).
Proof.
  induction shape as [|n rest IH]; intros k K; [apply in_indices_nil in K; subst; cbn; split; [constructor|reflexivity]|].
  apply in_indices in K as (k0 & ks & -> & K0 & KS). cbn [inside]. rewrite andb_true_iff, Nat.ltb_lt, (IH ks KS). split; [intros [A B]; constructor; assumption|intros F; inversion F; subst; auto].
Qed.
Lemma coarse_dct keep shape v : coarse keep shape v -> forall k, In k (indices shape) -> inside keep shape k = false -> dctNd shape v k = 0.
Proof.
  intros (c & C0 & CV) k K NI.
  rewrite (dct_ext shape v (idctNd shape (fun l => c l / scaleN shape l))); [|intros i I|exact K].
  - rewrite dct_idct by exact K. rewrite C0; [unfold Rdiv; ring|exact K|]. intros F. apply (inside_low keep shape k K) in F. congruence.
  - rewrite (CV i I), idctNd_kernel by exact I. apply total_ext. intros l LL. rewrite (kernel_wave shape l i LL I). pose proof (scaleN_pos shape l LL). field. lra.
Qed.
Lemma guess_coarse keep shape c : coarse keep shape (idctNd shape (fun k => if inside keep shape k then c k else 0)).
Proof.
  exists (fun k => scaleN shape k * (if inside keep shape k then c k else 0)). split.
  - intros k K N. destruct (inside keep shape k) eqn:E; [exfalso; apply N, inside_low; assumption|ring].
  - intros i I. rewrite idctNd_kernel by exact I. apply total_ext. intros k K. rewrite (kernel_wave shape k i K I). ring.
Qed.
Lemma guess_closest keep shape f v : coarse keep shape v ->
  total shape (fun i => (f i - idctNd shape (fun k => if inside keep shape k then dctNd shape f k else 0) i) ^ 2) <= total shape (fun i => (f i - v i) ^ 2).
Proof.
  intros CV. set (g := idctNd shape _).
  assert (P : forall u, total shape (fun i => (f i - u i) ^ 2) = total shape (fun k => (dctNd shape f k - dctNd shape u k) ^ 2)).
  { intros u. rewrite (total_ext shape (fun i => (f i - u i) ^ 2) (fun i => (1 * f i + -1 * u i) * (1 * f i + -1 * u i))) by (intros; ring). rewrite <- (dct_inner shape (fun i => 1 * f i + -1 * u i) (fun i => 1 * f i + -1 * u i)).
    apply total_ext. intros k K. rewrite (dct_linear shape 1 (-1) f u k K). ring. }
  rewrite (P g), (P v). apply total_le. intros k K. unfold g. rewrite dct_idct by exact K. destruct (inside keep shape k) eqn:E.
  - replace ((dctNd shape f k - dctNd shape f k) ^ 2) with 0 by ring. apply pow2_ge_0.
  - rewrite (coarse_dct keep shape v CV k K E). lra.
Qed.

Section Call.
Variable fmin : (R -> option R) -> R -> R -> R -> R.
Variable nearest : list nat -> arr bool -> index -> index.
Variable keep : nat -> nat.
Notation run := (smoothn fmin nearest keep).

Lemma run_guess shape d o w y : usable shape d o -> o_init o = None -> weights_of o shape d w -> values_of o shape d y -> exists out g, run shape d o = Ok out /\ r_init out = Some g /\
  ((forall i, In i (indices shape) -> w i = 1) -> forall i, g i = 0) /\
  ((exists i, In i (indices shape) /\ w i <> 1) -> exists f, filled_from nearest o shape d y f /\ coarse keep shape g /\
     forall v, coarse keep shape v -> total shape (fun i => (f i - g i) ^ 2) <= total shape (fun i => (f i - v i) ^ 2)).
Proof.
  intros U IN WO VO. destruct (run_ind fmin nearest keep shape d o (fun _ => True) (fun _ => True) U) as (st & flag & s & E & ES & SP & SE & _ & _); [auto|auto|auto|].
  exists (outv nearest keep o shape d st flag), (startv nearest keep o shape d). split; [exact E|]. split; [reflexivity|]. unfold startv. rewrite IN. split.
  - intros W1. rewrite (proj2 (weighted_false o shape d)); [reflexivity|]. intros i I. rewrite <- (weights_unique shape d o w U WO i I). apply W1, I.
  - intros (i & I & N). destruct (weightedv o shape d) eqn:WD; [|exfalso; apply N; rewrite (weights_unique shape d o w U WO i I); apply (proj1 (weighted_false o shape d) WD i I)].
    unfold calc_init_guess. set (mask := fun i => negb (valid_at o d i)). set (f := fun i => if mask i then yv o d (nearest shape mask i) else yv o d i).
    exists f. split; [|split; [apply guess_coarse|intros v CV; apply guess_closest, CV]].
    exists mask. split; [intros j; unfold mask; rewrite negb_true_iff; apply valid_gap|]. intros j J. split.
    + intros NG. unfold f, mask. rewrite (proj2 (valid_spec o d j) NG). cbn [negb]. apply (usable_yv shape d o y U VO j J NG).
    + intros G NI NG. unfold f at 1. unfold mask at 1. rewrite (proj2 (valid_gap o d j) G). cbn [negb]. apply (usable_yv shape d o y U VO _ NI NG).
Qed.

(* iterations that keep the parameter *)
Lemma parameter_kept shape d o m : usable shape d o -> o_robust o = false -> o_smooth o = None -> (1 <= m)%nat -> (forall e, m <> (2 ^ e)%nat) ->
  exists out out', run shape d (with_maxiter m o) = Ok out /\ run shape d (with_maxiter (S m) o) = Ok out' /\ r_smooth out' = r_smooth out.
Proof.
  intros U RB SN M1 MP. pose proof (usable_maxiter shape d o m U M1) as U1. pose proof (usable_maxiter shape d o (S m) U ltac:(lia)) as U2.
  destruct (nonrobust_run fmin nearest keep shape d _ U1 RB) as (lam & st & s & L & LL & H & ES & SP & SE & EW & EO).
  destruct (nonrobust_run fmin nearest keep shape d _ U2 RB) as (lam' & st' & s' & L' & LL' & H' & ES' & SP' & SE' & EW' & EO').
  rewrite LL in LL'. injection LL' as <-. exists (outv nearest keep (with_maxiter m o) shape d st 1), (outv nearest keep (with_maxiter (S m) o) shape d st' 1). split; [exact EO|]. split; [exact EO'|]. unfold outv. cbn [r_smooth].
  pose proof U as ((_ & SZ) & AX & OR & _ & _ & _ & MI & TZ & SMP).
  pose proof (inner_last fmin shape (o_order o) lam (yv o d) (valid_at o d) (rfv (weightedv o shape d)) (o_smooth o) (o_tolz o) OR SMP (m - 1) 0) as IL.
  unfold innerv in H, H'. cbn [o_maxiter with_maxiter] in H, H'. change (o_order (with_maxiter m o)) with (o_order o) in H. change (o_order (with_maxiter (S m) o)) with (o_order o) in H'.
  change (o_smooth (with_maxiter m o)) with (o_smooth o) in H. change (o_smooth (with_maxiter (S m) o)) with (o_smooth o) in H'. change (o_tolz (with_maxiter m o)) with (o_tolz o) in H. change (o_tolz (with_maxiter (S m) o)) with (o_tolz o) in H'.
  change (yv (with_maxiter m o) d) with (yv o d) in H. change (yv (with_maxiter (S m) o) d) with (yv o d) in H'. change (valid_at (with_maxiter m o) d) with (valid_at o d) in H. change (valid_at (with_maxiter (S m) o) d) with (valid_at o d) in H'.
  change (weightedv (with_maxiter m o) shape d) with (weightedv o shape d) in H. change (weightedv (with_maxiter (S m) o) shape d) with (weightedv o shape d) in H'. change (wv (with_maxiter m o) shape d) with (wv o shape d) in H. change (wv (with_maxiter (S m) o) shape d) with (wv o shape d) in H'.
  change (startv nearest keep (with_maxiter m o) shape d) with (startv nearest keep o shape d) in H. change (startv nearest keep (with_maxiter (S m) o) shape d) with (startv nearest keep o shape d) in H'.
  set (st0 := St _ _ _ _ _ _ _ _) in *. assert (X : exceeds (tol st0) (o_tolz o) = true). { cbn. destruct (Rlt_dec (o_tolz o) 1); [reflexivity|lra]. }
  replace m with (S (m - 1)) in H by lia. destruct (IL st0 st X H) as (j & stp & E & EWp & _). replace (S (m - 1)) with m in H by lia.
  rewrite (inner_more fmin shape (o_order o) lam (yv o d) (valid_at o d) (rfv (weightedv o shape d)) (o_smooth o) (o_tolz o) OR m 0 st0 st H) in H'.
  destruct (exceeds (tol st) (o_tolz o)); [|injection H' as <-; reflexivity]. cbn [Nat.add plus] in H'.
  assert (W0 : forall i, In i (indices shape) -> 0 <= wv o shape d i <= 1) by (intros i I; apply (usable_wv shape d o U i I)).
  destruct (step_score fmin shape (o_order o) lam (yv o d) (valid_at o d) (rfv (weightedv o shape d)) (o_smooth o) OR SMP L SZ j stp st) as (s1 & ES1 & _ & _ & SN1 & _); [intros i I; rewrite EWp; apply W0, I|exact E|].
  destruct (step_score fmin shape (o_order o) lam (yv o d) (valid_at o d) (rfv (weightedv o shape d)) (o_smooth o) OR SMP L SZ m st st') as (s2 & ES2 & _ & _ & SN2 & _); [intros i I; rewrite EW; apply W0, I|exact H'|].
  destruct (SN1 SN) as [A _]. destruct (SN2 SN) as [B [_ C]]. rewrite ES1, ES2, A, B. rewrite C; [reflexivity|]. intros [Z|[e Z]]; [lia|apply (MP e Z)].
Qed.

(* ---- unusable arguments *)
Definition weights_fit (o : options) (shape : list nat) : Prop := forall sh w, o_weights o = Some (sh, w) -> sh = shape.
Lemma start_weights o shape : weights_fit o shape -> size shape <> 0%nat ->
  (match o_weights o with None => Ok (fun _ : index => Some 1) | Some (sh, w) =>
           if list_eq_dec Nat.eq_dec sh shape then if Nat.eqb (size shape) 0 then Err EValue else Ok (fun i => fdiv (w i) (arr_max shape w)) else Err EValue end) = Ok (wraw o shape).
Proof.
  intros WS SZ. unfold wraw, weights_fit in *. destruct (o_weights o) as [[sh w]|]; [|reflexivity]. destruct (list_eq_dec Nat.eq_dec sh shape) as [_|N]; [|exfalso; apply N, (WS sh w eq_refl)].
  destruct (Nat.eqb_spec (size shape) 0); [lia|reflexivity].
Qed.
Lemma too_few shape d o : weights_fit o shape -> size shape = 1%nat -> exists out, run shape d o = Ok out /\ r_z out = None /\ r_flag out = 2%Z /\ r_smooth out = o_smooth o /\ r_data out = d.
Proof.
  intros WS SZ. unfold smoothn. rewrite start_weights by (assumption || lia). cbn [bindR]. rewrite SZ. cbn [Nat.ltb Nat.leb]. eexists. repeat split.
Qed.
Lemma negative_weight shape d o sh v i j : o_weights o = Some (sh, v) -> sh = shape -> (2 <= size shape)%nat -> In i (indices shape) -> ~ gap o d i -> v i < 0 -> In j (indices shape) -> 0 <= v j -> run shape d o = Err EValue.
Proof.
  intros WE -> SZ I NG NEG J POS. unfold smoothn. rewrite start_weights; [|intros sh w E; congruence|lia]. cbn [bindR]. rewrite (proj2 (Nat.ltb_ge (size shape) 2)) by exact SZ.
  match goal with |- (if existsb ?n ?l then _ else _) = _ => assert (E2 : existsb n l = true); [|rewrite E2; reflexivity] end.
  apply existsb_exists. exists i. split; [exact I|]. rewrite (proj2 (valid_spec o d i) NG). unfold wraw. rewrite WE. destruct (arr_max_spec shape v ltac:(lia)) as [MX _]. pose proof (MX j J) as MJ. unfold fdiv.
  destruct (Req_EM_T (arr_max shape v) 0) as [Z|NZ]; [destruct (Rlt_dec (v i) 0); [reflexivity|contradiction]|].
  assert (v i / arr_max shape v < 0). { unfold Rdiv. assert (P : 0 < / arr_max shape v) by (apply Rinv_0_lt_compat; lra). apply Ropp_lt_cancel. rewrite Ropp_0. rewrite <- Ropp_mult_distr_l_reverse. apply Rmult_lt_0_compat; lra. }
  destruct (Rlt_dec (v i / arr_max shape v) 0); [reflexivity|contradiction].
Qed.
(* NaN in the data beside the gaps, all weights zero, or a negative parameter *)
Lemma nan_result shape d o : weights_fit o shape -> (2 <= size shape)%nat -> (1 <= List.length shape <= 3)%nat -> o_axis o = None -> init_shape_ok o shape ->
  (forall sh v, o_weights o = Some (sh, v) -> forall i, In i (indices shape) -> 0 <= v i) ->
  ((exists i, In i (indices shape) /\ d i = None /\ ~ gap o d i) \/ (exists i sh v, In i (indices shape) /\ ~ gap o d i /\ o_weights o = Some (sh, v) /\ forall j, In j (indices shape) -> v j = 0) \/ (exists s, o_smooth o = Some s /\ s < 0)) ->
  run shape d o = (if (Nat.eqb (o_order o) 1 || Nat.eqb (o_order o) 2)%bool then Ok (Out (Some (all_nan o)) None 1 None None None None (fun i => if valid_at o d i then d i else Some 0)) else Err EValue).
Proof.
  intros WS SZ DIM AX IS WP N. unfold smoothn. rewrite start_weights by (assumption || lia). cbn [bindR]. rewrite (proj2 (Nat.ltb_ge (size shape) 2)) by exact SZ.
  assert (MP : forall sh v, o_weights o = Some (sh, v) -> 0 <= arr_max shape v). { intros sh v E. destruct (arr_max_spec shape v ltac:(lia)) as [MX (j & J & <-)]. apply (WP sh v E j J). }
  match goal with |- (if existsb ?n ?l then _ else _) = _ => assert (E2 : existsb n l = false) end.
  { match goal with |- ?x = false => destruct x eqn:E end; [|reflexivity]. apply existsb_exists in E as (i & I & E). exfalso. unfold wraw in E. destruct (valid_at o d i); [|destruct (Rlt_dec 0 0); [lra|discriminate]].
    destruct (o_weights o) as [[sh v]|] eqn:EW; [|destruct (Rlt_dec 1 0); [lra|discriminate]]. pose proof (WP sh v eq_refl i I) as P1. pose proof (MP sh v eq_refl) as P2. unfold fdiv in E.
    destruct (Req_EM_T (arr_max shape v) 0); [destruct (Rlt_dec (v i) 0); [lra|discriminate]|]. destruct (Rlt_dec (v i / arr_max shape v) 0) as [LT|]; [|discriminate].
    assert (0 <= v i / arr_max shape v) by (apply Rmult_le_pos; [exact P1|left; apply Rinv_0_lt_compat; lra]). lra. }
  rewrite E2, AX. destruct (lambda_default shape) as (lam & LL & _). rewrite LL. cbn [bindR].
  assert (E3 : forall (b : bool) (g : arr R), match o_init o with Some (sh, g0) => if list_eq_dec Nat.eq_dec sh shape then Ok g0 else Err EOther | None => Ok (if b then g else fun _ => 0) end =
     Ok (match o_init o with Some (_, g0) => g0 | None => if b then g else fun _ => 0 end)).
  { intros b g. unfold init_shape_ok in IS. destruct (o_init o) as [[sh g0]|]; [|reflexivity]. destruct (list_eq_dec Nat.eq_dec sh shape) as [_|NN]; [reflexivity|exfalso; apply NN, (IS sh g0 eq_refl)]. }
  rewrite E3. cbn [bindR].
  assert (E4 : (Nat.eqb (List.length shape) 0 || Nat.ltb 3 (List.length shape))%bool = false).
  { apply orb_false_iff. split; [apply Nat.eqb_neq; lia|apply Nat.ltb_ge; lia]. }
  rewrite E4. match goal with |- (if ?c then _ else _) = _ => assert (EN : c = true); [|rewrite EN; reflexivity] end.
  apply orb_true_iff. destruct N as [(i & I & DN & NG)|[(i & sh & v & I & NG & WE & W0)|(s & SE & SN)]].
  - left. apply existsb_exists. exists i. split; [exact I|]. rewrite (proj2 (valid_spec o d i) NG), DN. reflexivity.
  - left. apply existsb_exists. exists i. split; [exact I|]. rewrite (proj2 (valid_spec o d i) NG). unfold wraw. rewrite WE. unfold fdiv. destruct (arr_max_spec shape v ltac:(lia)) as [_ (j & J & M)]. rewrite <- M, (W0 j J). destruct (Req_EM_T 0 0); [|lra]. apply orb_true_r.
  - right. rewrite SE. destruct (Rlt_dec s 0); [reflexivity|contradiction].
Qed.

(* ---- tuples of axes *)
Lemma axes_error shape d o : o_weights o = None -> (2 <= size shape)%nat -> lambda shape (o_axis o) = Err EValue -> run shape d o = Err EValue.
Proof.
  intros WN SZ LE. unfold smoothn. rewrite WN. cbn [bindR]. rewrite (proj2 (Nat.ltb_ge (size shape) 2)) by exact SZ. rewrite LE.
  match goal with |- (if existsb ?n ?l then _ else _) = _ => assert (E2 : existsb n l = false) end.
  { match goal with |- ?x = false => destruct x eqn:E end; [|reflexivity]. apply existsb_exists in E as (i & I & E). destruct (valid_at o d i); [destruct (Rlt_dec 1 0); [lra|discriminate]|destruct (Rlt_dec 0 0); [lra|discriminate]]. }
  rewrite E2. reflexivity.
Qed.
End Call.
(* an axis that is named twice *)
Lemma count_twice a l1 l2 l3 : (2 <= countb (Nat.eqb a) (l1 ++ a :: l2 ++ a :: l3))%nat.
Proof. unfold countb. rewrite filter_app, app_length. cbn [filter]. rewrite Nat.eqb_refl. cbn [List.length]. rewrite filter_app, app_length. cbn [filter]. rewrite Nat.eqb_refl. cbn [List.length]. lia. Qed.
Lemma entry_ok_or shape r p ax axes : (exists n, nth_error shape ax = Some n) -> (exists l, lambda_entry shape r p ax axes = Ok l) \/ lambda_entry shape r p ax axes = Err EValue.
Proof.
  intros (n & E). unfold lambda_entry. rewrite E. destruct (_ && _)%bool; [right; reflexivity|]. destruct (Nat.ltb _ r); [right; reflexivity|]. destruct (Nat.eqb n 1); [left; eexists; reflexivity|]. destruct (Nat.eqb n _); [left; eexists; reflexivity|right; reflexivity].
Qed.
Lemma sum_ok_or shape r axes : forall rest p acc, (forall a, In a rest -> exists n, nth_error shape a = Some n) -> (exists l, lambda_sum shape r p axes rest acc = Ok l) \/ lambda_sum shape r p axes rest acc = Err EValue.
Proof.
  induction rest as [|ax rest IH]; intros p acc H; cbn [lambda_sum]; [left; eexists; reflexivity|].
  destruct (entry_ok_or shape r p ax axes (H ax (or_introl eq_refl))) as [(l & E)|E]; rewrite E; cbn [bindR]; [apply IH; intros a A; apply H; right; exact A|right; reflexivity].
Qed.
Lemma axes_bad shape axes : (forall a, In a axes -> exists n, nth_error shape a = Some n) -> axes <> [] -> ~ axes_fit shape axes -> lambda shape (Some (AxTuple axes)) = Err EValue.
Proof.
  intros H NE NF. cbn [lambda]. destruct (sum_ok_or shape (List.length axes) axes axes 0 (fun _ => 0) H) as [(l & E)|E]; [|exact E]. exfalso. apply NF.
  assert (EN : forall rest p acc l, lambda_sum shape (List.length axes) p axes rest acc = Ok l -> forall q a, nth_error rest q = Some a -> exists e, lambda_entry shape (List.length axes) (p + q) a axes = Ok e).
  { induction rest as [|ax rest IH]; intros p acc l' E' q a A; [destruct q; discriminate|]. cbn [lambda_sum] in E'. destruct (lambda_entry shape (List.length axes) p ax axes) as [e|] eqn:EE; [|discriminate]. cbn [bindR] in E'.
    destruct q as [|q]; [injection A as ->; rewrite Nat.add_0_r; eauto|]. destruct (IH _ _ _ E' q a A) as (e' & E2). replace (p + S q)%nat with (S p + q)%nat by lia. eauto. }
  specialize (EN axes 0%nat _ l E). cbn [Nat.add] in EN. split.
  - destruct axes as [|a axes]; [congruence|]. destruct (EN 0%nat a eq_refl) as (e & E1). unfold lambda_entry in E1. destruct (nth_error shape a); [|discriminate]. destruct (_ && _)%bool; [discriminate|]. destruct (Nat.ltb_spec (List.length shape) (List.length (a :: axes))); [discriminate|lia].
  - intros p a A. destruct (EN p a A) as (e & E1). unfold lambda_entry in E1. destruct (nth_error shape a) as [n|] eqn:EA; [|discriminate]. exists n. split; [reflexivity|].
    destruct (Nat.eqb_spec n 1) as [|N1]; [left; assumption|]. right.
    destruct (Nat.ltb_spec 1 (countb (Nat.eqb a) axes)) as [|C1]; [cbn [andb negb] in E1; discriminate|]. cbn [andb negb] in E1. destruct (Nat.ltb_spec (List.length shape) (List.length axes)) as [|LA]; [discriminate|].
    destruct (Nat.eqb_spec n (nth (List.length shape - List.length axes + p) shape 0%nat)) as [EQ|]; [|discriminate]. split.
    + rewrite EQ at 1. apply nth_error_nth'. assert (p < List.length axes)%nat by (apply nth_error_Some; congruence). lia.
    + assert (1 <= countb (Nat.eqb a) axes)%nat; [|lia]. unfold countb. apply nth_error_In in A. assert (In a (filter (Nat.eqb a) axes)) by (apply filter_In; split; [exact A|apply Nat.eqb_refl]). destruct (filter (Nat.eqb a) axes); [contradiction|cbn; lia].
Qed.

(* only the number of axes counts *)
Lemma sum_congr shape r axes axes' : forall rest rest' p acc, List.length rest = List.length rest' ->
  (forall q a a', nth_error rest q = Some a -> nth_error rest' q = Some a' -> lambda_entry shape r (p + q) a axes = lambda_entry shape r (p + q) a' axes') ->
  lambda_sum shape r p axes rest acc = lambda_sum shape r p axes' rest' acc.
Proof.
  induction rest as [|a rest IH]; intros [|a' rest'] p acc LE H; try discriminate; [reflexivity|]. cbn [lambda_sum]. pose proof (H 0%nat a a' eq_refl eq_refl) as E. rewrite Nat.add_0_r in E. rewrite E.
  destruct (lambda_entry shape r p a' axes') as [e|]; [|reflexivity]. cbn [bindR]. apply IH; [cbn in LE; lia|]. intros q b b' B B'. replace (S p + q)%nat with (p + S q)%nat by lia. apply (H (S q) b b' B B').
Qed.
Lemma count_seq a s n : (s <= a < s + n)%nat -> countb (Nat.eqb a) (seq s n) = 1%nat.
Proof.
  unfold countb. revert s. induction n as [|n IH]; intros s H; [lia|]. cbn [seq filter]. destruct (Nat.eqb_spec a s) as [->|N]; [|apply IH; lia]. cbn [List.length]. f_equal.
  assert (E : filter (Nat.eqb s) (seq (S s) n) = []); [|rewrite E; reflexivity]. destruct (filter (Nat.eqb s) (seq (S s) n)) as [|x l] eqn:F; [reflexivity|]. assert (X : In x (filter (Nat.eqb s) (seq (S s) n))) by (rewrite F; left; reflexivity). apply filter_In in X as [X Y]. apply in_seq in X. apply Nat.eqb_eq in Y. lia.
Qed.
Lemma axes_last shape axes : axes_fit shape axes -> (forall n, In n shape -> (2 <= n)%nat) ->
  lambda shape (Some (AxTuple axes)) = lambda shape (Some (AxTuple (seq (List.length shape - List.length axes) (List.length axes)))).
Proof.
  intros [LA FIT] N2. cbn [lambda]. rewrite seq_length. apply sum_congr; [rewrite seq_length; reflexivity|]. intros q a a' A A'. cbn [Nat.add].
  destruct (FIT q a A) as (n & EN & [->|[ET C]]); [apply nth_error_In in EN; specialize (N2 _ EN); lia|].
  assert (Q : (q < List.length axes)%nat) by (apply nth_error_Some; congruence).
  assert (EA' : a' = (List.length shape - List.length axes + q)%nat). { apply (nth_error_nth _ _ 0%nat) in A'. rewrite seq_nth in A' by exact Q. lia. }
  subst a'. unfold lambda_entry. rewrite EN, ET, C. rewrite count_seq by lia. reflexivity.
Qed.
