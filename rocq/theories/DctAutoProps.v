(* Theorems about the smoothing parameter, the score, the initial guess and the robust weights of smoothn (C88), and
   more about C75, C77 and C78.  `fmin`, `nearest` and `keep` are as in DctProps.v. *)
From Coq Require Import Lra Lia.
From Verif Require Import Base RStats MetricsModel DctModel DctSpec DctProofs4 DctProofs5 DctProofs8 DctProofs9 DctProofs11 DctProofs12 DctAutoSpec DctAutoProofs DctAutoProofs2 DctAutoProofs3 DctAutoProofs4 DctAutoProofs5 DctAutoProofs6.
Open Scope R_scope.

(* complete data, automatic parameter *)
Definition o_auto (order : nat) (robust : bool) : options := Opts None None None order None robust 100 (1 / 1000) None None.
Lemma auto_usable order robust : order = 1%nat \/ order = 2%nat -> usable [3%nat] d_peak (o_auto order robust).
Proof.
  intros O. destruct peak_usable as (A & _ & _ & _ & _ & G & _). split; [exact A|]. split; [reflexivity|]. split; [exact O|]. split; [discriminate|]. split; [discriminate|]. split; [|split; [cbn; lia|split; [cbn; lra|discriminate]]].
  intros i I E. left. exact E.
Qed.
Lemma auto_complete order robust : complete [3%nat] d_peak (o_auto order robust) (series [1; 0; 0] 0).
Proof. split; [|discriminate]. intros i I. each_index I; (split; [intros [E|(m & E & _)]; discriminate|reflexivity]). Qed.

(* ---- C88: the score and the automatic smoothing parameter *)
(* Complete data: the reported score is the generalised cross validation score of the data at the reported
   parameter.  Without a given parameter it is 10 ** p for the p that the bounded search returns for that score. *)
Theorem C88_choice fmin nearest keep shape data o y : usable shape data o -> o_robust o = false -> complete shape data o y -> exists out s v,
  smoothn fmin nearest keep shape data o = Ok out /\ r_smooth out = Some s /\ 0 < s /\ r_score out = Some v /\ gcv_score (o_order o) shape y s v /\
  (forall s', o_smooth o = Some s' -> s = s') /\
  (o_smooth o = None -> exists f, (forall p, exists v, f p = Some v /\ gcv_score (o_order o) shape y (Rpower 10 p) v) /\
     s = Rpower 10 (fmin f (log10 (s_bound (o_order o) (List.length shape) (99 / 100))) (log10 (s_bound (o_order o) (List.length shape) (1 / 1000000))) (1 / 10))).
Proof. exact (run_choice fmin nearest keep shape data o y). Qed.
Print Assumptions C88_choice.
Example C88_choice_case : usable [3%nat] d_peak (o_auto 2 false) /\ complete [3%nat] d_peak (o_auto 2 false) (series [1; 0; 0] 0) /\ o_smooth (o_auto 2 false) = None.
Proof. split; [apply auto_usable; right; reflexivity|]. split; [apply auto_complete|reflexivity]. Qed.

(* The bounds of the search are the parameters with an average influence of 0.99 and of 0.000001, *)
Theorem C88_bounds order ndim h : order = 1%nat \/ order = 2%nat -> 0 < h < 1 -> ndim <> 0%nat ->
  0 < s_bound order ndim h /\ exists l, average_influence order (s_bound order ndim h) l /\ l ^ ndim = h.
Proof.
  intros O H N. destruct (bound_leverage order ndim h H N) as [A B]. split; [exact A|]. exists (leverage order (s_bound order ndim h)). split; [apply average_leverage; auto|exact B].
Qed.
Print Assumptions C88_bounds.
Example C88_bounds_case : 0 < 99 / 100 < 1 /\ average_influence 2 5 (leverage 2 5) /\ average_influence 1 2 (1 / 3).
Proof.
  split; [lra|]. split; [apply average_leverage; [right; reflexivity|lra|reflexivity]|]. left. split; [reflexivity|]. replace (1 + 4 * 2) with (3 ^ 2) by ring. rewrite sqrt_pow2 by lra. lra.
Qed.
(* so a search that stays within its bounds never returns parameters outside: with gaps, weights or robust. *)
Theorem C88_range fmin nearest keep : (forall f a b e, a <= b -> a <= fmin f a b e <= b) -> forall shape data o, usable shape data o -> o_smooth o = None ->
  exists out s l, smoothn fmin nearest keep shape data o = Ok out /\ r_smooth out = Some s /\ 0 < s /\ average_influence (o_order o) s l /\
    1 / 1000000 <= l ^ List.length shape <= 99 / 100.
Proof.
  intros FM shape data o U SN. destruct (run_bounds fmin nearest keep FM shape data o U SN) as (out & s & A & B & SP & C). exists out, s, (leverage (o_order o) s). repeat (split; [assumption|]). split; [|exact C].
  apply average_leverage; [apply U|exact SP|reflexivity].
Qed.
Print Assumptions C88_range.
Example C88_range_case : (forall (f : R -> option R) a b (e : R), a <= b -> a <= (fun (f : R -> option R) a b (e : R) => (a + b) / 2) f a b e <= b) /\ usable [3%nat] d_peak (o_auto 1 true).
Proof. split; [intros; lra|apply auto_usable; left; reflexivity]. Qed.

(* That number is close to the average influence that a value of a series of n values has on the fit there. *)
Theorem C88_average_influence order n s t l : order = 1%nat \/ order = 2%nat -> (2 <= n)%nat -> 0 < s -> influence order [n] s t -> average_influence order s l ->
  l <= t / INR n <= l + 1 / INR n.
Proof.
  intros O N SP IN AI. apply average_leverage in AI; [|exact O|exact SP]. subst l. destruct O as [-> | ->]; [exact (influence_leverage n s t N SP IN)|exact (influence_leverage2 n s t N SP IN)].
Qed.
Print Assumptions C88_average_influence.
Example C88_average_influence_case2 : influence 2 [2%nat] (1 / 4) (3 / 2).
Proof.
  apply (influence_gamma [2%nat] (DctProofs3.lamN [2%nat]) 2 (1 / 4)); [intros k _; reflexivity|lra|right; reflexivity|]. symmetry.
  unfold total. cbn [indices seq flat_map map app]. unfold gamma. cbn [DctProofs3.lamN pow]. unfold lambda1. cbn [INR]. replace (PI * 0 / (1 + 1)) with 0 by field. replace (PI * 1 / (1 + 1)) with (PI / 2) by field. rewrite cos_0, cos_PI2. unfold rsum. cbn. lra.
Qed.
Example C88_average_influence_case : influence 1 [2%nat] (1 / 2) (3 / 2).
Proof. destruct (half_score (fun _ _ _ _ => 0) (fun _ _ i => i) (fun _ => 0%nat) (1 / 2) ltac:(lra)) as (_ & _ & _ & _ & t & A & _). apply (influence_gamma [2%nat] (DctProofs3.lamN [2%nat]) 1 (1 / 2)); [intros k _; reflexivity|lra|left; reflexivity|symmetry; exact half_trace]. Qed.

(* Gaps or weights: in the last iteration the data are mixed with the previous result zp according to the weights,
   u is the best fit to that mixture, and the result is u, or u extrapolated from zp by 7/4.  The score is that of u:
   the weighted sum of squares divided by the number of all positions. *)
Theorem C88_score fmin nearest keep shape data o w y : usable shape data o -> o_robust o = false -> o_exclude o = None -> weights_of o shape data w -> values_of o shape data y ->
  exists out s zp u t rf, smoothn fmin nearest keep shape data o = Ok out /\ r_smooth out = Some s /\ 0 < s /\ (forall s', o_smooth o = Some s' -> s = s') /\
  best_fit (o_order o) shape s (fun _ => 1) (fun i => if Req_EM_T (w i) 0 then zp i else w i * y i + (1 - w i) * zp i) u /\ influence (o_order o) shape s t /\
  r_score out = Some (gcv_of (total shape (fun i => w i * (y i - u i) ^ 2)) (INR (size shape)) t (INR (size shape))) /\
  (((forall i, In i (indices shape) -> w i = 1) /\ rf = 1) \/ (exists i, In i (indices shape) /\ w i <> 1) /\ rf = 7 / 4) /\
  gives shape out (fun i => rf * u i + (1 - rf) * zp i) /\
  (o_maxiter o = 1%nat -> r_init out = Some zp) /\ (forall sh g, o_init o = Some (sh, g) -> r_init out = Some g).
Proof. exact (run_score fmin nearest keep shape data o w y). Qed.
Print Assumptions C88_score.
Example C88_score_case : usable [2%nat] d_half (o_half None 1 (1 / 1000)) /\ weights_of (o_half None 1 (1 / 1000)) [2%nat] d_half w_half /\ values_of (o_half None 1 (1 / 1000)) [2%nat] d_half (fun _ => 1).
Proof. split; [apply half_usable; [discriminate|lia|lra]|]. split; [apply half_weights|apply half_values]. Qed.
(* Documented: GCV(s) = (wRSS / (n - n_miss)) / (1 - Tr(H) / n) ** 2.  With one of two values missing the documented
   score is 1, the reported one is 1/2. *)
Theorem C88_documented_score_refuted fmin nearest keep : exists shape data o w y, usable shape data o /\ o_robust o = false /\ weights_of o shape data w /\ values_of o shape data y /\
  (forall i, In i (indices shape) -> gap o data i <-> i = [1%nat]) /\ size shape = 2%nat /\
  exists out s u t, smoothn fmin nearest keep shape data o = Ok out /\ r_smooth out = Some s /\ r_init out = Some (fun _ => 0) /\ o_maxiter o = 1%nat /\ influence (o_order o) shape s t /\
    best_fit (o_order o) shape s (fun _ => 1) (series [1; 0] 0) u /\ gcv_of (total shape (fun i => w i * (y i - u i) ^ 2)) 1 t 2 = 1 /\ r_score out = Some (1 / 2).
Proof.
  assert (U : usable [2%nat] d_half (o_half (Some ([2%nat], fun _ => 0)) 1 (1 / 1000))) by (apply half_usable; [intros g0 E; injection E as <-; reflexivity|lia|lra]).
  exists [2%nat], d_half, (o_half (Some ([2%nat], fun _ => 0)) 1 (1 / 1000)), w_half, (fun _ => 1). split; [exact U|]. split; [reflexivity|]. split; [apply half_weights|]. split; [apply half_values|].
  split. { intros i I. each_index I; split; intros X; try reflexivity; try discriminate; [destruct X as [E|(m & E & _)]; discriminate|left; reflexivity]. }
  split; [reflexivity|]. destruct (half_score fmin nearest keep (1 / 1000) ltac:(lra)) as (out & A & B & C & t & D & E & F). exists out, (1 / 2), (series [3 / 4; 1 / 4] 0), t. split; [exact A|]. split; [exact B|].
  split. { destruct (run_score fmin nearest keep [2%nat] d_half _ w_half (fun _ => 1) U eq_refl eq_refl (half_weights _ _ _) (half_values _ _ _)) as (out' & s & zp & u & t' & rf & A' & _ & _ & _ & _ & _ & _ & _ & _ & _ & IN2). rewrite A in A'. injection A' as <-. apply (IN2 _ _ eq_refl). }
  split; [reflexivity|]. split; [exact D|]. split; [exact E|]. split; [exact F|exact C].
Qed.
Print Assumptions C88_documented_score_refuted.

(* The parameter is searched in iterations 0, 1, 2, 4, 8, ... only; in the others it is kept. *)
Theorem C88_parameter_kept fmin nearest keep shape data o m : usable shape data o -> o_robust o = false -> o_smooth o = None -> (1 <= m)%nat -> (forall e, m <> (2 ^ e)%nat) ->
  exists out out', smoothn fmin nearest keep shape data (with_maxiter m o) = Ok out /\ smoothn fmin nearest keep shape data (with_maxiter (S m) o) = Ok out' /\ r_smooth out' = r_smooth out.
Proof. exact (parameter_kept fmin nearest keep shape data o m). Qed.
Print Assumptions C88_parameter_kept.
Example C88_parameter_kept_case : (1 <= 3)%nat /\ forall e, 3%nat <> (2 ^ e)%nat.
Proof. split; [lia|]. intros [|[|e]] E; cbn in E; lia. Qed.

(* ---- C75: the initial guess *)
(* Without gaps and weights it is 0.  Otherwise the gaps are filled with the nearest value, and the guess is the
   closest array made of low frequencies. *)
Theorem C75_initial_guess fmin nearest keep shape data o w y : usable shape data o -> o_init o = None -> weights_of o shape data w -> values_of o shape data y ->
  exists out g, smoothn fmin nearest keep shape data o = Ok out /\ r_init out = Some g /\
  ((forall i, In i (indices shape) -> w i = 1) -> forall i, g i = 0) /\
  ((exists i, In i (indices shape) /\ w i <> 1) -> exists f, filled_from nearest o shape data y f /\ coarse keep shape g /\
     forall v, coarse keep shape v -> total shape (fun i => (f i - g i) ^ 2) <= total shape (fun i => (f i - v i) ^ 2)).
Proof. exact (run_guess fmin nearest keep shape data o w y). Qed.
Print Assumptions C75_initial_guess.
Example C75_initial_guess_case : o_init (o_half None 1 (1 / 1000)) = None /\ usable [2%nat] d_half (o_half None 1 (1 / 1000)) /\ exists i, In i (indices [2%nat]) /\ w_half i <> 1.
Proof. split; [reflexivity|]. split; [apply half_usable; [discriminate|lia|lra]|]. exists [1%nat]. split; [cbn; tauto|cbn; lra]. Qed.

(* ---- C77: the weights that are returned *)
(* They are the Cauchy weights of the residuals of the result that is returned, times the given weights: no fit has
   used them. *)
Theorem C77_final_weights fmin nearest keep shape data o w y : usable shape data o -> o_robust o = true -> o_exclude o = None -> weights_of o shape data w -> values_of o shape data y ->
  exists out s u fw, smoothn fmin nearest keep shape data o = Ok out /\ r_smooth out = Some s /\ 0 < s /\ gives shape out u /\ r_weights out = Some fw /\
  forall used, (forall i, In i (indices shape) -> (used i = true <-> ~ gap o data i)) ->
  forall med mad h, np_median (map (fun i => y i - u i) (filter used (indices shape))) = Some med -> np_median (map (fun i => Rabs (y i - u i - med)) (filter used (indices shape))) = Some mad ->
  average_influence (o_order o) s h ->
  forall i, In i (indices shape) -> fw i = w i * (if Req_EM_T mad 0 then 0 else cauchy mad h (y i - u i)).
Proof. exact (final_weights fmin nearest keep shape data o w y). Qed.
Print Assumptions C77_final_weights.
Example C77_final_weights_case : usable [3%nat] d_peak (o_auto 2 true) /\ o_robust (o_auto 2 true) = true /\ weights_of (o_auto 2 true) [3%nat] d_peak (fun _ => 1) /\ values_of (o_auto 2 true) [3%nat] d_peak (series [1; 0; 0] 0).
Proof.
  split; [apply auto_usable; right; reflexivity|]. split; [reflexivity|]. destruct (auto_complete 2 true) as [C _]. split; intros i I; [split; [intros G; exfalso; apply (proj1 (C i I)), G|reflexivity]|]. intros _. apply (C i I).
Qed.

(* ---- C78: unusable arguments *)
(* Flag 2 is reported for arrays with a single position; nothing is computed. *)
Theorem C78_too_few fmin nearest keep shape data o : (forall sh w, o_weights o = Some (sh, w) -> sh = shape) -> size shape = 1%nat ->
  exists out, smoothn fmin nearest keep shape data o = Ok out /\ r_z out = None /\ r_flag out = 2%Z /\ r_smooth out = o_smooth o /\ r_data out = data.
Proof. exact (too_few fmin nearest keep shape data o). Qed.
Print Assumptions C78_too_few.
Example C78_too_few_case : size [1%nat; 1%nat] = 1%nat. Proof. reflexivity. Qed.
(* A negative weight at a position without gap raises ValueError if some weight is not negative. *)
Theorem C78_negative_weight fmin nearest keep shape data o v i j : o_weights o = Some (shape, v) -> (2 <= size shape)%nat -> In i (indices shape) -> ~ gap o data i -> v i < 0 -> In j (indices shape) -> 0 <= v j ->
  smoothn fmin nearest keep shape data o = Err EValue.
Proof. intros A. exact (negative_weight fmin nearest keep shape data o shape v i j A eq_refl). Qed.
Print Assumptions C78_negative_weight.
Example C78_negative_weight_case : let v := series [-1; 0] 0 in (2 <= size [2%nat])%nat /\ In [0%nat] (indices [2%nat]) /\ v [0%nat] < 0 /\ In [1%nat] (indices [2%nat]) /\ 0 <= v [1%nat].
Proof. cbn. repeat split; (lia || lra || tauto). Qed.
(* NaN in the data while the gap value is a number, weights that are all 0, and a negative smoothing parameter give
   NaN at all positions that are not excluded, with flag 1. *)
Theorem C78_nan fmin nearest keep shape data o : (forall sh w, o_weights o = Some (sh, w) -> sh = shape) -> (2 <= size shape)%nat -> (1 <= List.length shape <= 3)%nat -> o_axis o = None ->
  (forall sh g, o_init o = Some (sh, g) -> sh = shape) -> (forall sh v, o_weights o = Some (sh, v) -> forall i, In i (indices shape) -> 0 <= v i) ->
  ((exists i, In i (indices shape) /\ data i = None /\ ~ gap o data i) \/
   (exists i sh v, In i (indices shape) /\ ~ gap o data i /\ o_weights o = Some (sh, v) /\ forall j, In j (indices shape) -> v j = 0) \/
   (exists s, o_smooth o = Some s /\ s < 0)) ->
  (o_order o = 1%nat \/ o_order o = 2%nat -> exists out zz, smoothn fmin nearest keep shape data o = Ok out /\ r_flag out = 1%Z /\ r_z out = Some zz /\
     forall i, (forall m, o_exclude o = Some m -> m i = true -> zz i = o_gap o) /\ ((forall m, o_exclude o = Some m -> m i = false) -> zz i = None)) /\
  (~ (o_order o = 1%nat \/ o_order o = 2%nat) -> smoothn fmin nearest keep shape data o = Err EValue).
Proof.
  intros A B C D E F G. pose proof (nan_result fmin nearest keep shape data o A B C D E F G) as R. split; intros O.
  - replace (Nat.eqb (o_order o) 1 || Nat.eqb (o_order o) 2)%bool with true in R by (destruct O as [-> | ->]; reflexivity). eexists. exists (all_nan o). split; [exact R|]. split; [reflexivity|]. split; [reflexivity|].
    intros i. unfold all_nan. split; [intros m -> ->; reflexivity|]. intros H. destruct (o_exclude o) as [m|]; [rewrite (H m eq_refl)|]; reflexivity.
  - destruct (Nat.eqb_spec (o_order o) 1) as [X|_]; [exfalso; apply O; left; exact X|]. destruct (Nat.eqb_spec (o_order o) 2) as [X|_]; [exfalso; apply O; right; exact X|]. exact R.
Qed.
Print Assumptions C78_nan.
Example C78_nan_case : let o := Opts None None None 2 None false 100 (1 / 1000) (Some 9999) None in exists i, In i (indices [2%nat]) /\ d_half i = None /\ ~ gap o d_half i.
Proof. exists [1%nat]. split; [cbn; tauto|]. split; [reflexivity|]. intros [E|(m & E & _)]; discriminate. Qed.
(* Axes: a tuple is accepted only if every axis is as long as the axis, counted from the last one, at its place in the tuple, and is named once; *)
Theorem C78_axes_rejected fmin nearest keep shape data o axes : o_weights o = None -> (2 <= size shape)%nat -> o_axis o = Some (AxTuple axes) -> axes <> [] ->
  (forall a, In a axes -> exists n, nth_error shape a = Some n) -> ~ axes_fit shape axes -> smoothn fmin nearest keep shape data o = Err EValue.
Proof. intros A B C D E F. apply axes_error; [exact A|exact B|]. rewrite C. exact (axes_bad shape axes E D F). Qed.
Print Assumptions C78_axes_rejected.
Example C78_axes_rejected_case : ~ axes_fit [4%nat; 3%nat] [1%nat; 0%nat] /\ ~ axes_fit [3%nat; 3%nat] [1%nat; 1%nat] /\ axes_fit [3%nat; 4%nat; 4%nat] [2%nat; 1%nat].
Proof.
  split; [|split].
  - intros [_ H]. destruct (H 0%nat 1%nat eq_refl) as (n & E & [X|[X _]]); cbn in E; [injection E as <-; discriminate|cbn in X; congruence].
  - intros [_ H]. destruct (H 0%nat 1%nat eq_refl) as (n & E & [X|[_ X]]); cbn in E; [injection E as <-; discriminate|cbn in X; discriminate].
  - split; [cbn; lia|]. intros [|[|p]] a A; cbn in A; [injection A as <-|injection A as <-|destruct p; discriminate]; (exists 4%nat; split; [reflexivity|right; split; reflexivity]).
Qed.
(* and if it is accepted, the result is that for the last axes: only the number of axes counts. *)
Definition with_axis (axis : option axis_arg) (o : options) : options := Opts (o_smooth o) axis (o_weights o) (o_order o) (o_init o) (o_robust o) (o_maxiter o) (o_tolz o) (o_gap o) (o_exclude o).
Theorem C78_axes_last fmin nearest keep shape data o axes : axes_fit shape axes -> (forall n, In n shape -> (2 <= n)%nat) ->
  smoothn fmin nearest keep shape data (with_axis (Some (AxTuple axes)) o) =
  smoothn fmin nearest keep shape data (with_axis (Some (AxTuple (seq (List.length shape - List.length axes) (List.length axes)))) o).
Proof. intros F N. unfold smoothn. cbn [o_axis with_axis]. rewrite (axes_last shape axes F N). reflexivity. Qed.
Print Assumptions C78_axes_last.
