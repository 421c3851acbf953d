(* Theorems about smoothing with the discrete cosine transform (C74 - C79).  In every theorem `fmin` is
   scipy.optimize.fminbound, `nearest` the nearest position found by scipy.ndimage.distance_transform_edt and
   `keep` the number of coefficients that the initial smoothing keeps; any functions will do unless said otherwise. *)
From Coq Require Import Lra Lia.
From Verif Require Import Base RStats MetricsModel DctModel DctSpec DctProofs5 DctProofs8 DctProofs9 DctProofs10 DctProofs11 DctProofs12.
Open Scope R_scope.

(* ---- C74: complete data *)
(* The result is the one array that minimises distance to the data plus s times roughness.  The sum of the data is kept. *)
Theorem C74_complete_data fmin nearest keep shape data o y : usable shape data o -> o_robust o = false -> complete shape data o y ->
  exists out s u, smoothn fmin nearest keep shape data o = Ok out /\ r_flag out = 1%Z /\ r_smooth out = Some s /\ 0 < s /\ (forall s', o_smooth o = Some s' -> s = s') /\
    gives shape out u /\ best_fit (o_order o) shape s (fun _ => 1) y u /\ total shape u = total shape y.
Proof. exact (complete_best fmin nearest keep shape data o y). Qed.
Print Assumptions C74_complete_data.
Example C74_case : usable [3%nat] d_peak o_curv /\ o_robust o_curv = false /\ complete [3%nat] d_peak o_curv (series [1; 0; 0] 0).
Proof. exact (conj peak_usable (conj eq_refl peak_complete)). Qed.

(* With a given smoothing parameter the result is linear in the data. *)
Theorem C74_superposition fmin nearest keep shape o s a b d1 d2 d3 y1 y2 :
  usable shape d1 o -> usable shape d2 o -> usable shape d3 o -> o_robust o = false -> o_smooth o = Some s ->
  complete shape d1 o y1 -> complete shape d2 o y2 -> complete shape d3 o (fun i => a * y1 i + b * y2 i) ->
  exists out1 out2 out3 u1 u2 u3,
    smoothn fmin nearest keep shape d1 o = Ok out1 /\ smoothn fmin nearest keep shape d2 o = Ok out2 /\ smoothn fmin nearest keep shape d3 o = Ok out3 /\
    gives shape out1 u1 /\ gives shape out2 u2 /\ gives shape out3 u3 /\ forall i, In i (indices shape) -> u3 i = a * u1 i + b * u2 i.
Proof. exact (superposition fmin nearest keep shape o s a b d1 d2 d3 y1 y2). Qed.
Print Assumptions C74_superposition.
Example C74_superposition_case : let y := series [1; 0; 0] 0 in let d := fun i => Some (2 * y i + 3 * y i) in
  usable [3%nat] d o_curv /\ complete [3%nat] d o_curv (fun i => 2 * y i + 3 * y i) /\ d [0%nat] = Some (2 * 1 + 3 * 1).
Proof.
  cbv zeta. split; [|split; [|reflexivity]].
  - destruct peak_usable as (A & B & C & D & E & _ & F). repeat (split; [assumption|]). split; [discriminate|exact F].
  - split; [|discriminate]. intros i I. split; [|reflexivity]. intros [E|(m & E & _)]; discriminate.
Qed.

(* Order 1 stays within the range of the data. *)
Theorem C74_in_range fmin nearest keep shape data o y lo hi : usable shape data o -> o_robust o = false -> complete shape data o y -> o_order o = 1%nat ->
  (forall i, In i (indices shape) -> lo <= y i <= hi) ->
  exists out u, smoothn fmin nearest keep shape data o = Ok out /\ gives shape out u /\ forall i, In i (indices shape) -> lo <= u i <= hi.
Proof. exact (in_range fmin nearest keep shape data o y lo hi). Qed.
Print Assumptions C74_in_range.
Example C74_in_range_case : let o := Opts None None None 1 None false 100 (1 / 1000) None None in
  usable [3%nat] d_peak o /\ complete [3%nat] d_peak o (series [1; 0; 0] 0) /\ forall i, In i (indices [3%nat]) -> 0 <= series [1; 0; 0] 0 i <= 1.
Proof.
  cbv zeta. destruct peak_usable as (A & B & C & D & E & G & F). split; [|split].
  - split; [exact A|]. split; [reflexivity|]. split; [left; reflexivity|]. split; [discriminate|]. split; [discriminate|]. split; [exact G|]. split; [cbn; lia|]. split; [cbn; lra|discriminate].
  - split; [|discriminate]. intros i I. each_index I; (split; [intros [X|(m & X & _)]; discriminate|reflexivity]).
  - intros i I. each_index I; cbn; lra.
Qed.
(* Order 2, the default, does not: data between 0 and 1 give a negative value. *)
Theorem C74_overshoot_refuted fmin nearest keep : exists shape data o y, usable shape data o /\ o_robust o = false /\ o_order o = 2%nat /\ complete shape data o y /\
  (forall i, In i (indices shape) -> 0 <= y i <= 1) /\
  exists out u, smoothn fmin nearest keep shape data o = Ok out /\ r_flag out = 1%Z /\ gives shape out u /\ exists i, In i (indices shape) /\ u i < 0.
Proof.
  exists [3%nat], d_peak, o_curv, (series [1; 0; 0] 0). split; [exact peak_usable|]. split; [reflexivity|]. split; [reflexivity|]. split; [exact peak_complete|]. split; [intros i I; each_index I; cbn; lra|].
  destruct (peak_run fmin nearest keep) as (out & u & A & B & C & _ & _ & E). exists out, u. repeat (split; [assumption|]). exists [2%nat]. split; [cbn; tauto|rewrite E; lra].
Qed.
Print Assumptions C74_overshoot_refuted.

(* ---- C75: iteration *)
(* More iterations never make the penalised distance larger, and no iteration is worse than the initial guess. *)
Theorem C75_more_iterations fmin nearest keep shape data o s m m' w y : usable shape data o -> o_robust o = false -> o_exclude o = None -> o_smooth o = Some s ->
  weights_of o shape data w -> values_of o shape data y -> (1 <= m <= m')%nat ->
  exists out out' u u' start,
    smoothn fmin nearest keep shape data (with_maxiter m o) = Ok out /\ smoothn fmin nearest keep shape data (with_maxiter m' o) = Ok out' /\
    r_smooth out = Some s /\ r_smooth out' = Some s /\ gives shape out u /\ gives shape out' u' /\ r_init out = Some start /\
    penalised (o_order o) shape s w y u' <= penalised (o_order o) shape s w y u <= penalised (o_order o) shape s w y start.
Proof. exact (more_iterations fmin nearest keep shape data o s m m' w y). Qed.
Print Assumptions C75_more_iterations.
Example C75_case : let o := o_half None 100 (1 / 1000) in usable [2%nat] d_half o /\ o_robust o = false /\ o_exclude o = None /\ o_smooth o = Some (1 / 2) /\
  weights_of o [2%nat] d_half w_half /\ values_of o [2%nat] d_half (fun _ => 1) /\ In [0%nat] (indices [2%nat]) /\ 0 < w_half [0%nat].
Proof.
  cbv zeta. split; [apply half_usable; [discriminate|lia|lra]|]. split; [reflexivity|]. split; [reflexivity|]. split; [reflexivity|]. split; [apply half_weights|]. split; [apply half_values|]. split; [cbn; tauto|cbn; lra].
Qed.

(* One iteration leaves an initial guess unchanged exactly if it is a best fit already. *)
Theorem C75_stationary fmin nearest keep shape data o s w y g : usable shape data o -> o_robust o = false -> o_exclude o = None -> o_smooth o = Some s ->
  weights_of o shape data w -> values_of o shape data y ->
  exists out u, smoothn fmin nearest keep shape data (with_maxiter 1 (with_init (shape, g) o)) = Ok out /\ gives shape out u /\
    ((forall i, In i (indices shape) -> u i = g i) <-> forall z2, penalised (o_order o) shape s w y g <= penalised (o_order o) shape s w y z2).
Proof. exact (stationary fmin nearest keep shape data o s w y g). Qed.
Print Assumptions C75_stationary.

(* Repeated iterations approach the best fit at a geometric rate, whatever the initial guess; the best fit exists and is unique. *)
Theorem C75_convergence fmin nearest keep shape data o s w y : usable shape data o -> o_robust o = false -> o_exclude o = None -> o_smooth o = Some s ->
  weights_of o shape data w -> values_of o shape data y -> (exists i, In i (indices shape) /\ 0 < w i) ->
  exists zz rate, best_fit (o_order o) shape s w y zz /\ 0 <= rate < 1 /\
    forall gs : nat -> arr R, (forall n, exists out, smoothn fmin nearest keep shape data (with_maxiter 1 (with_init (shape, gs n) o)) = Ok out /\ gives shape out (gs (S n))) ->
      exists C, forall n i, In i (indices shape) -> Rabs (gs n i - zz i) <= C * rate ^ n.
Proof. exact (converges fmin nearest keep shape data o s w y). Qed.
Print Assumptions C75_convergence.

(* The stopping rule looks at the positions with data only: whatever the tolerance and the number of iterations, a
   call stops with success although the value at the gap has just moved from 17 to 10 and the best fit is 1. *)
Theorem C75_gap_values_unchecked_refuted fmin nearest keep : exists shape data w y s order init, forall m tz, (1 <= m)%nat -> 0 <= tz < 1 ->
  let o := Opts (Some s) None None order (Some (shape, init)) false m tz None None in
  usable shape data o /\ weights_of o shape data w /\ values_of o shape data y /\ best_fit order shape s w y (fun _ => 1) /\
  exists out u, smoothn fmin nearest keep shape data o = Ok out /\ r_flag out = 1%Z /\ gives shape out u /\ exists i, In i (indices shape) /\ init i = 17 /\ u i = 10.
Proof.
  exists [2%nat], d_half, w_half, (fun _ => 1), (1 / 2), 1%nat, (series [5; 17] 0). intros m tz M T. cbv zeta. change (Opts _ _ _ _ _ _ _ _ _ _) with (o_half (Some ([2%nat], series [5; 17] 0)) m tz).
  split; [apply half_usable; [intros g E; injection E as <-; reflexivity|exact M|exact T]|]. split; [apply half_weights|]. split; [apply half_values|]. split; [exact half_best|].
  destruct (half_stops fmin nearest keep m tz M T) as (out & u & A & B & C & _ & E). exists out, u. repeat (split; [assumption|]). exists [1%nat]. split; [cbn; tauto|]. split; [reflexivity|exact E].
Qed.
Print Assumptions C75_gap_values_unchecked_refuted.

(* ---- C76: gaps *)
(* What is stored at gaps has no influence on anything that is returned. *)
Theorem C76_gaps_ignored fmin nearest keep shape data data' o : (2 <= size shape)%nat -> (forall i, gap o data i <-> gap o data' i) -> (forall i, ~ gap o data i -> data i = data' i) ->
  smoothn fmin nearest keep shape data o = smoothn fmin nearest keep shape data' o.
Proof. exact (run_gaps fmin nearest keep shape data data' o). Qed.
Print Assumptions C76_gaps_ignored.
Example C76_gaps_case : let o := Opts None None None 2 None true 100 (1 / 1000) None (Some (fun i => Nat.eqb (hd 0%nat i) 1)) in let d v := series [Some 1; v; Some 3] (Some 0) in
  (2 <= size [3%nat])%nat /\ (forall i, gap o (d (Some 7)) i <-> gap o (d None) i) /\ (forall i, ~ gap o (d (Some 7)) i -> d (Some 7) i = d None i).
Proof.
  cbv zeta. split; [cbn; lia|].
  split; intros i.
  - unfold gap; cbn [o_gap o_exclude]. unfold series. destruct (hd 0%nat i) as [|[|n]] eqn:H.
    + cbn [nth]. split; intros [E|E]; try discriminate; right; exact E.
    + assert (X : exists m : arr bool, Some (fun i => Nat.eqb (hd 0%nat i) 1) = Some m /\ m i = true) by (eexists; split; [reflexivity|]; cbn beta; rewrite H; reflexivity). split; intros _; right; exact X.
    + cbn [nth]. split; intros [E|E]; try (left; exact E); right; exact E.
  - intros G. unfold series. destruct (hd 0%nat i) as [|[|n]] eqn:H; try reflexivity. exfalso. apply G. right. eexists. split; [reflexivity|]. cbn beta. rewrite H. reflexivity.
Qed.

(* Every usable call, robust or not, returns a number at every position that is not excluded and the gap value at excluded ones. *)
Theorem C76_numbers fmin nearest keep shape data o w : usable shape data o -> weights_of o shape data w ->
  exists out zz s, smoothn fmin nearest keep shape data o = Ok out /\ r_z out = Some zz /\ r_smooth out = Some s /\ 0 < s /\ (forall s', o_smooth o = Some s' -> s = s') /\
    (forall i, In i (indices shape) -> (forall m, o_exclude o = Some m -> m i = true -> zz i = o_gap o) /\ (~ (exists m, o_exclude o = Some m /\ m i = true) -> exists v, zz i = Some v)) /\
    exists fw, r_weights out = Some fw /\ forall i, In i (indices shape) -> 0 <= fw i <= w i /\ (o_robust o = false -> fw i = w i).
Proof.
  intros U WO. destruct (run_numbers fmin nearest keep shape data o U) as (out & zz & s & A & B & C & D & E & F & _ & fw & G & H). exists out, zz, s. repeat (split; [assumption|]). split.
  - intros i I. destruct (F i I) as [F1 F2]. split; [|exact F2]. intros m M. rewrite M in F1. exact F1.
  - exists fw. split; [exact G|]. intros i I. rewrite (weights_unique shape data o w U WO i I). apply H, I.
Qed.
Print Assumptions C76_numbers.

(* If all data that are not gaps have one value, so has the result.  `nearest` finds a position with data if there
   is one, and the initial smoothing keeps at least one coefficient per axis. *)
Theorem C76_constant_kept fmin nearest keep shape data o c : usable shape data o ->
  (forall shape mask i, In i (indices shape) -> mask i = true -> (exists j, In j (indices shape) /\ mask j = false) -> In (nearest shape mask i) (indices shape) /\ mask (nearest shape mask i) = false) ->
  (forall n, In n shape -> (1 <= keep n)%nat) -> o_init o = None -> (exists j, In j (indices shape) /\ ~ gap o data j) -> values_of o shape data (fun _ => c) ->
  exists out zz, smoothn fmin nearest keep shape data o = Ok out /\ r_z out = Some zz /\ forall i, In i (indices shape) -> ~ (exists m, o_exclude o = Some m /\ m i = true) -> zz i = Some c.
Proof. exact (run_constant fmin nearest keep shape data o c). Qed.
Print Assumptions C76_constant_kept.
Example C76_constant_case : exists (nearest : list nat -> arr bool -> index -> index) (keep : nat -> nat),
  (forall shape mask i, In i (indices shape) -> mask i = true -> (exists j, In j (indices shape) /\ mask j = false) -> In (nearest shape mask i) (indices shape) /\ mask (nearest shape mask i) = false) /\
  (forall n, In n [2%nat] -> (1 <= keep n)%nat) /\ ~ gap (o_half None 5 0) d_half [0%nat].
Proof.
  exists (fun shape mask i => match find (fun j => negb (mask j)) (indices shape) with Some j => j | None => i end), (fun n => n). split; [|split].
  - intros shape mask i I M (j & J & F). destruct (find _ _) as [k|] eqn:E; [apply find_some in E as [A B]; split; [exact A|destruct (mask k); [discriminate|reflexivity]]|]. pose proof (find_none _ _ E j J) as X. cbn in X. rewrite F in X. discriminate.
  - intros n [<-|[]]. lia.
  - intros [E|(m & E & _)]; discriminate.
Qed.

(* ---- C77: robust weights *)
(* Weights lie between 0 and 1, and a larger residual never gets a larger weight. *)
Theorem C77_weights shape res h mask i j : 0 <= robust_weights shape res h mask i <= 1 /\ (Rabs (res i) <= Rabs (res j) -> robust_weights shape res h mask j <= robust_weights shape res h mask i).
Proof. split; [apply robust_range|apply robust_antitone]. Qed.
Print Assumptions C77_weights.
(* With spread and h < 1, full weight is for residual 0 only. *)
Theorem C77_full_weight shape res h mask i m : robust_spread shape res mask = Some m -> m <> 0 -> h < 1 -> (robust_weights shape res h mask i = 1 <-> res i = 0).
Proof. exact (robust_full shape res h mask i m). Qed.
Print Assumptions C77_full_weight.
Example C77_full_weight_case : let res := series [-1; 0; 1] 0 in robust_spread [3%nat] res (Some (fun _ => false)) = Some 1 /\ robust_weights [3%nat] res 0 (Some (fun _ => false)) [1%nat] = 1.
Proof.
  cbv zeta. assert (S1 : robust_spread [3%nat] (series [-1; 0; 1] 0) (Some (fun _ => false)) = Some 1).
  { assert (N1 : np_median [-1; 0; 1] = Some 0).
    { unfold np_median. cbn [r_sort r_insert]. repeat (match goal with |- context [Rle_dec ?a ?b] => destruct (Rle_dec a b); try lra end; cbn [r_insert]). reflexivity. }
    assert (N2 : np_median [1; 0; 1] = Some 1).
    { unfold np_median. cbn [r_sort r_insert]. repeat (match goal with |- context [Rle_dec ?a ?b] => destruct (Rle_dec a b); try lra end; cbn [r_insert]). reflexivity. }
    change (obind (np_median [-1; 0; 1]) (fun med => np_median [Rabs (-1 - med); Rabs (0 - med); Rabs (1 - med)]) = Some 1). rewrite N1. cbn [obind].
    replace (-1 - 0) with (-1) by ring. replace (0 - 0) with 0 by ring. replace (1 - 0) with 1 by ring. rewrite Rabs_R0, Rabs_R1, (Rabs_left (-1)) by lra. replace (- -1) with 1 by ring. exact N2. }
  split; [exact S1|]. apply (C77_full_weight _ _ _ _ _ 1 S1); [lra|lra|reflexivity].
Qed.
(* Methods: cauchy is computed, the other documented ones raise NotImplementedError, unknown ones ValueError. *)
Theorem C77_methods shape res h mask method :
  RobustWeights shape res h mask method = (if string_dec method "cauchy" then Ok (robust_weights shape res h mask) else if in_dec string_dec method ["talworth"; "bisquare"]%string then Err ENotImpl else Err EValue).
Proof.
  unfold RobustWeights. destruct (string_dec method "cauchy") as [->|N]; [reflexivity|]. rewrite (proj2 (String.eqb_neq _ _) N). destruct (in_dec string_dec method _) as [[<-|[<-|[]]]|N2]; try reflexivity.
  rewrite (proj2 (String.eqb_neq method "talworth")), (proj2 (String.eqb_neq method "bisquare")); [reflexivity| |]; intros ->; apply N2; cbn; tauto.
Qed.
Print Assumptions C77_methods.
(* Documented: without mask all residuals are used.  In fact none is, and every weight is 0. *)
Theorem C77_no_mask_refuted : exists shape res h, h < 1 /\ robust_spread shape res (Some (fun _ => false)) = Some 1 /\ res [1%nat] = 0 /\
  robust_weights shape res h (Some (fun _ => false)) [1%nat] = 1 /\ forall i, robust_weights shape res h None i = 0.
Proof. exists [3%nat], (series [-1; 0; 1] 0), 0. destruct C77_full_weight_case as [A B]. split; [lra|]. split; [exact A|]. split; [reflexivity|]. split; [exact B|]. intros i. apply robust_no_mask. Qed.
Print Assumptions C77_no_mask_refuted.
(* If more than half of the residuals agree, every weight is 0, also for those whose residual is 0. *)
Theorem C77_flat_majority shape res h m c :
  (List.length (filter (fun i => negb (m i)) (indices shape)) < 2 * List.length (filter (fun i => if Req_EM_T (res i) c then true else false) (filter (fun i => negb (m i)) (indices shape))))%nat ->
  forall i, robust_weights shape res h (Some m) i = 0.
Proof. exact (robust_majority shape res h m c). Qed.
Print Assumptions C77_flat_majority.
(* so good positions do not keep their weight *)
Theorem C77_good_positions_refuted : exists shape res m i, In i (indices shape) /\ m i = false /\ res i = 0 /\ (exists j, In j (indices shape) /\ res j <> 0) /\ forall h, robust_weights shape res h (Some m) i = 0.
Proof.
  exists [4%nat], (series [0; 0; 0; 5] 0), (fun _ => false), [0%nat]. split; [cbn; tauto|]. split; [reflexivity|]. split; [reflexivity|]. split; [exists [3%nat]; split; [cbn; tauto|cbn; lra]|].
  intros h. apply (C77_flat_majority _ _ _ _ 0). cbn. repeat (destruct (Req_EM_T _ _); try lra; cbn). lia.
Qed.
Print Assumptions C77_good_positions_refuted.

(* ---- C78: what is reported *)
(* Without robust weights the flag is always 1; with them it is 1, or 3 and then MaxIter is at most 2. *)
Theorem C78_flag fmin nearest keep shape data o : usable shape data o -> exists out, smoothn fmin nearest keep shape data o = Ok out /\
  (o_robust o = false -> r_flag out = 1%Z) /\ (r_flag out = 1%Z \/ (r_flag out = 3%Z /\ (o_maxiter o <= 2)%nat)).
Proof.
  intros U. destruct (run_numbers fmin nearest keep shape data o U) as (out & zz & s & A & _ & _ & _ & _ & _ & F & _). exists out. split; [exact A|]. split; [|exact F].
  intros RB. destruct (nonrobust_flag fmin nearest keep shape data o U RB) as (out' & A' & B). congruence.
Qed.
Print Assumptions C78_flag.
(* so flag 1 does not mean that the iteration has converged *)
Theorem C78_converged_refuted fmin nearest keep : exists shape data o s w y, usable shape data o /\ o_smooth o = Some s /\ weights_of o shape data w /\ values_of o shape data y /\ best_fit (o_order o) shape s w y (fun _ => 1) /\
  exists out u, smoothn fmin nearest keep shape data o = Ok out /\ r_flag out = 1%Z /\ gives shape out u /\ o_maxiter o = 1%nat /\ o_tolz o = 1 / 1000 /\ exists i, In i (indices shape) /\ u i = 7 / 16.
Proof.
  exists [2%nat], d_half, (o_half (Some ([2%nat], fun _ => 0)) 1 (1 / 1000)), (1 / 2), w_half, (fun _ => 1).
  split; [apply half_usable; [intros g E; injection E as <-; reflexivity|lia|lra]|]. split; [reflexivity|]. split; [apply half_weights|]. split; [apply half_values|]. split; [exact half_best|].
  destruct (half_once fmin nearest keep (1 / 1000) ltac:(lra)) as (out & u & A & B & C & _ & E). exists out, u. repeat (split; [assumption || reflexivity|]). exists [1%nat]. split; [cbn; tauto|exact E].
Qed.
Print Assumptions C78_converged_refuted.
(* Documented: flag 2 for less than two data samples.  An array with gaps only gives zeros and flag 1. *)
Theorem C78_no_data_refuted fmin nearest keep : exists shape o, usable shape (fun _ => None) o /\ exists out, smoothn fmin nearest keep shape (fun _ => None) o = Ok out /\ r_flag out = 1%Z /\ gives shape out (fun _ => 0).
Proof.
  exists [5%nat], (Opts None None None 2 None true 100 (1 / 1000) None None). match goal with |- ?u /\ _ => assert (U : u) end.
  { split; [cbn; lia|]. split; [reflexivity|]. split; [right; reflexivity|]. split; [discriminate|]. split; [discriminate|]. split; [intros; left; reflexivity|]. split; [cbn; lia|]. split; [cbn; lra|discriminate]. }
  split; [exact U|]. apply all_missing; try reflexivity; [exact U|cbn; lia].
Qed.
Print Assumptions C78_no_data_refuted.
(* The same holds for every shape and all other options. *)
Theorem C78_no_data fmin nearest keep shape o : usable shape (fun _ => None) o -> o_gap o = None -> o_exclude o = None -> o_init o = None -> (3 <= o_maxiter o)%nat ->
  exists out, smoothn fmin nearest keep shape (fun _ => None) o = Ok out /\ r_flag out = 1%Z /\ gives shape out (fun _ => 0).
Proof. exact (all_missing fmin nearest keep shape o). Qed.
Print Assumptions C78_no_data.
(* The array of the caller is overwritten with 0 at the gaps, and the distance is never reported. *)
Theorem C78_side_products fmin nearest keep shape data o : usable shape data o -> exists out, smoothn fmin nearest keep shape data o = Ok out /\ r_distance out = None /\
  forall i, (gap o data i -> r_data out i = Some 0) /\ (~ gap o data i -> r_data out i = data i).
Proof. exact (side_products fmin nearest keep shape data o). Qed.
Print Assumptions C78_side_products.
Theorem C78_input_kept_refuted fmin nearest keep : exists shape data o out i, usable shape data o /\ smoothn fmin nearest keep shape data o = Ok out /\ In i (indices shape) /\ data i = None /\ r_data out i = Some 0.
Proof.
  assert (U : usable [2%nat] d_half (o_half None 100 (1 / 1000))) by (apply half_usable; [discriminate|lia|lra]). destruct (C78_side_products fmin nearest keep _ _ _ U) as (out & A & _ & B).
  exists [2%nat], d_half, (o_half None 100 (1 / 1000)), out, [1%nat]. split; [exact U|]. split; [exact A|]. split; [cbn; tauto|]. split; [reflexivity|]. apply B. left. reflexivity.
Qed.
Print Assumptions C78_input_kept_refuted.
(* Documented: axis is an integer or a tuple.  An integer raises TypeError; *)
Theorem C78_int_axis fmin nearest keep shape data o a : o_axis o = Some (AxInt a) -> o_weights o = None -> (2 <= size shape)%nat -> smoothn fmin nearest keep shape data o = Err EType.
Proof. exact (int_axis fmin nearest keep shape data o a). Qed.
Print Assumptions C78_int_axis.
(* axis (0,) of a matrix raises ValueError unless the matrix is square; *)
Theorem C78_axis_not_square fmin nearest keep n m data o : o_weights o = None -> (2 <= n * m)%nat -> n <> m -> n <> 1%nat -> o_axis o = Some (AxTuple [0%nat]) -> smoothn fmin nearest keep [n; m] data o = Err EValue.
Proof. exact (axis0_values fmin nearest keep n m data o). Qed.
Print Assumptions C78_axis_not_square.
(* and for a square matrix it smooths along the other axis: data that vary along axis 0 only are returned unchanged. *)
Theorem C78_axis_square fmin nearest keep n data o f : (2 <= n)%nat -> o_axis o = Some (AxTuple [0%nat]) -> o_weights o = None -> o_init o = None -> o_exclude o = None -> o_gap o = None -> o_robust o = false ->
  o_order o = 1%nat \/ o_order o = 2%nat -> (1 <= o_maxiter o)%nat -> 0 <= o_tolz o < 1 -> (forall s, o_smooth o = Some s -> 0 < s) -> (forall a b, data [a; b] = Some (f a)) ->
  exists out u, smoothn fmin nearest keep [n; n] data o = Ok out /\ gives [n; n] out u /\ forall a b, In [a; b] (indices [n; n]) -> u [a; b] = f a.
Proof. exact (axis0_square fmin nearest keep n data o f). Qed.
Print Assumptions C78_axis_square.
Example C78_axis_case : let o := Opts (Some 1000) (Some (AxTuple [0%nat])) None 2 None false 100 (1 / 1000) None None in let data := fun i : index => Some (INR (hd 0%nat i) ^ 2) in
  o_axis o = Some (AxTuple [0%nat]) /\ o_order o = 2%nat /\ 0 <= o_tolz o < 1 /\ (forall s, o_smooth o = Some s -> 0 < s) /\ (forall a b, data [a; b] = Some (INR a ^ 2)).
Proof. cbv zeta. cbn [o_axis o_order o_tolz o_smooth]. split; [reflexivity|]. split; [reflexivity|]. split; [lra|]. split; [intros s E; injection E as <-; lra|reflexivity]. Qed.
(* Documented: weights must not be negative.  Weights that are all negative are accepted. *)
Theorem C78_negative_weights_refuted fmin nearest keep : exists shape data o w, o_weights o = Some (shape, w) /\ (forall i, In i (indices shape) -> w i < 0) /\
  exists out u fw, smoothn fmin nearest keep shape data o = Ok out /\ r_flag out = 1%Z /\ gives shape out u /\ r_weights out = Some fw /\ exists i, In i (indices shape) /\ fw i = 2.
Proof.
  exists [2%nat], (fun _ => Some 1), (Opts None None (Some ([2%nat], series [-1; -2] 0)) 2 None false 100 (1 / 1000) None None), (series [-1; -2] 0). split; [reflexivity|]. split; [intros i I; each_index I; cbn; lra|].
  destruct (negative_weights fmin nearest keep (Opts None None (Some ([2%nat], series [-1; -2] 0)) 2 None false 100 (1 / 1000) None None) (fun _ => Some 1) eq_refl eq_refl eq_refl eq_refl eq_refl eq_refl (or_intror eq_refl))
    as (out & zz & fw & A & B & C & D & _ & E); [cbn; lia|cbn; lra|discriminate|discriminate|].
  exists out, zz, fw. repeat (split; [assumption|]). exists [1%nat]. split; [cbn; tauto|exact E].
Qed.
Print Assumptions C78_negative_weights_refuted.

(* ---- C79: change of unit *)
(* Data (and initial guess) multiplied by k > 0 give the result multiplied by k, with the same flag and final
   weights, in every mode, if the smoothing parameter is given and gaps are NaN. *)
Theorem C79_unit fmin nearest keep shape data o s k : usable shape data o -> o_smooth o = Some s -> o_gap o = None -> 0 < k ->
  exists out out' zz zz' fw fw', smoothn fmin nearest keep shape data o = Ok out /\ smoothn fmin nearest keep shape (scaled k data) (scaled_options k o) = Ok out' /\
    r_z out = Some zz /\ r_z out' = Some zz' /\ r_weights out = Some fw /\ r_weights out' = Some fw' /\ r_flag out' = r_flag out /\ r_smooth out' = r_smooth out /\
    forall i, In i (indices shape) -> zz' i = omap (Rmult k) (zz i) /\ fw' i = fw i.
Proof. exact (run_scaled fmin nearest keep shape data o s k). Qed.
Print Assumptions C79_unit.
Example C79_case : let o := Opts (Some (1 / 2)) None None 1 (Some ([2%nat], series [5; 17] 0)) true 100 (1 / 1000) None None in
  usable [2%nat] d_half o /\ o_smooth o = Some (1 / 2) /\ o_gap o = None /\ scaled 100 d_half [0%nat] = Some (100 * 1).
Proof.
  cbv zeta. split; [|repeat split]. destruct (half_usable (Some ([2%nat], series [5; 17] 0)) 100 (1 / 1000)) as (A & B & C & D & E & F & G & H & I2); [intros g E; injection E as <-; reflexivity|lia|lra|].
  repeat (split; [assumption|]). exact I2.
Qed.
