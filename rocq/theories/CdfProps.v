(* Property theorems for CDF matching (C22-C25). *)
From Verif Require Import CdfSpec ScalingModel CdfProofs CdfFitProofs ScalingProofs.
Open Scope Q_scope.

(* ---- C22 ---- *)
(* any table with increasing source and non-decreasing reference percentiles: the mapping is
   monotone everywhere, keeps gaps, and sends the i-th source to the i-th reference percentile *)
Theorem C22_predict_monotone :
  forall (t : cdf_table),
    increasing (present (x_perc t)) -> non_decreasing (present (y_perc t)) ->
    List.length (present (x_perc t)) = List.length (present (y_perc t)) ->
    (2 <= List.length (present (x_perc t)))%nat ->
    (forall X, order_preserving X (cdf_predict t X)) /\
    (forall i x y, nth_error (present (x_perc t)) i = Some x -> nth_error (present (y_perc t)) i = Some y ->
       exists y', cdf_predict t [Some x] = [Some y'] /\ y' == y).
Proof.
  intros t I1 I2 L L2. destruct (predict_spec t (conj I1 (conj I2 (conj L L2)))) as (f & E & M & C & N). split.
  - intros X. rewrite E. apply order_preserving_map. exact M.
  - intros i x y Hx Hy. exists (f x). rewrite E. split; [reflexivity|]. exact (N i x y Hx Hy).
Qed.
Print Assumptions C22_predict_monotone.

(* fitted tables are of that kind, with the linear edges too, as long as more than one bin is left *)
Theorem C22_fit_predict_monotone :
  forall (o : cdf_opts) (X Y : list cell) (t : cdf_table),
    sane_opts o -> cdf_fit o X Y = Ok t -> non_constant (fit_source o X Y) ->
    (c_linear_edges o = false \/ (3 <= List.length (present (x_perc t)))%nat) ->
    (forall X', order_preserving X' (cdf_predict t X')) /\
    (forall i x y, nth_error (present (x_perc t)) i = Some x -> nth_error (present (y_perc t)) i = Some y ->
       exists y', cdf_predict t [Some x] = [Some y'] /\ y' == y).
Proof.
  intros o X Y t So Hf NC D. destruct (fit_good o X Y t So Hf NC D) as (A & B & C & E).
  apply C22_predict_monotone; assumption.
Qed.
Print Assumptions C22_fit_predict_monotone.

(* without linear edges: fitting works on all data, the source range is sent to the reference range *)
Theorem C22_fit_spans_ranges :
  forall (o : cdf_opts) (X Y : list cell),
    sane_opts o -> c_linear_edges o = false ->
    fit_source o X Y <> [] -> fit_reference o X Y <> [] ->
    exists t, cdf_fit o X Y = Ok t /\
      is_min (fit_source o X Y) (hd 0 (present (x_perc t))) /\
      is_max (fit_source o X Y) (last (present (x_perc t)) 0) /\
      is_min (fit_reference o X Y) (hd 0 (present (y_perc t))) /\
      is_max (fit_reference o X Y) (last (present (y_perc t)) 0).
Proof. exact fit_total. Qed.
Print Assumptions C22_fit_spans_ranges.

(* a constant source gives no prediction at all, not even for valid inputs *)
Theorem C22_constant_source_all_missing :
  forall (o : cdf_opts) (X Y : list cell) (t : cdf_table) (X' : list cell),
    sane_opts o -> c_linear_edges o = false -> cdf_fit o X Y = Ok t ->
    ~ non_constant (fit_source o X Y) -> all_missing (cdf_predict t X').
Proof. exact fit_constant. Qed.
Print Assumptions C22_constant_source_all_missing.

Definition q_cells (l : list Z) : list cell := map (fun z => Some (inject_Z z)) l.
Definition ex_o (n : nat) (m : option Z) (e : bool) := mkCdf n None m e true.

(* the default of cdf_match (linear edges, bins resized to at least 20 observations): with few
   observations a single bin remains, and a negative correlation reverses the order of the values *)
Theorem C22_single_bin_reverses_order_refuted :
  exists (o : cdf_opts) (X Y : list cell) (t : cdf_table),
    sane_opts o /\ cdf_fit o X Y = Ok t /\ non_constant (fit_source o X Y) /\
    ~ order_preserving X (cdf_predict t X).
Proof.
  exists (ex_o 100 (Some 20%Z) true), (q_cells [1; 2; 3]%Z), (q_cells [9; 5; 1]%Z).
  eexists. split; [vm_compute; repeat constructor|]. split; [vm_compute; reflexivity|]. split.
  - exists (inject_Z 1), (inject_Z 2). vm_compute. split; [tauto|]. split; [tauto|]. discriminate.
  - intros (_ & _ & H).
    specialize (H 0%nat 1%nat (inject_Z 1) (inject_Z 2)). 
    match type of H with context [cdf_predict ?t ?x] => remember (cdf_predict t x) as out eqn:Eo end.
    vm_compute in Eo. subst out.
    specialize (H _ _ eq_refl eq_refl eq_refl eq_refl). vm_compute in H. apply H; [|reflexivity]. discriminate.
Qed.
Print Assumptions C22_single_bin_reverses_order_refuted.

(* fitting with linear edges can fail altogether although both samples are fine: the lowest bin
   holds one reference value but several source values *)
Theorem C22_linear_edges_fit_fails_refuted :
  exists (o : cdf_opts) (X Y : list cell) (e : err),
    sane_opts o /\ non_constant (fit_source o X Y) /\ fit_reference o X Y <> [] /\ cdf_fit o X Y = Err e.
Proof.
  exists (mkCdf 3 None None true false), (q_cells [1; 1; 2; 3; 4; 5; 6; 7; 8; 9; 10; 11]%Z), (q_cells [1; 5; 7]%Z), EOther.
  split; [vm_compute; repeat constructor|]. split.
  - exists (inject_Z 1), (inject_Z 2). vm_compute. split; [tauto|]. split; [tauto|]. discriminate.
  - split; [vm_compute; discriminate|vm_compute; reflexivity].
Qed.
Print Assumptions C22_linear_edges_fit_fails_refuted.

Example C22_hypotheses_met :
  let o := ex_o 4 (Some 2%Z) true in
  let X := Some 20 :: None :: q_cells [1; 2; 2; 2; 3; 5; 8; 8]%Z in
  let Y := None :: Some 7 :: q_cells [10; 12; 40; 41; 41; 44; 90; 91]%Z in
  exists t, sane_opts o /\ cdf_fit o X Y = Ok t /\ non_constant (fit_source o X Y) /\
    (3 <= List.length (present (x_perc t)))%nat /\
    nth_error (cdf_predict t X) 1 = Some None /\ notna (nth 0 (cdf_predict t X) None) = true.
Proof.
  cbn zeta. eexists. split; [vm_compute; repeat constructor|]. split; [vm_compute; reflexivity|]. split.
  - exists (inject_Z 1), (inject_Z 2). vm_compute. split; [tauto|]. split; [tauto|]. discriminate.
  - split; [vm_compute; repeat constructor|]. split; vm_compute; reflexivity.
Qed.

(* ---- C23 ---- *)
Theorem C23_cdf_match_range :
  forall (o : cdf_opts) (max_val min_val : option Q) (src ref out : list cell),
    match min_val, max_val with Some a, Some b => a <= b | _, _ => True end ->
    cdf_match o max_val min_val src ref = Ok out ->
    exists raw, cdf_match o None None src ref = Ok raw /\ List.length out = List.length raw /\
      forall k c, nth_error raw k = Some c ->
        match c with
        | None => nth_error out k = Some None
        | Some v => exists y, nth_error out k = Some (Some y) /\
            (match min_val with Some a => a <= y | None => True end) /\
            (match max_val with Some b => y <= b | None => True end) /\
            ((match min_val with Some a => a <= v | None => True end) ->
             (match max_val with Some b => v <= b | None => True end) -> y = v)
        end.
Proof. exact cdf_match_range. Qed.
Print Assumptions C23_cdf_match_range.

Example C23_hypotheses_met :
  let X := q_cells [1; 2; 3; 4]%Z in let Y := q_cells [10; 20; 30; 40]%Z in
  match cdf_match (ex_o 2 None false) (Some 35) (Some 15) X Y with
  | Ok [Some a; Some b; Some c; Some d] => a == 15 /\ b == 20 /\ c == 30 /\ d == 35
  | _ => False end.
Proof. vm_compute. repeat split. Qed.

(* ---- C24 ---- *)
Theorem C24_bins_hold_minobs :
  forall (o : cdf_opts) (nsamples : nat),
    sane_opts o ->
    exists ps k, calc_percentiles o nsamples = Ok (ps, k) /\
      percentile_list ps /\ List.length ps = S k /\ (1 <= k <= requested_bins o)%nat /\
      (equally_spaced k ps \/ c_percentiles o = Some ps) /\
      (forall m i a b, c_minobs o = Some m -> (m <= Z.of_nat nsamples)%Z ->
         nth_error ps i = Some a -> nth_error ps (S i) = Some b ->
         inject_Z m <= inject_Z (Z.of_nat nsamples) * (b - a) / 100).
Proof.
  intros o n So. destruct (calc_spec o n So) as (ps & k & E & P & L & K & U & D & M).
  exists ps, k. split; [exact E|]. split; [exact P|]. split; [exact L|]. split; [exact K|]. split; [|exact M].
  destruct (c_percentiles o) as [p|] eqn:Ep.
  - destruct D as [D|D]; [right; rewrite D; unfold base_percentiles; rewrite Ep; reflexivity|].
    left. rewrite D. apply uniform_spaced, K.
  - left. rewrite (U eq_refl). apply uniform_spaced, K.
Qed.
Print Assumptions C24_bins_hold_minobs.

(* fewer observations than minobs: one bin *)
Theorem C24_too_few_observations_single_bin :
  forall (o : cdf_opts) (m : Z) (nsamples : nat),
    sane_opts o -> c_minobs o = Some m -> (Z.of_nat nsamples < m)%Z ->
    exists ps, calc_percentiles o nsamples = Ok (ps, 1%nat).
Proof. exact calc_single. Qed.
Print Assumptions C24_too_few_observations_single_bin.

Example C24_hypotheses_met :
  sane_opts (ex_o 100 (Some 20%Z) true) /\
  match calc_percentiles (ex_o 100 (Some 20%Z) true) 90 with Ok (ps, k) => k = 4%nat /\ List.length ps = 5%nat | _ => False end /\
  match calc_percentiles (ex_o 100 (Some 20%Z) true) 7 with Ok (ps, k) => k = 1%nat | _ => False end /\
  match calc_percentiles (ex_o 100 (Some 20%Z) true) 5000 with Ok (ps, k) => k = 100%nat | _ => False end.
Proof. split; [vm_compute; repeat constructor|]. split; [vm_compute; split; reflexivity|]. split; vm_compute; reflexivity. Qed.

(* ---- C25 ---- *)
Theorem C25_percentiles_of_sorted_sample :
  forall (data : list Q), data <> [] -> non_decreasing data ->
    exists f : Q -> Q,
      (forall ps, matlab_percentiles data ps = Ok (map f ps)) /\
      (forall p q, p <= q -> f p <= f q) /\
      (forall p, hd 0 data <= f p <= last data 0) /\
      (forall p, p <= 0 -> f p == hd 0 data) /\ (forall p, 100 <= p -> f p == last data 0).
Proof. exact matlab_function. Qed.
Print Assumptions C25_percentiles_of_sorted_sample.

(* in between: linear between the values at percentiles 100 (i + 1/2) / n *)
Theorem C25_linear_between_ranks :
  forall (data : list Q) i u v p,
    non_decreasing data -> nth_error data i = Some u -> nth_error data (S i) = Some v ->
    let n := inject_Z (Z.of_nat (List.length data)) in
    let r0 := 100 * (inject_Z (Z.of_nat i) + (1#2)) / n in
    let r1 := 100 * (inject_Z (Z.of_nat i) + (3#2)) / n in
    r0 <= p -> p <= r1 ->
    exists y, matlab_percentiles data [p] = Ok [y] /\ y == u + (v - u) * ((p - r0) / (r1 - r0)).
Proof. exact matlab_between. Qed.
Print Assumptions C25_linear_between_ranks.

(* repeated values are spread out: a sample that is not constant has strictly increasing percentile
   values, still from its minimum to its maximum *)
Theorem C25_unique_percentile_values :
  forall (data ps : list Q), data <> [] -> non_decreasing data -> percentile_list ps ->
    exists out, percentile_values data ps = Ok out /\ List.length out = List.length ps /\
      non_decreasing out /\ hd 0 out == hd 0 data /\ last out 0 == last data 0 /\
      (non_constant data -> increasing out).
Proof. exact percentile_values_list. Qed.
Print Assumptions C25_unique_percentile_values.

Example C25_hypotheses_met :
  let data := [1; 1; 1; 2; 9] in
  non_decreasing data /\ percentile_list (uniform_percentiles 4) /\ non_constant data /\
  match percentile_values data (uniform_percentiles 4) with
  | Ok [a; b; c; d; e] => a == 1 /\ 1 < b /\ b < c /\ c < d /\ e == 9 | _ => False end.
Proof.
  cbn zeta. split; [repeat constructor; vm_compute; discriminate|]. split; [apply uniform_list; repeat constructor|]. split.
  - exists 1, 9. vm_compute. split; [tauto|]. split; [tauto|]. discriminate.
  - vm_compute. repeat split.
Qed.
