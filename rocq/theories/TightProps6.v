(* Further bootstrap intervals (C65). *)
From Coq Require Import Reals List Lra Lia String.
From Verif Require Import Base RStats RStatsProofs MetricsModel MetricsProofs RollingModel TcolModel TcolSpec TcolProofs TcolProofs2 TcolProps ConfintModel ConfintProofs ConfintProofs2 ConfintProps.
Import ListNotations.
Open Scope R_scope.

(* ---- C65: the basic interval of triple collocation: the percentile interval reflected at the estimate ---- *)
Theorem C65_tcol_basic ppf cdf rows ref alpha garbage minimum draws : rows <> [] -> (ref < 3)%nat ->
  (minimum <= List.length rows)%nat -> 0 <= alpha <= 1 ->
  exists orig bs r, tcol_metrics rows ref = Ok orig /\
    Forall2 (fun idx t => tcol_metrics (take_rows rows idx) ref = Ok t) draws bs /\
    tcol_with_bootstrapped_ci ppf cdf rows ref alpha "basic" garbage minimum draws = Ok r /\
    List.length r = 3%nat /\
    forall k i, (k < 3)%nat -> (i < 3)%nat ->
      let v := vals (map (fun t => nth i (component k t) None) bs) in
      fst (nth k r ([], [])) = component k orig /\
      nth i (snd (nth k r ([], []))) (None, None) =
        (if andb (Nat.eqb k 2) (Nat.eqb i ref) then (Some 1, Some 1)
         else match nth i (component k orig) None, v with
              | Some m, _ :: _ => (Some (2 * m - quantile v (1 - alpha / 2)), Some (2 * m - quantile v (alpha / 2)))
              | _, _ => (None, None)
              end).
Proof.
  intros NE R3 M A. exists (tc_of rows ref), (map (fun idx => tc_of (take_rows rows idx) ref) draws).
  unfold tcol_with_bootstrapped_ci. apply Nat.ltb_ge in M. rewrite M. rewrite tc_of_ok by exact R3.
  cbn [bindR]. change (String.eqb "basic" "BCa") with false. cbn [bindR]. cbv iota.
  assert (BS : seqR (map (fun idx => tcol_metrics (take_rows rows idx) ref) draws) =
               Ok (map (fun idx => tc_of (take_rows rows idx) ref) draws)).
  { clear - R3. induction draws as [|idx ds IH]; [reflexivity|]. cbn [map seqR]. rewrite tc_of_ok by exact R3.
    cbn [bindR]. rewrite IH. reflexivity. }
  destruct rows as [|r0 rows]; [congruence|]. set (rows' := r0 :: rows) in *.
  change (List.length rows') with (S (List.length rows)). cbv iota. rewrite BS. cbn [bindR].
  set (bs := map (fun idx => tc_of (take_rows rows' idx) ref) draws).
  set (itv := fun k i => let v := vals (map (fun t => nth i (component k t) None) bs) in
     match nth i (component k (tc_of rows' ref)) None, v with
     | Some m, _ :: _ => (Some (2 * m - quantile v (1 - alpha / 2)), Some (2 * m - quantile v (alpha / 2)))
     | _, _ => (None, None) end).
  assert (ITV : forall k i, tcol_interval ppf cdf "basic" garbage (map (component k) bs) (component k (tc_of rows' ref))
      (map (component k) []) alpha i = Ok (itv k i)).
  { intros k i. unfold tcol_interval. change (String.eqb "basic" "percentile") with false. change (String.eqb "basic" "basic") with true. cbv iota.
    rewrite map_map. unfold itv. cbv zeta. set (col := map _ bs). destruct (vals col) as [|v0 vr] eqn:V.
    - unfold basic_bs_ci. rewrite !nanquantile_none by (try exact V; lra). cbn [bind2 bindR reflect omap obind].
      destruct (nth i (component k (tc_of rows' ref)) None); reflexivity.
    - destruct (nth i (component k (tc_of rows' ref)) None) as [m|].
      + rewrite basic_ok by (try (rewrite V; discriminate); lra). rewrite V. reflexivity.
      + unfold basic_bs_ci. rewrite !nanquantile_ok by (try (rewrite V; discriminate); lra). reflexivity. }
  set (val := fun k i => if andb (Nat.eqb k 2) (Nat.eqb i ref) then (Some 1, Some 1) else itv k i).
  assert (PART : forall k i, tcol_part ppf cdf "basic" garbage ref alpha bs (tc_of rows' ref) [] k i = Ok (val k i)).
  { intros k i. unfold tcol_part, val. change (orb (String.eqb "basic" "percentile") _) with true. rewrite Bool.andb_true_r.
    destruct (andb (Nat.eqb k 2) (Nat.eqb i ref)); [reflexivity|]. apply ITV. }
  exists (map (fun k => (component k (tc_of rows' ref), map (val k) [0; 1; 2]%nat)) [0; 1; 2]%nat).
  split; [reflexivity|]. split; [|split; [|split; [reflexivity|]]].
  - unfold bs. clear - R3. induction draws; cbn; constructor; [apply tc_of_ok, R3|assumption].
  - destruct draws; cbn [map]; rewrite !PART; cbn [seqR bindR mapR]; reflexivity.
  - intros k i K I. destruct k as [|[|[|k]]]; [| | |lia]; destruct i as [|[|[|i]]]; try lia;
      (split; [reflexivity|]); cbn [nth map snd]; unfold val; reflexivity.
Qed.
Example C65_ex_tcol_basic : exists rows : list (nat -> R), rows <> [] /\ (4 <= List.length rows)%nat /\ (0 < 3)%nat.
Proof. exists (map (fun i j => INR (i * i + j)) (seq 0 4)). cbn. split; [discriminate|lia]. Qed.
Print Assumptions C65_tcol_basic.

(* ---- C65: a vanishing denominator is an infinite argument: the level is 1 (the largest bootstrapped value) ---- *)
Theorem C65_infinite_argument ppf cdf bs (m : R) alpha jk p z0 a lo up :
  share_not_above bs (Some m) = Some p -> ppf p = Some z0 -> acceleration jk = Some a ->
  ppf alpha = Some lo -> ppf (1 - alpha) = Some up ->
  1 - a * (z0 + lo) <> 0 -> 1 - a * (z0 + up) = 0 -> 0 < z0 + up -> vals bs <> [] -> (forall z, 0 <= cdf z <= 1) ->
  BCa_bs_ci ppf cdf bs (Some m) alpha jk =
  Ok (Some (quantile (vals bs) (cdf (z0 + (z0 + lo) / (1 - a * (z0 + lo))))), Some (quantile (vals bs) 1)).
Proof.
  intros S0 Z0 A LO UP D1 D2 P V RNG. unfold BCa_bs_ci. rewrite S0, A, LO, UP. cbn [obind omap]. rewrite Z0. cbn [obind omap]. unfold adjusted.
  destruct (Req_EM_T (1 - a * (z0 + lo)) 0); [contradiction|]. destruct (Req_EM_T (1 - a * (z0 + up)) 0); [|contradiction]. destruct (Rlt_dec 0 (z0 + up)); [|contradiction].
  rewrite !nanquantile_ok by (try exact V; try lra; apply RNG). reflexivity.
Qed.
Print Assumptions C65_infinite_argument.
(* skewed leave-one-out values give a positive acceleration 1 / (6 sqrt 6) *)
Example C65_ex_infinite_argument : exists ppf jk a up,
  share_not_above [Some 0; Some 1] (Some (1 / 2)) = Some (1 / 2) /\ ppf (1 / 2) = Some 0 /\ acceleration jk = Some a /\ ppf (1 / 4) = Some (- up) /\
  ppf (1 - 1 / 4) = Some up /\ 1 - a * (0 + - up) <> 0 /\ 1 - a * (0 + up) = 0 /\ 0 < 0 + up /\ vals [Some 0; Some 1] <> [].
Proof.
  assert (S6 : 0 < sqrt 6) by (apply sqrt_lt_R0; lra).
  exists (fun p => if Req_EM_T p (1 / 2) then Some 0 else if Req_EM_T p (1 / 4) then Some (- (6 * sqrt 6)) else Some (6 * sqrt 6)), [Some 3; Some 3; Some 0], (1 / (6 * sqrt 6)), (6 * sqrt 6).
  split; [exact ex_share|]. split; [destruct (Req_EM_T (1 / 2) (1 / 2)); [reflexivity|lra]|]. split.
  - unfold acceleration. cbn [all_some obind omap]. unfold np_mean. cbn [List.length]. cbn [rsum map fold_right].
    match goal with |- obind (fdiv ?a ?b) _ = _ => replace (fdiv a b) with (Some 2) end.
    2:{ symmetry. unfold fdiv. destruct (Req_EM_T _ 0) as [E|]; [cbn in E; lra|]. f_equal. cbn. lra. }
    cbn [obind]. cbv zeta. match goal with |- fdiv ?a (6 * (?b * sqrt ?b')) = _ => replace a with 6 by (cbn; lra); replace b with 6 by (cbn; lra) end.
    rewrite fdiv_some; [f_equal; field; lra|nra].
  - split; [destruct (Req_EM_T (1 / 4) (1 / 2)); [lra|]; destruct (Req_EM_T (1 / 4) (1 / 4)); [reflexivity|lra]|].
    split; [destruct (Req_EM_T (1 - 1 / 4) (1 / 2)); [lra|]; destruct (Req_EM_T (1 - 1 / 4) (1 / 4)); [lra|reflexivity]|].
    split; [|split; [|split; [lra|discriminate]]].
    + replace (1 - 1 / (6 * sqrt 6) * (0 + - (6 * sqrt 6))) with 2 by (field; lra). lra.
    + field. lra.
Qed.
