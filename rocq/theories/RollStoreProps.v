(* C102: the direct computation of the rolling metrics with its 32-bit storage. *)
From Coq Require Import Reals List Lra Lia ZArith.
From Flocq Require Import Core Relative.
From Verif Require Import RStats RStatsProofs MetricsModel MetricsSpec MetricsProofs MetricsProofs2 RollingModel RollingSpec RollingProofs RollingProps RollRefModel RollRefProofs RollRefProps RollStoreModel.
Open Scope R_scope.

(* x and y agree to single precision *)
Definition agree_single (x y : R) : Prop := Rabs (x - y) <= / 2 ^ 24 * Rabs y + / 2 ^ 150.

#[local] Instance prec24 : Prec_gt_0 24 := eq_refl.
#[local] Instance valid24 : Valid_exp (FLT_exp (-149) 24) := FLT_exp_valid (-149) 24.
Lemma single_err x : agree_single (single x) x.
Proof.
  unfold agree_single, single. destruct (error_N_FLT radix2 (-149) 24 eq_refl (fun z => negb (Z.even z)) x) as (eps & eta & E & H & _ & ->).
  replace (x * (1 + eps) + eta - x) with (eps * x + eta) by ring.
  assert (E' : Rabs eps <= / 2 ^ 24).
  { refine (Rle_trans _ _ _ E _). change (Z.opp 24 + 1)%Z with (Z.opp 23). rewrite (bpow_opp radix2 23), <- (IZR_Zpower radix2 23) by lia. rewrite pow_IZR.
    change (radix2 ^ 23)%Z with 8388608%Z. change (2 ^ Z.of_nat 24)%Z with 16777216%Z. lra. }
  assert (H' : Rabs eta <= / 2 ^ 150).
  { refine (Rle_trans _ _ _ H _). replace (/ 2 ^ 150) with (/ 2 * bpow radix2 (-149)); [lra|]. replace (bpow radix2 (-149)) with (/ 2 ^ 149); [replace (2 ^ 150) with (2 * 2 ^ 149) by (change 150%nat with (S 149); cbn [pow]; reflexivity); rewrite Rinv_mult by (try apply pow_nonzero; lra); ring|].
    change (-149)%Z with (Z.opp 149). rewrite (bpow_opp radix2 149), <- (IZR_Zpower radix2 149) by lia. rewrite pow_IZR. reflexivity. }
  refine (Rle_trans _ _ _ (Rabs_triang _ _) _). rewrite Rabs_mult. apply Rplus_le_compat; [|exact H']. apply Rmult_le_compat_r; [apply Rabs_pos|exact E'].
Qed.
Lemma single_mono x y : x <= y -> single x <= single y.
Proof. intros H. apply round_le; [exact valid24|apply valid_rnd_N|exact H]. Qed.
Lemma single_one : single 1 = 1.
Proof.
  apply round_generic; [apply valid_rnd_N|]. apply generic_format_FLT. exists (Float radix2 1 0); [unfold F2R; cbn; lra|cbn; lia|cbn; lia].
Qed.
Lemma single_opp_one : single (-1) = -1.
Proof.
  apply round_generic; [apply valid_rnd_N|]. apply generic_format_FLT. exists (Float radix2 (-1) 0); [unfold F2R; cbn; lra|cbn; lia|cbn; lia].
Qed.

Lemma step32 betainc junk ts d w c mp i :
  let s := ref_step betainc junk ts d w c mp i in
  let n := Z.of_nat (List.length (inside_idx ts w c i)) in
  (orb (Z.eqb n 0) (Z.ltb n mp) = false ->
     ref_step32 betainc junk ts d w c mp i = RefRow (option_map single (ref_R s)) (Some (single (ref_p betainc (option_map single (ref_R s)) (IZR n)))) (option_map single (ref_rmsd s))).
Proof. cbv zeta. intros E. unfold ref_step32, ref_step. rewrite E. reflexivity. Qed.

(* C102: the stored correlation and RMSD agree with those of the incremental computation to single precision, and the
   stored correlation lies in [-1, 1]; the stored p-value is that of the stored correlation. *)
Theorem C102_single betainc junk ts d w c mp i v : List.length ts = List.length d -> distinct_times ts -> 0 < w -> (i < List.length ts)%nat ->
  well_filled mp (window_of ts d w c i) ->
  exists r p e r' p' e',
    nth i (rolling_pr_rmsd betainc ts d w c mp) (None, None) = (Some (r, p), Some e) /\
    nth i (ref_rolling32 betainc junk ts d w c mp) v = RefRow (Some r') (Some p') (Some e') /\
    agree_single r' r /\ agree_single e' e /\ -1 <= r' <= 1 /\ 0 <= e' /\
    agree_single p' (ref_p betainc (Some r') (rlen (window_of ts d w c i))).
Proof.
  intros L D W I WF. pose proof WF as (N & CX & CY). pose proof (distinct_chron ts D) as C.
  destruct (ref_nth betainc junk ts d w c mp i (RefRow None None None) L D W I) as [ER NE].
  destruct (ref_step_ok ts d w c L C (or_introl W) (or_intror D) betainc junk mp i I) as [_ ES].
  set (win := window_of ts d w c i) in *. change (the_window ts d w c i) with win in *.
  unfold ref_expected in ES. change (the_window ts d w c i) with win in ES.
  destruct (Z.ltb_spec (Z.of_nat (List.length win)) mp) as [B|B]; [lia|].
  assert (NI : List.length (inside_idx ts w c i) = List.length win).
  { destruct (bounds ts d w c L C (or_introl W) (or_intror D) i I) as (a & b & A & B' & BN & EW & EI). change (the_window ts d w c i) with win in EW. rewrite EW, EI, seq_length.
    symmetry. apply slice_length. rewrite <- L. exact BN. }
  assert (EC : np_corrcoef win = Some (correlation win)) by (apply corrcoef_some; assumption).
  assert (EM : rmsd win 0 = Some (sqrt (mean_square_diff win))) by (rewrite rmsd_correct by exact NE; reflexivity).
  assert (EI32 : nth i (ref_rolling32 betainc junk ts d w c mp) v = ref_step32 betainc junk ts d w c mp i).
  { unfold ref_rolling32. rewrite (nth_indep _ v (ref_step32 betainc junk ts d w c mp 0)) by (rewrite map_length, seq_length; exact I).
    rewrite map_nth, seq_nth by exact I. reflexivity. }
  assert (TF : orb (Z.eqb (Z.of_nat (List.length (inside_idx ts w c i))) 0) (Z.ltb (Z.of_nat (List.length (inside_idx ts w c i))) mp) = false).
  { rewrite NI. destruct (Z.eqb_spec (Z.of_nat (List.length win)) 0) as [Z0|_]; [destruct win; [congruence|cbn in Z0; lia]|]. cbn [orb]. apply Z.ltb_ge. exact B. }
  exists (correlation win), (p_value betainc (correlation win) (rlen win)), (sqrt (mean_square_diff win)), (single (correlation win)),
    (single (ref_p betainc (Some (single (correlation win))) (rlen win))), (single (sqrt (mean_square_diff win))).
  split; [|split; [|split; [|split; [|split; [|split]]]]].
  - rewrite stored_nth by assumption. fold win. unfold window_metrics. destruct (Z.ltb_spec (Z.of_nat (List.length win)) mp); [lia|]. rewrite pearson_some by assumption. rewrite EM. reflexivity.
  - rewrite EI32, (step32 betainc junk ts d w c mp i TF), ES. cbn [ref_R ref_rmsd]. rewrite EC, EM, NI. cbn [option_map]. unfold rlen. rewrite INR_IZR_INZ. reflexivity.
  - apply single_err.
  - apply single_err.
  - pose proof (correlation_bound win NE CX CY) as [B1 B2]. split; [rewrite <- single_opp_one|rewrite <- single_one]; apply single_mono; lra.
  - assert (Z0 : single 0 = 0) by (unfold single; apply round_0, valid_rnd_N). rewrite <- Z0. apply single_mono, sqrt_pos.
  - apply single_err.
Qed.

(* The p-value does not agree: a correlation that is stored as 1 gets the p-value 0. *)
Definition nearly : pairs := [(0, 0); (1, 1 + / 4096); (2, 2)].
Lemma nearly_stats : rlen nearly = 3 /\ ~ constant (xs nearly) /\ ~ constant (ys nearly) /\
  0 < correlation nearly < 1 /\ 1 - / 33554432 < correlation nearly.
Proof.
  assert (VX : var (xs nearly) = 2 / 3) by (unfold var, nearly, rmean, rsum, rlen, xs; cbn; field).
  assert (VY : var (ys nearly) = 2 / 3 + 2 / 9 * / (4096 * 4096)) by (unfold var, nearly, rmean, rsum, rlen, ys; cbn; field).
  assert (CV : cov nearly = 2 / 3) by (unfold cov, nearly, rmean, rsum, rlen, xs, ys; cbn; field).
  split; [unfold rlen, nearly; cbn; lra|]. split; [intros H; specialize (H 0 1 (or_introl eq_refl) (or_intror (or_introl eq_refl))); lra|].
  split; [intros H; specialize (H 0 2 (or_introl eq_refl) (or_intror (or_intror (or_introl eq_refl)))); lra|].
  unfold correlation. rewrite CV. unfold std. rewrite VX, VY. set (a := 2 / 3 + 2 / 9 * / (4096 * 4096)).
  assert (PA : 0 < a) by (unfold a; lra). pose proof (sqrt_lt_R0 (2 / 3) ltac:(lra)) as P1. pose proof (sqrt_lt_R0 a PA) as P2.
  pose proof (sqrt_sqrt (2 / 3) ltac:(lra)) as Q1. pose proof (sqrt_sqrt a (Rlt_le _ _ PA)) as Q2.
  set (r := 2 / 3 / (sqrt (2 / 3) * sqrt a)). assert (PR : 0 < r) by (unfold r; apply Rdiv_lt_0_compat; [lra|apply Rmult_lt_0_compat; assumption]).
  assert (RR : r * r * a = 2 / 3).
  { unfold r. rewrite <- Q2 at 3. rewrite <- Q1 at 1 3 5. field. split; apply Rgt_not_eq; assumption. }
  assert (U : r < 1) by (destruct (Rlt_le_dec r 1) as [H|H]; [exact H|]; assert (1 * 1 <= r * r) by (apply Rmult_le_compat; lra); assert (1 * a <= r * r * a) by (apply Rmult_le_compat_r; lra); unfold a in *; lra).
  split; [lra|]. destruct (Rlt_le_dec (1 - / 33554432) r) as [H|H]; [exact H|]. exfalso.
  assert (r * r <= (1 - / 33554432) * (1 - / 33554432)) by (apply Rmult_le_compat; lra).
  assert (r * r * a <= (1 - / 33554432) * (1 - / 33554432) * a) by (apply Rmult_le_compat_r; lra). unfold a in *; lra.
Qed.
Lemma nearly_one r : 1 - / 33554432 < r <= 1 -> single r = 1.
Proof.
  intros [L U]. apply Rle_antisym; [rewrite <- single_one; apply single_mono, U|]. unfold single.
  assert (F1 : generic_format radix2 (FLT_exp (-149) 24) 1) by (apply generic_format_FLT; exists (Float radix2 1 0); [unfold F2R; cbn; lra|cbn; lia|cbn; lia]).
  assert (PB : pred radix2 (FLT_exp (-149) 24) 1 = 1 - / 16777216).
  { pose proof (pred_bpow radix2 (FLT_exp (-149) 24) 0) as X. change (bpow radix2 0) with 1 in X. rewrite X. change (FLT_exp (-149) 24 0) with (Z.opp 24).
    rewrite (bpow_opp radix2 24), <- (IZR_Zpower radix2 24) by lia. reflexivity. }
  apply round_N_ge_midp; [exact valid24|exact F1|]. rewrite PB. lra.
Qed.
Theorem C102_single_p_refuted betainc : exists junk ts d w c mp i v r,
  List.length ts = List.length d /\ distinct_times ts /\ 0 < w /\ (i < List.length ts)%nat /\ well_filled mp (window_of ts d w c i) /\
  0 < r < 1 /\ fst (nth i (rolling_pr_rmsd betainc ts d w c mp) (None, None)) = Some (r, betainc (1 / 2 * (3 - 2)) (1 / 2) (1 - r * r)) /\
  ref_R (nth i (ref_rolling32 betainc junk ts d w c mp) v) = Some 1 /\ ref_pR (nth i (ref_rolling32 betainc junk ts d w c mp) v) = Some 0.
Proof.
  destruct nearly_stats as (N3 & CX & CY & [P U] & G). set (ts := [0; 1; 2]).
  exists (fun _ => None), ts, nearly, 3, false, 2%Z, 2%nat, (RefRow None None None), (correlation nearly).
  assert (D : distinct_times ts) by (intros [|[|[|j]]] [|[|[|k]]] J K; cbn in *; try lia; lra).
  assert (E : window_of ts nearly 3 false 2 = nearly) by (unfold window_of, trailing_window, ts, nearly; cbn; dec_all; reflexivity).
  assert (WF : well_filled 2 (window_of ts nearly 3 false 2)) by (rewrite E; split; [cbn; lia|split; assumption]).
  split; [reflexivity|]. split; [exact D|]. split; [lra|]. split; [cbn; lia|]. split; [exact WF|]. split; [lra|].
  assert (NE : nearly <> []) by discriminate.
  assert (R1 : nth 2 (rolling_pr_rmsd betainc ts nearly 3 false 2) (None, None) = window_metrics betainc 2 nearly).
  { rewrite stored_nth; [rewrite E; reflexivity|reflexivity|apply distinct_chron, D|lra|cbn; lia]. }
  split.
  - rewrite R1. unfold window_metrics. change (Z.of_nat (List.length nearly) <? 2)%Z with false. cbn [fst]. rewrite pearson_some by assumption. f_equal. f_equal. rewrite N3. unfold p_value.
    destruct (Req_EM_T (Rabs (correlation nearly)) 1) as [A|_]; [rewrite Rabs_pos_eq in A by lra; lra|]. f_equal. apply p_arg_eq; lra.
  - destruct (C102_single betainc (fun _ => None) ts nearly 3 false 2 2 (RefRow None None None) eq_refl D ltac:(lra) ltac:(cbn; lia) WF) as (r & p & e & r' & p' & e' & E1 & E2 & _).
    assert (ES : nth 2 (ref_rolling32 betainc (fun _ => None) ts nearly 3 false 2) (RefRow None None None) = ref_step32 betainc (fun _ => None) ts nearly 3 false 2 2) by reflexivity.
    assert (TF : orb (Z.eqb (Z.of_nat (List.length (inside_idx ts 3 false 2))) 0) (Z.ltb (Z.of_nat (List.length (inside_idx ts 3 false 2))) 2) = false /\ List.length (inside_idx ts 3 false 2) = 3%nat)
      by (unfold inside_idx, inside_window, ref_time, ts; cbn; dec_all; split; reflexivity).
    destruct TF as [TF N]. rewrite ES, (step32 betainc (fun _ => None) ts nearly 3 false 2 2 TF).
    assert (P3 : 0 < 3) by lra.
    destruct (ref_step_ok ts nearly 3 false eq_refl (distinct_chron ts D) (or_introl P3) (or_intror D) betainc (fun _ => None) 2 2 ltac:(cbn; lia)) as [_ ->].
    unfold ref_expected. change (the_window ts nearly 3 false 2) with (window_of ts nearly 3 false 2). rewrite E. change (Z.of_nat (List.length nearly) <? 2)%Z with false. cbn [ref_R ref_pR].
    rewrite corrcoef_some by assumption. cbn [option_map]. rewrite nearly_one by lra. split; [reflexivity|].
    unfold ref_p. destruct (Req_EM_T (Rabs 1) 1) as [_|A]; [|rewrite Rabs_pos_eq in A by lra; lra]. f_equal. unfold single. apply round_0, valid_rnd_N.
Qed.
Print Assumptions C102_single.
Print Assumptions C102_single_p_refuted.
