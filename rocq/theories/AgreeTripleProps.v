(* C125: TCMetrics and TripleCollocationMetrics agree on the triple collocation estimates. *)
From Coq Require Import Reals Qreals List Lra Lia.
From Verif Require Import Base BaseProofs Calendar NamesModel NamesProofs GroupingModel RStats MetricsModel RollingModel TcolModel TcolProofs ConfintModel
  ConfintProofs2 StoredProofs DfMetricsModel DfMetricsSpec DfMetricsProofs DfMetricsProofs2 DfMetricsProps DfWrapProps2.
From Verif Require Import CalcModel CalcSpec CalcProofs CalcProofs2 CalcProofs3 CalcProofs4 CalcPairsModel CalcPairsSpec CalcPairsProofs CalcPairsProofs2 CalcTcmProofs CalcPairsProps CalcTcmProps.
From Verif Require Import AgreeSpec AgreeProofs.
Open Scope string_scope.
Open Scope list_scope.

Notation frame := CalcModel.frame.

Lemma full_all_some nr l : full nr l -> all_some (rcol l) = Some (map Q2R (vals l)).
Proof.
  intros [_ F]. induction l as [|c l IH]; [reflexivity|]. apply Forall_cons_iff in F as [N F]. destruct c as [q|]; [|congruence].
  specialize (IH F). unfold rcol in *. cbn. cbn in IH. rewrite IH. reflexivity.
Qed.
Lemma rows_same (u v w : list R) :
  map2 (fun a bc => fun i : nat => match i with O => a | 1%nat => fst bc | _ => snd bc end) u (combine v w) =
  map (fun p => fun i : nat => match i with 0%nat => fst (fst p) | 1%nat => snd (fst p) | _ => snd p end) (combine (combine u v) w).
Proof.
  revert v w. induction u as [|a u IH]; intros v w; [reflexivity|]. destruct v as [|b v]; [reflexivity|]. destruct w as [|c w]; [reflexivity|].
  cbn [combine map2 map fst snd]. f_equal. apply IH.
Qed.
(* the estimates of three complete columns *)
Lemma method_is_estimate nr x y z : full nr x -> full nr y -> full nr z ->
  exists t, (match tc_rows x y z with None => Ok tc_nan | Some rows => tcol_metrics rows 0 end) = Ok t /\
    tcol_method 0 [x; y; z] = Ok [component 0 t; component 1 t; component 2 t].
Proof.
  intros X Y Z. rewrite (tcol_method_full nr 0 x y z X Y Z). unfold tc_rows. rewrite (full_all_some nr x X), (full_all_some nr y Y), (full_all_some nr z Z). cbn [obind omap].
  unfold rows3. rewrite rows_same. destruct (tcol_lengths (map (fun p => fun i : nat => match i with 0%nat => fst (fst p) | 1%nat => snd (fst p) | _ => snd p end)
    (combine (combine (map Q2R (vals x)) (map Q2R (vals y))) (map Q2R (vals z)))) 0 ltac:(lia)) as (s & e & b & E & _).
  exists (s, e, b). rewrite E. split; reflexivity.
Qed.

Section Triple.
Variables (min_obs : nat) (meta : metadata).
Variable ppf : R -> option R.
Variable cdf : R -> R.
Variable draws : string -> list (list nat).

(* TripleCollocationMetrics with the reference in the first column *)
Lemma triple_exact refname x y o g i u v w t : good_meta meta i ["n_obs"] -> f_cols g = [refname; x; y] -> NoDup [refname; x; y] -> (min_obs <= nrows g)%nat ->
  column g refname = Ok u -> column g x = Ok v -> column g y = Ok w ->
  (match tc_rows u v w with None => Ok tc_nan | Some rows => tcol_metrics rows 0 end) = Ok t ->
  exists e, tc_calc min_obs meta ppf cdf draws refname false o g i = Ok e /\ holds e ["n_obs"] (RInt (Z.of_nat (nrows g))) /\ holds e ["status"] (RInt 0) /\
    forall k j, (k < 3)%nat -> (j < 3)%nat -> holds e [nth j tc_names ""; nth k [refname; x; y] ""] (RNum (nth k (component j t) None)).
Proof.
  intros G FC ND M CU CV CW T. unfold tc_calc. fold (tc_base meta).
  destruct (meta_calc_ok (tc_base meta) meta i _ (tc_base_has meta) G) as (d & E & PREP). rewrite E. cbn [bindR].
  destruct (set_n_obs d (tc_base meta) meta i ["n_obs"] (count g) PREP G) as (d1 & E1 & PREP1 & HN); [left; reflexivity|apply names_single; left; reflexivity|].
  rewrite E1. cbn [bindR]. rewrite FC. cbn [remove_first]. rewrite String.eqb_refl. cbv zeta. rewrite (proj2 (Nat.ltb_ge _ _) M).
  cbn [map]. rewrite CU, CV, CW. cbn [seqR bindR mapR]. rewrite T.
  set (names := [refname; x; y]) in *.
  assert (NS : forall s, ~ In [s] (map fst (tc_template false names))).
  { intros s I. apply (proj1 (tc_template_keys _ _ _)) in I as (m & n & EQ & _). discriminate. }
  assert (PREP2 : prepared_n (ds_update d1 (tc_template false names)) (tc_full meta false names) meta i) by (apply prepared_update; [exact PREP1|exact NS|apply tc_template_single]).
  assert (HN2 : holds (ds_update d1 (tc_template false names)) ["n_obs"] (count g)) by (unfold holds; rewrite get_update_out by apply NS; exact HN).
  destruct (finish_ok (ds_update d1 (tc_template false names)) (tc_full meta false names) meta i ["n_obs"] (tc_values names t) PREP2 (tc_full_has _ _ _) G)
      as (d0 & d' & E0 & E2 & ID & MC & SS & VAL & SG & KEEP).
  - intros k c I. destruct (tc_values_keys _ _ _ _ I) as (m & s & -> & S0 & M0). split; [|discriminate].
    apply single_update_in; [apply tc_template_single|]. apply tc_template_keys. exists m, s. auto.
  - cbn. intuition discriminate.
  - intros s I J. cbn in I, J. intuition (subst; discriminate).
  - apply tc_values_nodup, ND.
  - exists d'. rewrite E0. cbn [bindR]. split; [exact E2|]. split.
    { unfold holds. rewrite KEEP; [exact HN2|discriminate|]. intros I. apply in_map_iff in I as ([k c] & EQ & I). cbn in EQ. subst k.
      destruct (tc_values_keys _ _ _ _ I) as (m & s & EQ & _). discriminate. }
    split; [exact SS|]. intros k j K J. apply VAL, tc_values_in; [exact K|exact J].
Qed.

(* For every triple of the reference and two other datasets TCMetrics reports the estimates that
   TripleCollocationMetrics gives for these three columns. *)
Theorem C125_triple m_pearson m_spearman m_kendall m_bias m_ubrmsd m_rmsd m_mse m_rss scale_mean_std others nonref names for_ref lay template calc_tau o f i d x y label g :
  (forall g h, scale_mean_std g = Ok h -> f_cols h = f_cols g) ->
  tcm_init others nonref names = Ok lay -> tcm_template meta lay for_ref = Ok template -> NoDup ("ref" :: others) -> f_cols f = "ref" :: others ->
  (2 <= List.length others)%nat -> (1 <= min_obs)%nat -> (min_obs <= nrows f)%nat -> wf_frame f -> no_gaps f ->
  good_meta meta i ("n_obs" :: pair_keys lay ++ triple_keys lay) -> good_meta meta i ["n_obs"] -> NoDup (map snd (l_pairs lay)) -> NoDup (triple_keys lay) ->
  tcm_calc m_pearson m_spearman m_kendall m_bias m_ubrmsd m_rmsd m_mse m_rss scale_mean_std min_obs meta lay template calc_tau f i = Ok d ->
  In (["ref"; x; y], label) (l_triples lay) -> select f ["ref"; x; y] = Ok g ->
  exists e, tc_calc min_obs meta ppf cdf draws "ref" false o g i = Ok e /\ same_entry d ["n_obs"] e ["n_obs"] /\ same_entry d ["status"] e ["status"] /\
    forall m c name, In m ["snr"; "err_std"; "beta"] -> In c ["ref"; x; y] -> for_ref = true \/ c <> "ref" -> lut_get (l_lut lay) c = Ok name ->
      same_entry d [t_key m name label] e [m; c].
Proof.
  intros SK HI HT NC FC L2 MO M W C G1 G2 NL NT D IT SG.
  assert (FULL : forall r, In r (f_rows f) -> List.length (snd r) = List.length (f_cols f) /\ Forall (fun x => x <> None) (snd r)).
  { intros r R0. split; [exact (W r R0)|]. apply Forall_forall. intros q Q X. assert (Z := C r q R0 Q). rewrite X in Z. discriminate. }
  assert (T : exists named, pair_tables m_pearson m_spearman m_kendall m_bias m_ubrmsd m_rmsd m_mse m_rss scale_mean_std true calc_tau f = Ok named).
  { unfold tcm_calc in D. destruct (meta_calc _ _ _) as [d0|]; [|discriminate]. cbn [bindR] in D. destruct (set0 d0 _ _) as [d1|]; [|discriminate]. cbn [bindR] in D.
    rewrite (proj2 (Nat.ltb_ge _ _) M) in D. destruct (pair_tables _ _ _ _ _ _ _ _ _ _ _ _) as [named|]; [|discriminate]. eauto. }
  destruct T as (named & T).
  destruct (C58_tcm m_pearson m_spearman m_kendall m_bias m_ubrmsd m_rmsd m_mse m_rss scale_mean_std min_obs meta SK others nonref names for_ref lay template calc_tau f i
    HI HT NC FC L2 MO FULL G1 NL NT named (fun _ => T)) as (d' & D' & _ & _ & HN & _ & SU).
  assert (d' = d) by congruence. subst d'. destruct (SU M) as ([ST _] & _ & TV & _). clear SU.
  (* the three columns *)
  destruct (proj1 (C58_tcm_triples others nonref names lay HI NC ["ref"; x; y]) (in_map fst _ _ IT)) as (a & b & EQ & AB & BL). injection EQ as EX EY.
  assert (IX : In x others) by (rewrite EX; apply nth_In; lia). assert (IY : In y others) by (rewrite EY; apply nth_In; lia).
  apply NoDup_cons_iff in NC as [NR NO].
  assert (ND3 : NoDup ["ref"; x; y]).
  { constructor; [intros [X|[X|[]]]; apply NR; rewrite <- X; assumption|]. constructor; [|constructor; [intros []|constructor]]. intros [X|[]].
    assert (a = b); [|lia]. apply (proj1 (NoDup_nth others "") NO); [lia|lia|congruence]. }
  assert (I3 : incl ["ref"; x; y] (f_cols f)) by (rewrite FC; intros z [<-|[<-|[<-|[]]]]; [left; reflexivity|right; exact IX|right; exact IY]).
  destruct (select_ok f ["ref"; x; y] I3 ND3) as (g' & SG' & CG & NG & _ & CO). assert (g' = g) by congruence. subst g'.
  destruct (CalcProofs.column_ok f "ref" (I3 "ref" (or_introl eq_refl))) as (u & CU & LU). destruct (CalcProofs.column_ok f x (I3 x (or_intror (or_introl eq_refl)))) as (v & CV & LV).
  destruct (CalcProofs.column_ok f y (I3 y (or_intror (or_intror (or_introl eq_refl))))) as (w & CW & LW).
  assert (FU : forall s l, CalcModel.column f s = Ok l -> List.length l = nrows f -> full (nrows f) l).
  { intros s l E L. split; [exact L|]. apply Forall_forall. intros q Q X. assert (Z := column_notna f s l q W C E Q). rewrite X in Z. discriminate. }
  destruct (method_is_estimate (nrows f) u v w (FU _ _ CU LU) (FU _ _ CV LV) (FU _ _ CW LW)) as (t & E1 & E2).
  destruct (triple_exact "ref" x y o g i u v w t G2 CG ND3 ltac:(rewrite NG; exact M)) as (e & E & EN & ES & EV);
    [rewrite CO by (cbn; tauto); exact CU|rewrite CO by (cbn; tauto); exact CV|rewrite CO by (cbn; tauto); exact CW|exact E1|].
  rewrite NG in EN. exists e. split; [exact E|]. split; [eexists; split; [exact HN|exact EN]|]. split; [eexists; split; [exact ST|exact ES]|].
  intros m c name IM ICc FR LUT.
  assert (P : exists k, (k < 3)%nat /\ nth k ["ref"; x; y] "" = c /\ (for_ref = true \/ k <> 0%nat)).
  { cbn in ICc. destruct ICc as [X|[X|[X|[]]]]; [exists 0%nat|exists 1%nat|exists 2%nat]; (split; [lia|]); (split; [exact X|]); destruct FR as [FR|FR]; auto. }
  destruct P as (k & K3 & NK & FK). rewrite <- NK in LUT.
  destruct (TV x y label u v w _ _ _ k name IT CU CV CW E2 K3 FK LUT) as (V0 & V1 & V2). rewrite <- NK.
  cbn in IM. destruct IM as [<-|[<-|[<-|[]]]]; eexists; (split; [eassumption|]); [exact (EV k 0%nat K3 ltac:(lia))|exact (EV k 1%nat K3 ltac:(lia))|exact (EV k 2%nat K3 ltac:(lia))].
Qed.
End Triple.
Print Assumptions C125_triple.
(* the frame of C58_tcm_example meets the remaining hypotheses *)
Example C125_triple_example : wf_frame four /\ no_gaps four /\ (1 <= 10)%nat /\ (10 <= nrows four)%nat /\ exists g, select four ["ref"; "k1"; "k3"] = Ok g.
Proof.
  split; [|split; [|split; [lia|split; [cbn; lia|eexists; reflexivity]]]].
  - intros r I. cbn in I. repeat (destruct I as [<-|I]; [reflexivity|]). destruct I.
  - intros r c I J. cbn in I. repeat (destruct I as [<-|I]; [cbn in J; repeat (destruct J as [<-|J]; [reflexivity|]); destruct J|]). destruct I.
Qed.
