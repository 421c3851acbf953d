(* C129: how the metrics of a whole follow from the metrics of its pieces (seasons, periods, groups of locations). *)
From Coq Require Import Reals Lra Permutation List Lia.
From Verif Require Import Base GroupingModel GroupingSpec MetricsModel MetricsSpec RStatsProofs MetricsProofs MetricsProps CalcModel CalcSpec CalcProofs2 SubsetModel SubsetSpec SubsetBasic AgreeSpec PiecesProofs.
Open Scope R_scope.
Open Scope list_scope.

(* The whole data are cut into nonempty pieces: the residual sums add up; bias, mean absolute and mean square difference of the
   whole are the means over the pieces, weighted with their numbers of observations; the unbiased difference of the whole is at
   least that of the pieces. *)
Theorem C129_pieces (d : pairs) (ps : list pairs) : d <> [] -> Permutation d (List.concat ps) -> (forall p, In p ps -> p <> []) ->
  exists B E A U : pairs -> R,
    (forall p, In p (d :: ps) -> bias p = Some (B p) /\ rmsd p 0 = Some (E p) /\ msd p = Some (E p * E p) /\ aad p = Some (A p) /\ ubrmsd p 0 = Some (U p)) /\
    rlen d = rsum (map rlen ps) /\ RSS d = rsum (map RSS ps) /\
    rlen d * B d = rsum (map (fun p => rlen p * B p) ps) /\
    rlen d * A d = rsum (map (fun p => rlen p * A p) ps) /\
    rlen d * (E d * E d) = rsum (map (fun p => rlen p * (E p * E p)) ps) /\
    rsum (map (fun p => rlen p * (U p * U p)) ps) <= rlen d * (U d * U d).
Proof.
  intros N P H. set (B := fun p : pairs => rmean (map (fun q => fst q - snd q) p)). set (E := fun p : pairs => sqrt (mean_square_diff p)).
  set (A := fun p : pairs => rmean (map (fun q => Rabs (fst q - snd q)) p)). set (U := fun p : pairs => sqrt (ub2 p)).
  exists B, E, A, U. assert (NE : forall p, In p (d :: ps) -> p <> []) by (intros p [<-|I]; [exact N|exact (H p I)]).
  assert (EE : forall p, E p * E p = mean_square_diff p) by (intros p; apply sqrt_sqrt, msd_nonneg).
  assert (ES : rlen d * (E d * E d) = rsum (map (fun p => rlen p * (E p * E p)) ps)).
  { rewrite EE. rewrite (rsum_ext (fun p => rlen p * (E p * E p)) (fun p => rlen p * mean_square_diff p)) by (intros p _; rewrite EE; reflexivity). apply mean_split; assumption. }
  assert (BS : rlen d * B d = rsum (map (fun p => rlen p * B p) ps)) by (apply mean_split; assumption).
  assert (BE : forall p, p <> [] -> bias p = Some (B p)) by (intros p Q; apply bias_mean, Q).
  assert (EU : forall p, p <> [] -> U p * U p = E p * E p - B p * B p).
  { intros p Q. destruct (C48_pythagoras p Q) as (e & u & b & X1 & X2 & X3 & X4). rewrite rmsd_correct in X1 by exact Q. rewrite ubrmsd_correct in X2 by exact Q. rewrite BE in X3 by exact Q.
    injection X1 as X1. injection X2 as X2. injection X3 as X3. change (sqrt (mean_square_diff p)) with (E p) in X1. change (sqrt (ub2 p)) with (U p) in X2. rewrite X1, X2, X3. lra. }
  split.
  - intros p I. specialize (NE p I). split; [apply BE, NE|]. split; [apply rmsd_correct, NE|]. split; [rewrite EE; apply msd_correct, NE|]. split; [apply aad_correct, NE|apply ubrmsd_correct, NE].
  - split; [apply rlen_split, P|]. split.
    + rewrite rss_sum. rewrite (rsum_split _ d ps P). apply rsum_ext. intros p _. symmetry. apply rss_sum.
    + split; [exact BS|]. split; [apply mean_split; assumption|]. split; [exact ES|].
      rewrite (EU d N). rewrite (rsum_ext (fun p => rlen p * (U p * U p)) (fun p => rlen p * (E p * E p) - rlen p * (B p * B p))) by (intros p I; rewrite (EU p (H p I)); ring).
      rewrite rsum_minus. rewrite <- ES. pose proof (weighted_square rlen B ps (rlen d) (B d) (fun p _ => rlen_nonneg p) (rlen_split d ps P) (rlen_pos d N) BS). lra.
Qed.

(* The bias of the whole lies between the smallest and the largest bias of the pieces *)
Theorem C129_between (d : pairs) (ps : list pairs) (lo hi : R) : d <> [] -> Permutation d (List.concat ps) -> (forall p, In p ps -> p <> []) ->
  (forall p, In p ps -> exists b, bias p = Some b /\ lo <= b <= hi) -> exists b, bias d = Some b /\ lo <= b <= hi.
Proof.
  intros N P H L. destruct (C129_pieces d ps N P H) as (B & E & A & U & V & LN & _ & BS & _). destruct (V d (or_introl eq_refl)) as [BD _]. exists (B d). split; [exact BD|].
  assert (X : lo * rlen d <= rlen d * B d <= hi * rlen d).
  { rewrite BS, LN. rewrite <- !rsum_scal. split; apply rsum_le; intros p I; destruct (L p I) as (b & Eb & Lb); destruct (V p (or_intror I)) as [BP _]; assert (b = B p) by congruence; subst b; pose proof (rlen_pos p (H p I)); nra. }
  pose proof (rlen_pos d N). split; apply (Rmult_le_reg_r (rlen d)); lra.
Qed.

(* Correlations do not work like this: positive in every season, negative over the year *)
Definition season1 : pairs := [(0, 10); (1, 11)].
Definition season2 : pairs := [(10, 0); (11, 1)].
Lemma sign_of_correlation d : d <> [] -> ~ constant (xs d) -> ~ constant (ys d) -> exists s, 0 < s /\ correlation d = cov d * s.
Proof.
  intros N X Y. assert (PX : 0 < std (xs d)) by (destruct (std_nonneg (xs d)) as [Z|Z]; [exact Z|exfalso; apply X, std_zero; [apply map_ne, N|symmetry; exact Z]]).
  assert (PY : 0 < std (ys d)) by (destruct (std_nonneg (ys d)) as [Z|Z]; [exact Z|exfalso; apply Y, std_zero; [apply map_ne, N|symmetry; exact Z]]).
  exists (/ (std (xs d) * std (ys d))). split; [apply Rinv_0_lt_compat, Rmult_lt_0_compat; assumption|reflexivity].
Qed.
Theorem C129_correlation_refuted betainc : exists d ps, Permutation d (List.concat ps) /\ (forall p, In p ps -> exists r pv, pearson_of betainc p = Some (r, pv) /\ 0 < r) /\
  exists r pv, pearson_of betainc d = Some (r, pv) /\ r < 0.
Proof.
  exists (season1 ++ season2), [season1; season2]. split; [cbn; apply Permutation_refl|].
  assert (NC : forall d u v, In u d -> In v d -> u <> v -> ~ constant d) by (intros d u v Iu Iv D C; apply D, C; assumption).
  assert (C1 : cov season1 = 1 / 4) by (unfold cov, season1, rmean, rlen; cbn; field).
  assert (C2 : cov season2 = 1 / 4) by (unfold cov, season2, rmean, rlen; cbn; field).
  assert (C3 : cov (season1 ++ season2) = - (99 / 4)) by (unfold cov, season1, season2, rmean, rlen; cbn; field).
  split.
  - intros p [<-|[<-|[]]].
    + assert (X : ~ constant (xs season1)) by (apply (NC _ 0 1); cbn; [tauto|tauto|lra]). assert (Y : ~ constant (ys season1)) by (apply (NC _ 10 11); cbn; [tauto|tauto|lra]).
      destruct (C47_value betainc season1 ltac:(discriminate) X Y) as (pv & E & _). eexists _, pv. split; [exact E|]. destruct (sign_of_correlation season1 ltac:(discriminate) X Y) as (s & S & ->). rewrite C1. nra.
    + assert (X : ~ constant (xs season2)) by (apply (NC _ 10 11); cbn; [tauto|tauto|lra]). assert (Y : ~ constant (ys season2)) by (apply (NC _ 0 1); cbn; [tauto|tauto|lra]).
      destruct (C47_value betainc season2 ltac:(discriminate) X Y) as (pv & E & _). eexists _, pv. split; [exact E|]. destruct (sign_of_correlation season2 ltac:(discriminate) X Y) as (s & S & ->). rewrite C2. nra.
  - assert (X : ~ constant (xs (season1 ++ season2))) by (apply (NC _ 0 1); cbn; [tauto|tauto|lra]). assert (Y : ~ constant (ys (season1 ++ season2))) by (apply (NC _ 10 11); cbn; [tauto|tauto|lra]).
    destruct (C47_value betainc (season1 ++ season2) ltac:(discriminate) X Y) as (pv & E & _). eexists _, pv. split; [exact E|]. destruct (sign_of_correlation (season1 ++ season2) ltac:(discriminate) X Y) as (s & S & ->). rewrite C3. nra.
Qed.

(* ---- the seasonal adapter ---- *)
(* the observation of row r was made in one of the months l *)
Definition in_months (l : list Z) (r : frow) : bool := existsb (Z.eqb (dm (t_date (fst r)))) l.

Lemma in_months_iff l r : in_months l r = true <-> In (dm (t_date (fst r))) l.
Proof.
  unfold in_months. rewrite existsb_exists. split; [intros (m & I & E); apply Z.eqb_eq in E; subst m; exact I|intros I; exists (dm (t_date (fst r))); split; [exact I|apply Z.eqb_refl]].
Qed.
Lemma subsequence_filter {A} (P : A -> Prop) (b : A -> bool) l k : (forall a, b a = true <-> P a) -> subsequence P l k -> k = filter b l.
Proof.
  intros H S. induction S as [|a l k Pa S IH|a l k Pa S IH]; cbn [filter]; [reflexivity| |].
  - rewrite (proj2 (H a) Pa), IH. reflexivity.
  - destruct (b a) eqn:B; [exfalso; apply Pa, H, B|exact IH].
Qed.
Lemma parts_permutation {A B} (b : B -> A -> bool) (parts : list B) (rows : list A) :
  (forall r, In r rows -> List.length (filter (fun e => b e r) parts) = 1%nat) -> Permutation rows (List.concat (map (fun e => filter (b e) rows) parts)).
Proof.
  induction rows as [|r rows IH]; intros H.
  - cbn [filter]. replace (List.concat (map (fun _ : B => @nil A) parts)) with (@nil A) by (clear; induction parts; [reflexivity|assumption]). constructor.
  - assert (X : Permutation (List.concat (map (fun e => filter (b e) (r :: rows)) parts)) (repeat r (List.length (filter (fun e => b e r) parts)) ++ List.concat (map (fun e => filter (b e) rows) parts))).
    { clear. induction parts as [|e parts IH]; [constructor|]. cbn [map List.concat filter]. destruct (b e r); cbn [List.length repeat app].
      - constructor. eapply Permutation_trans; [apply Permutation_app_head, IH|]. rewrite !app_assoc. apply Permutation_app_tail, Permutation_app_comm.
      - eapply Permutation_trans; [apply Permutation_app_head, IH|]. rewrite !app_assoc. apply Permutation_app_tail, Permutation_app_comm. }
    rewrite (H r (or_introl eq_refl)) in X. cbn [repeat app] in X. apply Permutation_sym. eapply Permutation_trans; [exact X|]. constructor. apply Permutation_sym, IH. intros s I. apply H. right. exact I.
Qed.
Lemma list_sum_length {A} (ps : list (list A)) : List.length (List.concat ps) = list_sum (map (@List.length A) ps).
Proof. induction ps as [|p ps IH]; [reflexivity|]. cbn [List.concat map]. rewrite app_length, IH. reflexivity. Qed.
Lemma index_lt l s i : index_of l s = Some i -> (i < List.length l)%nat.
Proof. revert i. induction l as [|x l IH]; cbn; intros i; [discriminate|]. destruct (String.eqb x s); [intros E; injection E as <-; lia|]. destruct (index_of l s) as [k|]; [|discriminate]. cbn. intros E. injection E as <-. specialize (IH k eq_refl). lia. Qed.

Theorem C129_seasons sp_pearson sp_spearman sp_kendall min_obs meta template other calc_tau (months parts : list (string * list Z)) (whole : string * list Z) f i :
  good_meta meta i basic_names -> In "ref"%string (f_cols f) -> In other (f_cols f) -> wf_frame f -> no_gaps f ->
  NoDup (map fst months) -> (forall name l m, In (name, l) months -> In m l -> (1 <= m <= 12)%Z) ->
  (forall r, In r (f_rows f) -> valid_ts (fst r) /\ whole_second (fst r)) ->
  (* the parts cut the year up, the whole is all of it *)
  In whole months -> incl parts months -> parts <> [] ->
  (forall r, In r (f_rows f) -> in_months (snd whole) r = true /\ List.length (filter (fun e => in_months (snd e) r) parts) = 1%nat) ->
  (* every part has enough data *)
  (1 <= min_obs)%nat -> (forall e, In e parts -> (min_obs <= List.length (filter (in_months (snd e)) (f_rows f)))%nat) ->
  exists own subsets d, months_init (map (fun e => (fst e, Months (snd e))) months) = Ok (own, subsets) /\
    subset_calc template meta (basic_calc sp_pearson sp_spearman sp_kendall min_obs meta other calc_tau) GTuple subsets f i = Ok d /\
    exists (N : string * list Z -> nat) (B E : string * list Z -> R),
      (forall e, In e (whole :: parts) -> holds d [fst e; "n_obs"%string] (RInt (Z.of_nat (N e))) /\ holds d [fst e; "BIAS"%string] (RNum (Some (B e))) /\ holds d [fst e; "RMSD"%string] (RNum (Some (E e)))) /\
      N whole = list_sum (map N parts) /\
      INR (N whole) * B whole = rsum (map (fun e => INR (N e) * B e) parts) /\
      INR (N whole) * (E whole * E whole) = rsum (map (fun e => INR (N e) * (E e * E e)) parts).
Proof.
  intros G CR CO W NG ND M V IW IP NP ONE MO ENOUGH.
  destruct (C60_months_basic sp_pearson sp_spearman sp_kendall min_obs meta template other calc_tau months f i G CR CO ND M V) as (own & subsets & d & E1 & E2 & _ & H); [intros Z; rewrite Z in IW; destruct IW|].
  exists own, subsets, d. split; [exact E1|]. split; [exact E2|].
  destruct (index_of (f_cols f) "ref") as [ir|] eqn:IR. 2:{ exfalso. revert CR IR. clear. induction (f_cols f) as [|x l IH]; cbn; [tauto|]. destruct (String.eqb x "ref") eqn:B; [discriminate|]. intros [E|I] X; [subst; rewrite String.eqb_refl in B; discriminate|]. apply (IH I). destruct (index_of l "ref"); [discriminate|reflexivity]. }
  destruct (index_of (f_cols f) other) as [io|] eqn:IO. 2:{ exfalso. revert CO IO. clear. induction (f_cols f) as [|x l IH]; cbn; [tauto|]. destruct (String.eqb x other) eqn:B; [discriminate|]. intros [E|I] X; [subst; rewrite String.eqb_refl in B; discriminate|]. apply (IH I). destruct (index_of l other); [discriminate|reflexivity]. }
  set (val := fun (j : nat) (r : frow) => match nth j (snd r) None with Some q => q | None => 0%Q end). set (pr := fun r : frow => (Q2R (val ir r), Q2R (val io r))).
  assert (PRES : forall j, (j < List.length (f_cols f))%nat -> forall rows, incl rows (f_rows f) -> map (fun r : frow => nth j (snd r) None) rows = map (fun r => Some (val j r)) rows).
  { intros j J rows IN. apply map_ext_in. intros r I. unfold val. assert (IC : In (nth j (snd r) None) (snd r)) by (apply nth_In; rewrite (W r (IN r I)); exact J). pose proof (NG r _ (IN r I) IC) as Z. destruct (nth j (snd r) None); [reflexivity|discriminate Z]. }
  set (rows := fun e : string * list Z => filter (in_months (snd e)) (f_rows f)).
  assert (RI : forall e, incl (rows e) (f_rows f)) by (intros e r I; apply filter_In in I as [I _]; exact I).
  assert (PM : Permutation (f_rows f) (List.concat (map rows parts))) by (apply (parts_permutation (fun e => in_months (snd e))); intros r I; apply ONE, I).
  assert (RW : rows whole = f_rows f).
  { unfold rows. assert (A : forall r, In r (f_rows f) -> in_months (snd whole) r = true) by (intros r I; apply ONE, I). revert A. generalize (f_rows f). clear. induction l as [|r l IH]; intros A; [reflexivity|]. cbn [filter]. rewrite (A r (or_introl eq_refl)). f_equal. apply IH. intros s I. apply A. right. exact I. }
  assert (NR : forall e, In e parts -> (min_obs <= List.length (rows e))%nat) by (intros e I; apply ENOUGH, I).
  assert (NW : (min_obs <= List.length (rows whole))%nat).
  { rewrite RW. rewrite (Permutation_length PM), list_sum_length. destruct parts as [|e parts']; [congruence|]. cbn [map list_sum fold_right]. pose proof (NR e (or_introl eq_refl)). change (fold_right Nat.add 0%nat) with list_sum. lia. }
  assert (NE : forall e, In e (whole :: parts) -> map pr (rows e) <> []).
  { intros e I Z. assert (L : (min_obs <= List.length (rows e))%nat) by (destruct I as [<-|I]; [exact NW|exact (NR e I)]). apply (f_equal (@List.length _)) in Z. rewrite map_length in Z. cbn in Z. lia. }
  destruct (C129_pieces (map pr (rows whole)) (map (fun e => map pr (rows e)) parts)) as (B & E & A & U & VAL & LN & _ & BS & _ & ES & _).
  - apply NE. left. reflexivity.
  - rewrite RW. replace (List.concat (map (fun e => map pr (rows e)) parts)) with (map pr (List.concat (map rows parts))) by (rewrite concat_map, map_map; reflexivity). apply Permutation_map, PM.
  - intros p I. apply in_map_iff in I as (e & <- & I). apply NE. right. exact I.
  - exists (fun e => List.length (rows e)), (fun e => B (map pr (rows e))), (fun e => E (map pr (rows e))). split; [|split; [|split]].
    + intros e I. assert (IM : In e months) by (destruct I as [<-|I]; [exact IW|exact (IP e I)]). destruct e as [name l].
      destruct (H name l IM) as (g & [GC GS] & _ & SU). apply (subsequence_filter _ (in_months l)) in GS; [|intros r; apply in_months_iff].
      assert (NG' : (min_obs <= nrows g)%nat) by (unfold nrows; rewrite GS; change (filter (in_months l) (f_rows f)) with (rows (name, l)); destruct I as [<-|I]; [exact NW|exact (NR _ I)]).
      destruct (SU NG') as (x & y & X & Y & _ & NO & VS). unfold column in X, Y. rewrite GC, IR in X. rewrite GC, IO in Y. injection X as <-. injection Y as <-.
      assert (CP : complete (col_at g ir) (col_at g io) = Some (map pr (rows (name, l)))).
      { unfold col_at. rewrite GS. change (filter (in_months l) (f_rows f)) with (rows (name, l)). transitivity (complete (map (fun r => Some (val ir r)) (rows (name, l))) (map (fun r => Some (val io r)) (rows (name, l)))); [|apply complete_map]. f_equal; [exact (PRES ir (index_lt _ _ _ IR) _ (RI (name, l)))|exact (PRES io (index_lt _ _ _ IO) _ (RI (name, l)))]. }
      assert (IV : In (map pr (rows (name, l))) (map pr (rows whole) :: map (fun e => map pr (rows e)) parts)) by (destruct I as [I|I]; [left; rewrite I; reflexivity|right; apply in_map_iff; exists (name, l); split; [reflexivity|exact I]]).
      destruct (VAL _ IV) as (VB & VE & _). split; [|split].
      * unfold nrows in NO. rewrite GS in NO. exact NO.
      * apply VS. unfold basic_values. unfold on_pairs. rewrite CP. cbn [obind]. rewrite VB. cbn. tauto.
      * apply VS. unfold basic_values. unfold on_pairs. rewrite CP. cbn [obind]. rewrite VE. cbn. tauto.
    + cbv beta. rewrite RW. rewrite (Permutation_length PM), list_sum_length, map_map. reflexivity.
    + cbv beta. rewrite map_map in BS. unfold rlen in BS. rewrite map_length in BS. rewrite BS. apply rsum_ext. intros e _. rewrite map_length. reflexivity.
    + cbv beta. rewrite map_map in ES. unfold rlen in ES. rewrite map_length in ES. rewrite ES. apply rsum_ext. intros e _. rewrite map_length. reflexivity.
Qed.

(* Non-vacuity *)
Definition two_days : frame := Frame ["ref"; "k1"]%string
  [(mkTs (mkDate 2019 12 31) 0, [Some 1%Q; Some 3%Q]); (mkTs (mkDate 2020 2 29) 0, [Some 2%Q; Some 1%Q]); (mkTs (mkDate 2020 7 1) 0, [Some 5%Q; Some 5%Q])].
Definition halves : list (string * list Z) := [("summer"%string, [4; 5; 6; 7; 8; 9]%Z); ("winter"%string, [10; 11; 12; 1; 2; 3]%Z)].
Definition year : string * list Z := ("year"%string, [1; 2; 3; 4; 5; 6; 7; 8; 9; 10; 11; 12]%Z).
Example C129_ex_seasons : NoDup (map fst (year :: halves)) /\ (forall name l m, In (name, l) (year :: halves) -> In m l -> (1 <= m <= 12)%Z) /\
  (forall r, In r (f_rows two_days) -> valid_ts (fst r) /\ whole_second (fst r)) /\ wf_frame two_days /\ no_gaps two_days /\
  (forall r, In r (f_rows two_days) -> in_months (snd year) r = true /\ List.length (filter (fun e => in_months (snd e) r) halves) = 1%nat) /\
  (forall e, In e halves -> (1 <= List.length (filter (in_months (snd e)) (f_rows two_days)))%nat).
Proof.
  split; [cbn; repeat constructor; cbn; intuition discriminate|]. split; [intros name l m I J; cbn in I; repeat destruct I as [E|I]; try contradiction; injection E as <- <-; cbn in J; repeat destruct J as [<-|J]; try contradiction; lia|].
  split; [intros r I; cbn in I; repeat destruct I as [<-|I]; try contradiction; (split; [vm_compute; repeat split; discriminate|exists 0%Z; reflexivity])|].
  split; [intros r I; cbn in I; repeat destruct I as [<-|I]; try contradiction; reflexivity|]. split; [intros r c I J; cbn in I; repeat destruct I as [<-|I]; try contradiction; cbn in J; repeat destruct J as [<-|J]; try contradiction; reflexivity|].
  split; [intros r I; cbn in I; repeat destruct I as [<-|I]; try contradiction; split; reflexivity|]. intros e I. cbn in I. repeat destruct I as [<-|I]; try contradiction; cbn; lia.
Qed.
Example C129_ex_pieces : Permutation (season1 ++ season2) (List.concat [season1; season2]) /\ bias season1 = Some (-10) /\ bias season2 = Some 10 /\ bias (season1 ++ season2) = Some 0.
Proof.
  split; [apply Permutation_refl|]. repeat split; (rewrite bias_mean by discriminate; f_equal; unfold season1, season2, rmean, rlen; cbn; field).
Qed.

Print Assumptions C129_pieces. Print Assumptions C129_between. Print Assumptions C129_correlation_refuted. Print Assumptions C129_seasons.
