(* The order of the columns: the dictionary. *)
From Verif Require Import Base NamesModel GroupingModel MatchersModel RStats RStatsProofs TcolModel TcolSpec TcolProofs TcolProofs2 DfMetricsModel EcolModel EcolSpec EcolProofs EcolProofs2 EcolProofs3 EcolProofs4 EcolProofs5.
From Coq Require Import Reals Qreals Lia Lra Permutation FinFun.
Import ListNotations.
Open Scope R_scope.

Lemma nth_seq_map {A} (g : nat -> A) n i d : (i < n)%nat -> nth i (map g (seq 0 n)) d = g i.
Proof. intros H. rewrite (nth_indep _ d (g 0%nat)) by (rewrite map_length, seq_length; exact H). rewrite map_nth, seq_nth by exact H. reflexivity. Qed.

(* the error correlations are those of the estimates before absolute values are taken *)
Definition corr_of (err : nat -> R) (p : nat * nat) (v : R) : option R := obind (np_sqrt (err (fst p) * err (snd p))) (fun s => fdiv v s).
Lemma e_corr_value lstsq n C co ec ae r : columns_of n co -> ecol_from_cov lstsq n C co ec ae = Ok r ->
  exists r0, ecol_from_cov lstsq n C co ec false = Ok r0 /\ e_cov r = e_cov r0 /\
    e_corr r = map (fun pv => corr_of (fun i => nth i (e_err r0) 0) (fst pv) (snd pv)) (combine co (e_cov r0)).
Proof.
  intros PO. unfold ecol_from_cov. cbn zeta. destruct (lstsq _ _ _) as [x|]; [|discriminate]. intros E. injection E as <-. eexists. split; [reflexivity|]. cbn [e_sig e_err e_snr e_cov e_corr]. split; [reflexivity|].
  apply map_ext_in. intros [p v] I. apply in_combine_l in I. destruct (PO p I) as [H1 H2]. unfold corr_of. cbn [fst snd]. rewrite !(nth_seq_map (fun i => x (n + List.length co + i)%nat)) by assumption. reflexivity.
Qed.

Section Same.
Variables (lstsq : list (nat -> R) -> list R -> nat -> option (nat -> R)) (n : nat) (sg : nat -> nat) (C C' : matrix) (co : list (nat * nat)) (ec ec' : option (nat * nat * R)).
Hypotheses (LS : least_squares lstsq) (INJ : forall i j, sg i = sg j -> i = j) (PE : Permutation (map sg (seq 0 n)) (seq 0 n))
  (CC : forall i j, subtract C ec i j = subtract C' ec' (sg i) (sg j)) (SY : forall i j, subtract C' ec' i j = subtract C' ec' j i)
  (PO : columns_of n co) (ES : estimable n co).
Let co' := map (sp sg) co.

Lemma sg_lt i : (i < n)%nat -> (sg i < n)%nat.
Proof. intros H. assert (I : In (sg i) (seq 0 n)) by (apply (Permutation_in _ PE), in_map, in_seq; lia). apply in_seq in I. lia. Qed.
Lemma columns_perm : columns_of n co'.
Proof. intros p I. apply in_map_iff in I as (q & <- & I). destruct (PO q I). cbn [sp fst snd]. split; apply sg_lt; assumption. Qed.
Lemma estimates_perm ae : exists r r', ecol_from_cov lstsq n C co ec ae = Ok r /\ ecol_from_cov lstsq n C' co' ec' ae = Ok r' /\
  (forall i, (i < n)%nat -> nth i (e_sig r) 0 = nth (sg i) (e_sig r') 0 /\ nth i (e_err r) 0 = nth (sg i) (e_err r') 0 /\ nth i (e_snr r) None = nth (sg i) (e_snr r') None) /\
  e_cov r = e_cov r' /\ e_corr r = e_corr r'.
Proof.
  assert (ES' : estimable n co') by (apply estimable_perm; assumption).
  assert (G : forall ae, exists r r', ecol_from_cov lstsq n C co ec ae = Ok r /\ ecol_from_cov lstsq n C' co' ec' ae = Ok r' /\
    (forall i, (i < n)%nat -> nth i (e_sig r) 0 = nth (sg i) (e_sig r') 0 /\ nth i (e_err r) 0 = nth (sg i) (e_err r') 0 /\ nth i (e_snr r) None = nth (sg i) (e_snr r') None) /\ e_cov r = e_cov r').
  { intros a. destruct (ecol_value lstsq LS n C co ec a ES) as (r & E1 & S1 & R1 & V1 & N1). destruct (ecol_value lstsq LS n C' co' ec' a ES') as (r' & E2 & S2 & R2 & V2 & N2).
    exists r, r'. split; [exact E1|]. split; [exact E2|]. pose proof (sig_est_perm n sg INJ PE (subtract C ec) (subtract C' ec') CC SY co) as SP. fold co' in SP. split.
    - intros i Hi. pose proof (sg_lt i Hi) as Hs. rewrite S1, R1, N1, S2, R2, N2. rewrite !nth_seq_map by assumption. rewrite SP, CC. split; [reflexivity|]. split; reflexivity.
    - rewrite V1, V2. assert (LL : List.length co' = List.length co) by apply map_length. rewrite LL. apply map_ext_in. intros i I. apply in_seq in I.
      rewrite (cross_est_perm n sg INJ PE (subtract C ec) (subtract C' ec') CC co i) by lia. fold co'. f_equal. unfold co'.
      rewrite (nth_indep (map (sp sg) co) (0, 0)%nat (sp sg (0, 0)%nat)) by (rewrite map_length; lia). rewrite map_nth. cbn [sp fst snd]. apply CC. }
  destruct (G ae) as (r & r' & E1 & E2 & V & K). exists r, r'. split; [exact E1|]. split; [exact E2|]. split; [exact V|]. split; [exact K|].
  destruct (e_corr_value lstsq n C co ec ae r PO E1) as (r0 & F1 & K1 & X1). destruct (e_corr_value lstsq n C' co' ec' ae r' columns_perm E2) as (r0' & F2 & K2 & X2).
  destruct (G false) as (s & s' & G1 & G2 & W & _). assert (s = r0) by congruence. assert (s' = r0') by congruence. subst s s'.
  rewrite X1, X2, <- K1, <- K2, K. unfold co'. revert PO. clear - W. generalize (e_cov r') as w. induction co as [|p l IH]; intros w PO; [reflexivity|]. destruct w as [|v w]; [reflexivity|].
  cbn [map combine fst snd]. f_equal; [|apply IH; intros q I; apply PO; right; exact I].
  destruct (PO p (or_introl eq_refl)) as [H1 H2]. unfold corr_of. cbn [sp fst snd]. destruct (W (fst p) H1) as (_ & -> & _). destruct (W (snd p) H2) as (_ & -> & _). reflexivity.
Qed.
End Same.

(* ---- results that are not finite ---- *)
Lemma solver_answers lstsq n co : least_squares lstsq -> estimable n co ->
  exists x, lstsq (design (n + List.length co)%nat (all_obs n (fun _ _ => 0) co)) (totals n (fun _ _ => 0) co ++ map snd (all_obs n (fun _ _ => 0) co)) (2 * (n + List.length co))%nat = Some x.
Proof.
  intros LS ES. destruct (ecol_value lstsq LS n (fun _ _ => 0) co None false ES) as (r & E & _). unfold ecol_from_cov in E. cbn zeta in E. cbn [subtract] in E.
  destruct (lstsq _ _ _) as [x|]; [|discriminate]. exists x. reflexivity.
Qed.
Lemma not_finite_dict lstsq cols C0 co ec ae : least_squares lstsq -> NoDup cols -> columns_of (List.length cols) co -> known_of (List.length cols) ec -> estimable (List.length cols) co ->
  match C0 with None => True | Some C => existsb zerob (divisors (List.length cols) (subtract C ec) co) = true end ->
  exists d, ecol_cov lstsq cols C0 (named cols co) (named_known cols ec) ae = Ok d /\
    forall k, (In k (tags cols (named cols co)) -> dict_get d k = Some None) /\ (~ In k (tags cols (named cols co)) -> dict_get d k = None).
Proof.
  intros LS ND PO KN ES Z. destruct (solver_answers lstsq (List.length cols) co LS ES) as (x & SX).
  assert (SO : solution lstsq (List.length cols) C0 co ec = Ok (repeat None (2 * (List.length cols + List.length co)))).
  { unfold solution. cbn zeta. rewrite SX. destruct C0 as [C|]; [|reflexivity]. rewrite Z. reflexivity. }
  exists (to_dict (combine (tags cols (named cols co)) (arrange (List.length cols) co ae (repeat None (2 * (List.length cols + List.length co)))))). split.
  { unfold ecol_cov. rewrite ec_named by assumption. cbn [bindR]. rewrite pairs_of_names by assumption. cbn [bindR]. rewrite SO. reflexivity. }
  assert (LA : List.length (arrange (List.length cols) co ae (repeat None (2 * (List.length cols + List.length co)))) = (3 * List.length cols + 2 * List.length co)%nat).
  { assert (RE : forall a b, repeat (@None R) (a + b) = repeat None a ++ repeat None b) by (intros a b; apply repeat_app).
    replace (2 * (List.length cols + List.length co))%nat with (List.length cols + (List.length co + (List.length cols + List.length co)))%nat by lia. rewrite !RE.
    rewrite arrange_parts by (try apply repeat_length; exact PO). cbn zeta.
    assert (AB : (if ae then map (omap Rabs) (repeat None (List.length cols)) else repeat None (List.length cols)) = repeat None (List.length cols)) by (destruct ae; [apply map_none|reflexivity]). rewrite AB.
    assert (M : forall k, List.length (map2 n_db (repeat None k) (repeat None k)) = k) by (induction k as [|k IH]; [reflexivity|]; cbn; f_equal; exact IH).
    rewrite !app_length, !map_length, !combine_length, !repeat_length, M, Nat.min_id. lia. }
  assert (KE : forall k, dict_get (to_dict (combine (tags cols (named cols co)) (arrange (List.length cols) co ae (repeat None (2 * (List.length cols + List.length co)))))) k <> None <-> In k (tags cols (named cols co))).
  { intros k. rewrite to_dict_none, map_fst_combine; [reflexivity|]. rewrite tags_length, LA. unfold named. rewrite map_length. reflexivity. }
  intros k. specialize (KE k). destruct (dict_get _ k) as [v|] eqn:E.
  - split; [intros _|intros N; exfalso; apply N, KE; discriminate]. apply dict_none in E; [rewrite E; reflexivity|]. apply arrange_none, PO.
  - split; [intros I; exfalso; apply KE in I; congruence|reflexivity].
Qed.

(* ---- all entries are the same ---- *)
Lemma last_pair (l : list (string * string)) key : In key (map cov_key l) ->
  exists k p, nth_error l k = Some p /\ cov_key p = key /\ forall j q, (k < j)%nat -> nth_error l j = Some q -> cov_key q <> cov_key p.
Proof.
  induction l as [|p l IH]; intros I; [destruct I|]. destruct (in_dec String.string_dec key (map cov_key l)) as [J|J].
  - destruct (IH J) as (k & q & E & K & L). exists (S k), q. split; [exact E|]. split; [exact K|]. intros [|j] r H F; [lia|]. apply (L j r); [lia|exact F].
  - destruct I as [I|I]; [|contradiction]. exists 0%nat, p. split; [reflexivity|]. split; [exact I|]. intros [|j] q H F; [lia|]. cbn in F. intros E. apply J. rewrite <- I, <- E. apply in_map. apply (nth_error_In _ _ F).
Qed.
Lemma same_cov_key p q : cov_key p = cov_key q -> corr_key p = corr_key q.
Proof. unfold cov_key, corr_key. intros E. apply key_inj in E. rewrite E. reflexivity. Qed.

Lemma dict_perm lstsq cols cols' sg C C' co ec ae : least_squares lstsq -> NoDup cols -> NoDup cols' -> List.length cols' = List.length cols ->
  (forall i j, sg i = sg j -> i = j) -> Permutation (map sg (seq 0 (List.length cols))) (seq 0 (List.length cols)) ->
  (forall i, (i < List.length cols)%nat -> name cols i = name cols' (sg i)) ->
  (match C, C' with Some C, Some C' => (forall i j, C i j = C' (sg i) (sg j)) /\ (forall i j, C' i j = C' j i) | None, None => True | _, _ => False end) ->
  columns_of (List.length cols) co -> known_of (List.length cols) ec -> estimable (List.length cols) co ->
  exists d d', ecol_cov lstsq cols C (named cols co) (named_known cols ec) ae = Ok d /\
    ecol_cov lstsq cols' C' (named cols co) (named_known cols ec) ae = Ok d' /\ forall k, dict_get d k = dict_get d' k.
Proof.
  intros LS ND ND' LE INJ PE NA CS PO KN ES. set (n := List.length cols) in *.
  set (co' := map (sp sg) co). set (ec' := match ec with None => None | Some (a, b, v) => Some (sg a, sg b, v) end).
  assert (LT : forall i, (i < n)%nat -> (sg i < n)%nat) by (intros i H; apply (sg_lt n sg PE i H)).
  assert (NC : named cols co = named cols' co').
  { unfold named, co'. rewrite map_map. apply map_ext_in. intros p I. destruct (PO p I). cbn [sp fst snd]. rewrite !NA by assumption. reflexivity. }
  assert (NK : named_known cols ec = named_known cols' ec').
  { destruct ec as [[[a b] v]|]; [|reflexivity]. destruct KN. cbn. rewrite !NA by assumption. reflexivity. }
  assert (PO' : columns_of n co') by (apply columns_perm; assumption).
  assert (KN' : known_of n ec') by (destruct ec as [[[a b] v]|]; [|exact Logic.I]; destruct KN; split; apply LT; assumption).
  assert (ES' : estimable n co') by (apply estimable_perm; assumption).
  assert (SU : forall (A A' : matrix), (forall i j, A i j = A' (sg i) (sg j)) -> forall i j, subtract A ec i j = subtract A' ec' (sg i) (sg j)).
  { intros A A' E i j. unfold ec'. destruct ec as [[[a b] v]|]; [|apply E]. cbn [subtract]. rewrite !(eqb_sg sg INJ), E. reflexivity. }
  assert (SS : forall A' : matrix, (forall i j, A' i j = A' j i) -> forall i j, subtract A' ec' i j = subtract A' ec' j i).
  { intros A' E i j. unfold ec'. destruct ec as [[[a b] v]|]; [|apply E]. cbn [subtract]. rewrite (E j i). destruct (Nat.eqb i (sg a)), (Nat.eqb j (sg a)), (Nat.eqb i (sg b)), (Nat.eqb j (sg b)); reflexivity. }
  assert (CP : Permutation cols cols').
  { apply NoDup_Permutation_bis; [exact ND|lia|]. intros c I. apply (In_nth _ _ ""%string) in I as (i & Hi & <-). fold (name cols i). rewrite NA by exact Hi. apply nth_In. rewrite LE. apply LT, Hi. }
  assert (TA : forall k, In k (tags cols (named cols co)) <-> In k (tags cols' (named cols' co'))).
  { intros k. rewrite <- NC. unfold tags. rewrite !in_app_iff. assert (G : forall f : string -> string, In k (map f cols) <-> In k (map f cols')) by (intros f; split; apply Permutation_in; [|apply Permutation_sym]; apply Permutation_map, CP). rewrite !G. tauto. }
  assert (CASE : (match C with None => True | Some C => existsb zerob (divisors n (subtract C ec) co) = true end /\ match C' with None => True | Some C' => existsb zerob (divisors n (subtract C' ec') co') = true end) \/
     exists A A', C = Some A /\ C' = Some A' /\ (forall i j, A i j = A' (sg i) (sg j)) /\ (forall i j, A' i j = A' j i) /\ existsb zerob (divisors n (subtract A ec) co) = false /\ existsb zerob (divisors n (subtract A' ec') co') = false).
  { destruct C as [A|], C' as [A'|]; try contradiction; [|left; split; exact Logic.I]. destruct CS as [C1 C2].
    assert (DP : existsb zerob (divisors n (subtract A ec) co) = existsb zerob (divisors n (subtract A' ec') co')) by (apply existsb_perm, (divisors_perm n sg INJ PE); [apply SU, C1|apply SS, C2]).
    destruct (existsb zerob (divisors n (subtract A ec) co)) eqn:E; [left; split; [reflexivity|congruence]|]. right. exists A, A'. repeat (split; [first [reflexivity|assumption]|]). congruence. }
  destruct CASE as [[Z Z']|(A & A' & -> & -> & C1 & C2 & Z & Z')].
  - destruct (not_finite_dict lstsq cols C co ec ae LS ND PO KN ES Z) as (d & E1 & V1).
    assert (LE' : n = List.length cols') by (unfold n; symmetry; exact LE).
    rewrite LE' in PO', KN', ES', Z'. destruct (not_finite_dict lstsq cols' C' co' ec' ae LS ND' PO' KN' ES' Z') as (d' & E2 & V2).
    exists d, d'. split; [exact E1|]. split; [rewrite NC, NK; exact E2|]. intros k. destruct (in_dec String.string_dec k (tags cols (named cols co))) as [I|I].
    + rewrite (proj1 (V1 k) I). symmetry. apply V2, TA, I.
    + rewrite (proj2 (V1 k) I). symmetry. apply V2. intros J. apply I, TA, J.
  - destruct (estimates_perm lstsq n sg A A' co ec ec' LS INJ PE (SU A A' C1) (SS A' C2) PO ES ae) as (r & r' & E1 & E2 & V & EC & EK). fold co' in E2.
    destruct (entries_lemma lstsq cols A co ec ae r ND PO KN Z E1) as (d & D1 & K1 & I1 & P1).
    assert (LE' : n = List.length cols') by (unfold n; symmetry; exact LE).
    rewrite LE' in PO', KN', Z', E2. destruct (entries_lemma lstsq cols' A' co' ec' ae r' ND' PO' KN' Z' E2) as (d' & D2 & K2 & I2 & P2).
    exists d, d'. split; [exact D1|]. split; [rewrite NC, NK; exact D2|]. intros k.
    assert (PA : forall key, In key (map cov_key (named cols co)) -> dict_get d key = dict_get d' key /\ forall p, cov_key p = key -> dict_get d (corr_key p) = dict_get d' (corr_key p)).
    { intros key I. destruct (last_pair _ _ I) as (m & p & EP & KE & LA). destruct (P1 m p EP LA) as [X1 X2]. rewrite NC in EP, LA. destruct (P2 m p EP LA) as [Y1 Y2]. split.
      - rewrite <- KE, X1, Y1, EC. reflexivity.
      - intros q KQ. rewrite <- KE in KQ. rewrite (same_cov_key _ _ KQ), X2, Y2, EK. reflexivity. }
    destruct (in_dec String.string_dec k (tags cols (named cols co))) as [I|I].
    2:{ destruct (dict_get d k) eqn:G1; [exfalso; apply I, K1; congruence|]. destruct (dict_get d' k) eqn:G2; [|reflexivity]. exfalso. apply I, TA, K2. congruence. }
    assert (CASES : (exists i, (i < n)%nat /\ (k = ("sig_" ++ name cols i)%string \/ k = ("err_" ++ name cols i)%string \/ k = ("snr_" ++ name cols i)%string)) \/ (exists p, In p (named cols co) /\ (k = cov_key p \/ k = corr_key p))).
    { assert (G : forall f : string -> string, In k (map f cols) -> exists i, (i < n)%nat /\ k = f (name cols i)).
      { intros f J. apply in_map_iff in J as (c & <- & J). apply (In_nth _ _ ""%string) in J as (i & Hi & <-). exists i. split; [exact Hi|reflexivity]. }
      unfold tags in I. rewrite !in_app_iff in I. destruct I as [I|[I|[I|[I|I]]]].
      - left. destruct (G _ I) as (i & Hi & E). exists i. tauto.
      - left. destruct (G _ I) as (i & Hi & E). exists i. tauto.
      - left. destruct (G _ I) as (i & Hi & E). exists i. tauto.
      - right. apply in_map_iff in I as (p & <- & I). exists p. split; [exact I|left; reflexivity].
      - right. apply in_map_iff in I as (p & <- & I). exists p. split; [exact I|right; reflexivity]. }
    assert (PAIR : forall p, In p (named cols co) -> (k = cov_key p \/ k = corr_key p) -> dict_get d k = dict_get d' k).
    { intros p J [-> | ->]; apply (PA (cov_key p)); try (apply in_map; exact J); reflexivity. }
    destruct CASES as [(i & Hi & EK1)|(p & J & EK1)]; [|apply (PAIR p J EK1)].
    destruct (I1 i Hi) as (A1 & A2 & A3). assert (Hs : (sg i < List.length cols')%nat) by (rewrite LE; apply LT, Hi). destruct (I2 (sg i) Hs) as (B1 & B2 & B3). rewrite <- NA in B1, B2, B3 by exact Hi.
    destruct (V i Hi) as (W1 & W2 & W3). destruct EK1 as [-> | [-> | ->]].
    + rewrite A1, B1, W1. reflexivity.
    + destruct (existsb (fun p => orb (String.eqb ("err_" ++ name cols i) (cov_key p)) (String.eqb ("err_" ++ name cols i) (corr_key p))) (named cols co)) eqn:X.
      * apply existsb_exists in X as (p & J & X). apply (PAIR p J). apply Bool.orb_true_iff in X as [X|X]; apply String.eqb_eq in X; tauto.
      * assert (OK : own_key (name cols i) (named cols co)).
        { intros p J. assert (F : orb (String.eqb ("err_" ++ name cols i) (cov_key p)) (String.eqb ("err_" ++ name cols i) (corr_key p)) = false).
          { destruct (orb _ _) eqn:F; [|reflexivity]. exfalso. rewrite <- Bool.not_true_iff_false in X. apply X, existsb_exists. exists p. split; [exact J|exact F]. }
          apply Bool.orb_false_iff in F as [F1 F2]. apply String.eqb_neq in F1, F2. split; assumption. }
        rewrite A3 by exact OK. rewrite B3 by (rewrite <- NC; exact OK). rewrite W2. reflexivity.
    + rewrite A2, B2, W3. reflexivity.
Qed.

(* ---- frames with the same columns ---- *)
Lemma nth_map_fst (f : frame) i : nth i (map fst f) ""%string = fst (nth i f (""%string, [])).
Proof. change ""%string with (fst (""%string, @nil cell)) at 1. apply map_nth. Qed.
Lemma col_nth (f : frame) i : col f i = snd (nth i f (""%string, [])).
Proof. unfold col. change (@nil cell) with (snd (""%string, @nil cell)) at 1. apply map_nth. Qed.
Lemma renumber (f g : frame) : Permutation f g -> exists sg, (forall i j, sg i = sg j -> i = j) /\ Permutation (map sg (seq 0 (List.length f))) (seq 0 (List.length f)) /\
  forall i, nth i f (""%string, []) = nth (sg i) g (""%string, []).
Proof.
  intros P. pose proof (Permutation_length P) as L. apply Permutation_sym in P. apply (Permutation_nth _ _ (""%string, [])) in P. cbn zeta in P. destruct P as (_ & s & BF & BI & NT). rewrite <- L in BF, BI, NT. set (n := List.length f) in *.
  set (sg := fun i => if Nat.ltb i n then s i else i). exists sg. assert (INJ : forall i j, sg i = sg j -> i = j).
  { intros i j. unfold sg. destruct (Nat.ltb_spec i n) as [Hi|Hi], (Nat.ltb_spec j n) as [Hj|Hj]; intros E; try (apply BI; assumption); try exact E.
    - pose proof (BF i Hi). lia.
    - pose proof (BF j Hj). lia. }
  split; [exact INJ|]. split.
  - apply NoDup_Permutation_bis; [|rewrite map_length; lia|].
    + apply FinFun.Injective_map_NoDup; [exact INJ|apply seq_NoDup].
    + intros x I. apply in_map_iff in I as (i & <- & I). apply in_seq in I. apply in_seq. unfold sg. destruct (Nat.ltb_spec i n); [|lia]. pose proof (BF i H). lia.
  - intros i. unfold sg. destruct (Nat.ltb_spec i n) as [H|H]; [apply NT, H|]. rewrite !nth_overflow; [reflexivity|rewrite <- L; exact H|exact H].
Qed.
Lemma dropna_permuted (f g : frame) : rectangular f -> Permutation f g -> Permutation (dropna f) (dropna g) /\ nrows (dropna f) = nrows (dropna g).
Proof.
  intros RE P. assert (NR : nrows f = nrows g).
  { destruct f as [|c f]; [apply Permutation_nil in P; subst g; reflexivity|]. destruct g as [|c' g]; [apply Permutation_sym, Permutation_nil in P; discriminate|]. cbn [nrows].
    assert (I : In c' (c :: f)) by (apply (Permutation_in _ (Permutation_sym P)); left; reflexivity). apply RE in I. cbn [hd] in I. symmetry. exact I. }
  assert (CR : forall t, complete_row f t = complete_row g t).
  { intros t. unfold complete_row. assert (G : forall (q : string * list cell -> bool) l m, Permutation l m -> forallb q l = forallb q m) by (intros q l m Q; induction Q; cbn; [reflexivity|rewrite IHQ; reflexivity|destruct (q y), (q x); reflexivity|congruence]). apply G, P. }
  assert (DP : Permutation (dropna f) (dropna g)).
  { unfold dropna. rewrite NR, (map_ext (complete_row f) (complete_row g)) by exact CR. apply Permutation_map, P. }
  split; [exact DP|]. destruct (dropna_complete f RE) as [RD _]. destruct (dropna f) as [|c f']; [apply Permutation_nil in DP; rewrite DP; reflexivity|]. destruct (dropna g) as [|c' g']; [apply Permutation_sym, Permutation_nil in DP; discriminate|]. cbn [nrows].
  assert (I : In c' (c :: f')) by (apply (Permutation_in _ (Permutation_sym DP)); left; reflexivity). apply RD in I. cbn [hd] in I. symmetry. exact I.
Qed.
Lemma rows_perm (f g : frame) sg : (forall i, nth i f (""%string, []) = nth (sg i) g (""%string, [])) -> nrows f = nrows g -> forall i j, cov1 (rows f) i j = cov1 (rows g) (sg i) (sg j).
Proof.
  intros NT NR i j. assert (RW : forall t k, row f t k = row g t (sg k)) by (intros t k; unfold row; rewrite !col_nth, NT; reflexivity).
  unfold cov1, rows. rewrite NR. rewrite !map_map. f_equal.
  - f_equal. rewrite (map_ext (fun x => row f x i) (fun x => row g x (sg i))) by (intros t; apply RW). rewrite (map_ext (fun x => row f x j) (fun x => row g x (sg j))) by (intros t; apply RW). apply map_ext. intros t. rewrite !RW. reflexivity.
  - f_equal. unfold rlen. rewrite !map_length. reflexivity.
Qed.
Lemma order_lemma lstsq f g co ec ae : least_squares lstsq -> rectangular f -> NoDup (map fst f) -> Permutation f g -> identifiable (List.length f) co -> known_of (List.length f) ec ->
  exists d d', fst (ecol lstsq f (named (map fst f) co) (named_known (map fst f) ec) ae) = Ok d /\
    fst (ecol lstsq g (named (map fst f) co) (named_known (map fst f) ec) ae) = Ok d' /\ forall k, dict_get d k = dict_get d' k.
Proof.
  intros LS RE ND P ID KN. unfold ecol. cbn zeta. cbn [fst]. destruct (dropna_permuted f g RE P) as [DP NR]. destruct (renumber _ _ DP) as (sg & INJ & PE & NT).
  rewrite !dropna_names. assert (LN : List.length (dropna f) = List.length (map fst f)) by (unfold dropna; rewrite !map_length; reflexivity). rewrite LN in PE.
  assert (LF : List.length (map fst f) = List.length f) by apply map_length.
  apply (dict_perm lstsq (map fst f) (map fst g) sg).
  - exact LS.
  - exact ND.
  - apply (Permutation_NoDup (Permutation_map fst P)), ND.
  - rewrite !map_length. symmetry. apply Permutation_length, P.
  - exact INJ.
  - exact PE.
  - intros i Hi. unfold name. rewrite <- (dropna_names f), <- (dropna_names g), !nth_map_fst, NT. reflexivity.
  - destruct (le_lt_dec 2 (nrows (dropna f))) as [H|H].
    + rewrite many_rows by exact H. rewrite many_rows by (rewrite <- NR; exact H). split; [apply rows_perm; assumption|intros i j; apply cov1_sym].
    + rewrite few_rows by exact H. rewrite few_rows by (rewrite <- NR; exact H). exact Logic.I.
  - rewrite LF. intros p I. destruct ID as [_ ID]. destruct (ID p I) as (H1 & H2 & _). split; assumption.
  - rewrite LF. exact KN.
  - rewrite LF. apply identifiable_estimable, ID.
Qed.
