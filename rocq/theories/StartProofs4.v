(* Reading back after crashes. *)
From Coq Require Import Lia.
From Verif Require Import MatchersProofs ResultsProofs ResultsProofs2 StartSpec StartProofs3 TemporalModel.
Open Scope nat_scope.

Lemma dict_get_cons {V} n (v : V) l k : dict_get ((n, v) :: l) k = if String.eqb n k then Some v else dict_get l k.
Proof. unfold dict_get. cbn. destruct (String.eqb n k); reflexivity. Qed.
Lemma views_forall2 {V} (P : V -> V -> Prop) (l1 : list (string * V)) : forall l2, NoDup (map fst l1) -> map fst l2 = map fst l1 ->
  (forall n v, dict_get l1 n = Some v -> exists v', dict_get l2 n = Some v' /\ P v v') ->
  Forall2 (fun a b => fst b = fst a /\ P (snd a) (snd b)) l1 l2.
Proof.
  induction l1 as [|[n v] l1 IH]; intros [|[m w] l2] ND E H; try discriminate; [constructor|].
  cbn [map fst] in *. injection E as -> E. apply NoDup_cons_iff in ND as [N1 N2]. constructor.
  - cbn. split; [reflexivity|]. destruct (H n v) as (v' & E1 & P1); [rewrite dict_get_cons, String.eqb_refl; reflexivity|]. rewrite dict_get_cons, String.eqb_refl in E1. congruence.
  - apply IH; [exact N2|exact E|]. intros k u Hk. assert (k <> n).
    { intros ->. destruct (in_dec string_dec n (map fst l1)) as [I|I]; [contradiction|]. apply dict_get_none in I. congruence. }
    assert (X : String.eqb n k = false) by (apply String.eqb_neq; congruence). destruct (H k u) as (v' & E1 & P1); [rewrite dict_get_cons, X; exact Hk|]. rewrite dict_get_cons, X in E1. eauto.
Qed.
Definition kept (N : nat) (v v' : ncvar) : Prop := v_dim v' = v_dim v /\ (v_dim v = DObs -> v' = v) /\ forall i, i < N -> nth i (v_data v') None = nth i (v_data v) None.
Lemma same_below_vars N s s' : NoDup (map fst (f_vars s)) -> same_below N s s' ->
  Forall2 (fun a b => fst b = fst a /\ kept N (snd a) (snd b)) (f_vars s) (f_vars s').
Proof. intros ND (K & _ & H). apply views_forall2; [exact ND|exact K|]. intros n v Ev. destruct (H n v Ev) as (v' & A & B). exists v'. split; [exact A|exact B]. Qed.
Lemma cells_nth s v i : i < dim_len s (v_dim v) -> nth i (cells s v) None = nth i (v_data v) None.
Proof. intros H. unfold cells. rewrite nth_indep with (d' := nth 0 (v_data v) None) by (rewrite map_length, seq_length; exact H).
  rewrite (map_nth (fun i => nth i (v_data v) None) (seq 0 (dim_len s (v_dim v))) 0 i), seq_nth by exact H. reflexivity. Qed.
Lemma read_loc_same N s s' i : NoDup (map fst (f_vars s)) -> N <= f_loc s -> N <= f_loc s' -> same_below N s s' -> i < N -> read_loc s' i = read_loc s i.
Proof.
  intros ND L1 L2 SB Hi. unfold read_loc. destruct (Nat.leb_spec (f_loc s) i); [lia|]. destruct (Nat.leb_spec (f_loc s') i); [lia|]. f_equal.
  assert (F := same_below_vars N s s' ND SB).
  assert (G : forall l l', Forall2 (fun a b : string * ncvar => fst b = fst a /\ kept N (snd a) (snd b)) l l' ->
    map (fun nv => (fst nv, nth i (cells s' (snd nv)) None)) (filter (fun nv => negb (is_special (fst nv)) && dim_eqb (v_dim (snd nv)) DLoc) l') =
    map (fun nv => (fst nv, nth i (cells s (snd nv)) None)) (filter (fun nv => negb (is_special (fst nv)) && dim_eqb (v_dim (snd nv)) DLoc) l)).
  { induction 1 as [|a b l l' [E1 (E2 & _ & E3)] _ IH]; [reflexivity|]. cbn [filter]. rewrite E1, E2.
    destruct (negb (is_special (fst a)) && dim_eqb (v_dim (snd a)) DLoc) eqn:X; [|exact IH]. cbn [map]. rewrite IH, E1. do 2 f_equal.
    apply andb_true_iff in X as [_ X]. assert (Da : v_dim (snd a) = DLoc) by (destruct (v_dim (snd a)); [reflexivity|discriminate]).
    rewrite !cells_nth; [apply E3; exact Hi| |]; rewrite ?E2, Da; cbn [dim_len]; lia. }
  apply G. exact F.
Qed.
Lemma cells_len s v : List.length (cells s v) = dim_len s (v_dim v).
Proof. unfold cells. rewrite map_length, seq_length. reflexivity. Qed.
Lemma firstn_cells_same s s' v v' i : i <= dim_len s (v_dim v) -> i <= dim_len s' (v_dim v') -> (forall j, j < i -> nth j (v_data v') None = nth j (v_data v) None) ->
  firstn i (cells s' v') = firstn i (cells s v).
Proof.
  intros L1 L2 H. apply nth_ext with (d := None) (d' := None).
  - rewrite !firstn_length, !cells_len. lia.
  - intros j Hj. rewrite firstn_length, cells_len in Hj.
    assert (F : forall (l : list cell) k m, k < m -> nth k (firstn m l) None = nth k l None).
    { clear. induction l as [|x l IH]; intros [|k] [|m] H; cbn; try reflexivity; try lia. apply IH. lia. }
    rewrite !F by lia. rewrite !cells_nth by lia. apply H. lia.
Qed.
Lemma read_ts_same N s s' i : NoDup (map fst (f_vars s)) -> N <= f_loc s -> N <= f_loc s' -> same_below N s s' -> has s "_row_size" ->
  (forall v, view s "time" = Some v -> v_dim v = DObs) -> i < N -> read_ts s' i = read_ts s i.
Proof.
  intros ND L1 L2 SB (rs & Er & Dr) TM Hi. destruct (proj2 (proj2 SB) _ _ Er) as (rs' & Er' & Dr' & _ & Cr'). assert (FO := proj1 (proj2 SB)).
  unfold read_ts, get_var. unfold view in *. rewrite Er, Er'. cbn [bindR].
  assert (FN : firstn i (cells s' rs') = firstn i (cells s rs)).
  { apply firstn_cells_same; rewrite ?Dr', ?Dr; cbn [dim_len]; try lia. intros j Hj. apply Cr'. lia. }
  assert (NE : nth_error (cells s' rs') i = nth_error (cells s rs) i).
  { assert (Z1 : nth_error (cells s' rs') i = Some (nth i (cells s' rs') None)) by (apply nth_error_nth'; unfold cell in *; rewrite cells_len, Dr', Dr; cbn [dim_len]; lia).
    assert (Z2 : nth_error (cells s rs) i = Some (nth i (cells s rs) None)) by (apply nth_error_nth'; unfold cell in *; rewrite cells_len, Dr; cbn [dim_len]; lia).
    etransitivity; [exact Z1|]. etransitivity; [|symmetry; exact Z2]. f_equal.
    rewrite !cells_nth by (rewrite ?Dr', Dr; cbn [dim_len]; lia). apply Cr'. exact Hi. }
  rewrite NE, FN. destruct (match nth_error (cells s rs) i with Some c => cell_index c | None => Err EIndex end) as [n|e]; [|reflexivity]. cbn [bindR].
  assert (CO : forall v v' : ncvar, v_dim v = DObs -> v' = v -> cells s' v' = cells s v).
  { intros v v' Dv ->. unfold cells. rewrite Dv. cbn [dim_len]. rewrite FO. reflexivity. }
  assert (F := same_below_vars N s s' ND SB). set (start := cells_sum (firstn i (cells s rs))).
  assert (G : forall l l', Forall2 (fun a b : string * ncvar => fst b = fst a /\ kept N (snd a) (snd b)) l l' ->
    map (fun nv => (fst nv, firstn n (skipn start (cells s' (snd nv))))) (filter (fun nv => negb (is_special (fst nv)) && dim_eqb (v_dim (snd nv)) DObs) l') =
    map (fun nv => (fst nv, firstn n (skipn start (cells s (snd nv))))) (filter (fun nv => negb (is_special (fst nv)) && dim_eqb (v_dim (snd nv)) DObs) l)).
  { induction 1 as [|a b l l' [E1 (E2 & E3 & _)] _ IH]; [reflexivity|]. cbn [filter]. rewrite E1, E2.
    destruct (negb (is_special (fst a)) && dim_eqb (v_dim (snd a)) DObs) eqn:X; [|exact IH]. cbn [map]. rewrite IH, E1. do 4 f_equal.
    apply andb_true_iff in X as [_ X]. assert (Da : v_dim (snd a) = DObs) by (destruct (v_dim (snd a)); [discriminate|reflexivity]).
    apply CO; [exact Da|exact (E3 Da)]. }
  specialize (G _ _ F).
  assert (GL : List.length (filter (fun nv => negb (is_special (fst nv)) && dim_eqb (v_dim (snd nv)) DObs) (f_vars s')) =
               List.length (filter (fun nv => negb (is_special (fst nv)) && dim_eqb (v_dim (snd nv)) DObs) (f_vars s))).
  { apply (f_equal (@List.length _)) in G. rewrite !map_length in G. exact G. }
  cbv zeta. rewrite GL. destruct (Nat.eqb _ 0); [reflexivity|].
  destruct (dict_get (f_vars s) "time") as [vt|] eqn:Et.
  - destruct (proj2 (proj2 SB) _ _ Et) as (vt' & Et' & _ & Ot & _). unfold view in Et'. rewrite Et'. cbn [bindR].
    rewrite (CO vt vt' (TM vt eq_refl) (Ot (TM vt eq_refl))). rewrite G. reflexivity.
  - assert (Et' : dict_get (f_vars s') "time" = None).
    { apply dict_get_none. rewrite (proj1 SB). apply dict_get_none. exact Et. }
    rewrite Et'. reflexivity.
Qed.

(* ---- histories with crashes *)
Lemma same_below_refl N s : same_below N s s.
Proof. split; [reflexivity|]. split; [reflexivity|]. intros n v E. exists v. auto. Qed.
Lemma same_below_trans N M s1 s2 s3 : N <= M -> same_below N s1 s2 -> same_below M s2 s3 -> same_below N s1 s3.
Proof.
  intros L (K1 & O1 & H1) (K2 & O2 & H2). split; [congruence|]. split; [congruence|]. intros n v E.
  destruct (H1 n v E) as (v1 & E1 & D1 & B1 & C1). destruct (H2 n v1 E1) as (v2 & E2 & D2 & B2 & C2). exists v2. split; [exact E2|]. split; [congruence|]. split.
  - intros Dv. rewrite B2 by congruence. auto.
  - intros i Hi. rewrite C2 by lia. auto.
Qed.
(* the values of one location *)
Definition loc_values (s : ncfile) (i : nat) (lon lat : Q) (values : list (string * cell)) : Prop :=
  exists fields, read_loc s i = Ok fields /\ NoDup (map fst fields) /\ In ("lon"%string, Some lon) fields /\ In ("lat"%string, Some lat) fields /\
    forall n c, In (n, c) values -> In (n, c) fields.
Definition stored_values (s : ncfile) (i : nat) (lon lat : Q) (values : list (string * cell)) : Prop :=
  i < f_loc s /\
  forall n c, In (n, c) (("lon"%string, Some lon) :: ("lat"%string, Some lat) :: values) -> is_special n = false /\
    exists v, view s n = Some v /\ v_dim v = DLoc /\ nth i (v_data v) None = c.
Lemma stored_read s i lon lat values : NoDup (map fst (f_vars s)) -> stored_values s i lon lat values -> loc_values s i lon lat values.
Proof.
  intros ND [L H].
  assert (RD : forall n c, In (n, c) (("lon"%string, Some lon) :: ("lat"%string, Some lat) :: values) ->
    In (n, c) (map (fun nv => (fst nv, nth i (cells s (snd nv)) None)) (filter (fun nv => negb (is_special (fst nv)) && dim_eqb (v_dim (snd nv)) DLoc) (f_vars s)))).
  { intros n c Hn. destruct (H n c Hn) as (SP & v & Ev & Dv & Cv). apply in_map_iff. exists (n, v). cbn [fst snd]. split.
    - rewrite cells_nth by (rewrite Dv; exact L). rewrite Cv. reflexivity.
    - apply filter_In. split; [apply vars_in; assumption|]. cbn [fst snd]. rewrite SP, Dv. reflexivity. }
  eexists. split; [unfold read_loc; destruct (Nat.leb_spec (f_loc s) i); [lia|reflexivity]|]. split; [|split; [|split]].
  - rewrite map_map. cbn [fst]. clear -ND. induction (f_vars s) as [|a l IH]; [constructor|]. cbn in *.
    apply NoDup_cons_iff in ND as [X1 X2]. destruct (_ && _); [|apply IH, X2]. cbn. constructor; [|apply IH, X2].
    intros C. apply X1. apply in_map_iff in C as (y & E & C). apply filter_In in C as [C _]. apply in_map_iff. exists y. auto.
  - apply RD. left. reflexivity.
  - apply RD. right. left. reflexivity.
  - intros n c Hn. apply RD. right. right. exact Hn.
Qed.
Lemma stored_keep N s s' i lon lat values : same_below N s s' -> i < N -> N <= f_loc s' -> stored_values s i lon lat values -> stored_values s' i lon lat values.
Proof.
  intros (_ & _ & SB) Hi L [_ H]. split; [lia|]. intros n c Hn. destruct (H n c Hn) as (SP & v & Ev & Dv & Cv). split; [exact SP|].
  destruct (SB n v Ev) as (v' & Ev' & Dv' & _ & C'). exists v'. split; [exact Ev'|]. split; [congruence|]. rewrite C' by exact Hi. exact Cv.
Qed.
Definition values_at (results : list (field * list cell)) (k : nat) : list (string * cell) := map (fun r => (var_name (fst r), nth k (snd r) None)) results.
Lemma special_reserved n : ~ In n reserved -> is_special n = false.
Proof.
  intros H. unfold is_special. cbn. destruct (String.eqb_spec n "time") as [->|]; [exfalso; apply H; cbn; auto 6|].
  destruct (String.eqb_spec n "idx") as [->|]; [exfalso; apply H; cbn; auto 6|]. destruct (String.eqb_spec n "_row_size") as [->|]; [exfalso; apply H; cbn; auto 6|]. reflexivity.
Qed.
Lemma do_attempt_ok names N s a : winv names N s -> fits names a ->
  exists s', do_attempt s a = Ok s' /\ winv names (N + places a) s' /\ same_below N s s' /\
    (a_killed a = None -> forall k, k < List.length (a_lons a) ->
       stored_values s' (N + k) (nth k (a_lons a) 0%Q) (nth k (a_lats a) 0%Q) (values_at (a_results a) k)).
Proof.
  destruct a as [[k|] lons lats results]; intros W F; unfold do_attempt, places; cbn [a_killed a_lons a_lats a_results] in *.
  - destruct (attempt_ok names N s lons lats results k W F) as (s' & E & W' & SB & _). exists s'. split; [exact E|]. split; [|split; [exact SB|discriminate]].
    destruct k; [rewrite Nat.add_0_r|]; exact W'.
  - set (K := 4 + List.length results).
    assert (F' : fits names (mkAttempt (Some K) lons lats results)) by exact F.
    destruct (attempt_ok names N s lons lats results K W F') as (s' & E & W' & SB & V). exists s'.
    rewrite add_metrics_perform. fold K. rewrite E. cbn [bindR]. destruct (w_idx _ _ _ W') as (vi & Evi & _). unfold get_var. unfold view in Evi. rewrite Evi. cbn [mapR].
    split; [reflexivity|]. split; [exact W'|]. split; [exact SB|]. intros _ k Hk.
    assert (FA : firstn K (all_writes N lons lats results) = all_writes N lons lats results) by (apply firstn_all2; unfold all_writes; rewrite app_length, map_length; cbn; unfold K; lia).
    rewrite FA in V. destruct F as (NE & LL & LR & ND & SUB). cbn [a_lons a_lats a_results] in *.
    assert (VAL : forall n d c, In (n, d) (all_writes N lons lats results) -> has s n -> k < List.length d -> nth k d None = c ->
       exists v, view s' n = Some v /\ v_dim v = DLoc /\ nth (N + k) (v_data v) None = c).
    { intros n d c Hn (v & Ev & Dv) Ld Cd. eexists. split; [exact (V n d Hn v Ev)|]. split; [reflexivity|]. cbn [v_data]. rewrite write_at_nth.
      destruct (Nat.leb_spec N (N + k)); [|lia]. destruct (Nat.ltb_spec (N + k) (N + List.length d)); [|unfold cell in *; lia]. cbn [andb]. replace (N + k - N) with k by lia. exact Cd. }
    split; [rewrite (w_loc _ _ _ W'); cbn; lia|].
    intros n c [[= <- <-]|[[= <- <-]|Hn]].
    + split; [reflexivity|]. apply (VAL "lon"%string (map Some lons)); [cbn; auto|apply (w_has _ _ _ W); cbn; auto|rewrite map_length; exact Hk|].
      rewrite nth_indep with (d' := Some 0%Q) by (rewrite map_length; exact Hk). apply map_nth.
    + split; [reflexivity|]. apply (VAL "lat"%string (map Some lats)); [cbn; auto 6|apply (w_has _ _ _ W); cbn; auto|rewrite map_length, LL; exact Hk|].
      rewrite nth_indep with (d' := Some 0%Q) by (rewrite map_length, LL; exact Hk). apply map_nth.
    + unfold values_at in Hn. apply in_map_iff in Hn as ([f l] & [= <- <-] & Hr). cbn [fst snd].
      assert (Hn : In (var_name f) (names_of results)) by (exact (in_map (fun r => var_name (fst r)) results (f, l) Hr)).
      destruct (SUB _ Hn) as [S1 S2]. split; [apply special_reserved; exact S2|].
      apply (VAL (var_name f) l); [unfold all_writes; apply in_or_app; right; apply in_map_iff; exists (f, l); auto|apply (w_has _ _ _ W), in_or_app; right; exact S1| |reflexivity].
      assert (X := LR f l Hr). unfold cell in *. lia.
Qed.
Lemma taken_cons a l : taken (a :: l) = places a + taken l.
Proof. reflexivity. Qed.
Lemma do_attempts_ok names l : forall N s, winv names N s -> (forall a, In a l -> fits names a) ->
  exists s', do_attempts s l = Ok s' /\ winv names (N + taken l) s' /\ same_below N s s' /\
    forall l1 a l2 k, l = l1 ++ a :: l2 -> a_killed a = None -> k < List.length (a_lons a) ->
      stored_values s' (N + taken l1 + k) (nth k (a_lons a) 0%Q) (nth k (a_lats a) 0%Q) (values_at (a_results a) k).
Proof.
  induction l as [|a l IH]; intros N s W F.
  - exists s. split; [reflexivity|]. split; [change (taken []) with 0; rewrite Nat.add_0_r; exact W|]. split; [apply same_below_refl|]. intros [|? ?] ? ? ? E; discriminate.
  - destruct (do_attempt_ok names N s a W (F a (or_introl eq_refl))) as (s1 & E1 & W1 & SB1 & V1).
    destruct (IH (N + places a) s1 W1) as (s' & E' & W' & SB' & V'); [intros b Hb; apply F; right; exact Hb|].
    exists s'. split; [|split; [|split]].
    + unfold do_attempts. cbn [fold_left bindR]. rewrite E1. exact E'.
    + rewrite taken_cons, Nat.add_assoc. exact W'.
    + eapply (same_below_trans N (N + places a)); [lia|exact SB1|exact SB'].
    + intros [|b l1] a' l2 k E Ka Hk.
      * injection E as <- <-. change (taken []) with 0. rewrite Nat.add_0_r.
        assert (PL : places a = List.length (a_lons a)) by (unfold places; rewrite Ka; reflexivity).
        apply (stored_keep (N + places a) s1); [exact SB'|lia|rewrite (w_loc _ _ _ W'); lia|]. apply V1; assumption.
      * injection E as <- ->. rewrite taken_cons, Nat.add_assoc. apply V' with (l2 := l2); auto.
Qed.
Lemma new_names_nil results : new_names [] results = map fst results.
Proof. unfold new_names. cbn [app existsb negb]. induction (map fst results) as [|x l IH]; [reflexivity|]. cbn. f_equal. exact IH. Qed.
Lemma first_attempt a : a_killed a = None -> fits (names_of (a_results a)) a ->
  exists s, do_attempt new_file a = Ok s /\ winv (names_of (a_results a)) (places a) s /\
    forall k, k < List.length (a_lons a) -> stored_values s k (nth k (a_lons a) 0%Q) (nth k (a_lats a) 0%Q) (values_at (a_results a) k).
Proof.
  destruct a as [kl lons lats results]. cbn [a_killed]. intros -> (NE & LL & LR & ND & SUB). unfold do_attempt, places. cbn [a_killed a_lons a_lats a_results] in *.
  assert (NM : map fst (named results) = names_of results) by (unfold named, names_of; rewrite map_map; reflexivity).
  destruct (step_metrics new_file empty_table lons lats results inv_new) as (s & E & I).
  { split; [exact NE|]. split; [exact LL|]. split; [|split].
    - intros n l H. unfold named in H. apply in_map_iff in H as ([f l'] & [= <- <-] & H). exact (LR f l' H).
    - split; [rewrite NM; exact ND|]. intros n Hn. rewrite NM in Hn. split; [exact (proj2 (SUB n Hn))|intros []].
    - intros n Hn. right. reflexivity. }
  exists s. rewrite E. split; [reflexivity|].
  assert (LN : t_lnames (apply_call empty_table (AddMetrics lons lats results)) = names_of results) by (cbn [apply_call t_lnames empty_table]; rewrite new_names_nil; exact NM).
  assert (TL : t_locs (apply_call empty_table (AddMetrics lons lats results)) = map (point lons lats (named results)) (seq 0 (List.length lons))) by reflexivity.
  split.
  - assert (W := inv_winv _ _ I). rewrite LN, TL, map_length, seq_length in W. exact W.
  - intros k Hk.
    assert (P : forall g, at_ g (t_locs (apply_call empty_table (AddMetrics lons lats results))) k = g (point lons lats (named results) k)).
    { intros g. unfold at_. rewrite TL, nth_error_map.
      assert (X : nth_error (seq 0 (List.length lons)) k = Some k) by (rewrite (nth_error_nth' _ 0) by (rewrite seq_length; exact Hk); rewrite seq_nth by exact Hk; reflexivity).
      rewrite X. reflexivity. }
    split; [rewrite (i_loc _ _ I), TL, map_length, seq_length; exact Hk|].
    intros n c [[= <- <-]|[[= <- <-]|Hn]].
    + split; [reflexivity|]. destruct (i_lon _ _ I) as (v & Ev & Dv & Cv). exists v. split; [exact Ev|]. split; [exact Dv|]. rewrite Cv, P. reflexivity.
    + split; [reflexivity|]. destruct (i_lat _ _ I) as (v & Ev & Dv & Cv). exists v. split; [exact Ev|]. split; [exact Dv|]. rewrite Cv, P. reflexivity.
    + unfold values_at in Hn. apply in_map_iff in Hn as ([f l] & [= <- <-] & Hr). cbn [fst snd].
      assert (Hn : In (var_name f) (names_of results)) by (exact (in_map (fun r => var_name (fst r)) results (f, l) Hr)).
      split; [apply special_reserved; exact (proj2 (SUB _ Hn))|].
      destruct (i_l _ _ I (var_name f)) as (v & Ev & Dv & Cv); [rewrite LN; exact Hn|]. exists v. split; [exact Ev|]. split; [exact Dv|]. rewrite Cv, P. cbn [point snd].
      assert (G : dict_get (named results) (var_name f) = Some l).
      { apply dict_get_in; [rewrite NM; exact ND|]. unfold named. apply in_map_iff. exists (f, l). auto. }
      rewrite G. reflexivity.
Qed.
Lemma history_ok a l : a_killed a = None -> (forall b, In b (a :: l) -> fits (names_of (a_results a)) b) ->
  exists s, do_attempts new_file (a :: l) = Ok s /\ f_loc s = taken (a :: l) /\
    forall l1 b l2 k, a :: l = l1 ++ b :: l2 -> a_killed b = None -> k < List.length (a_lons b) ->
      loc_values s (taken l1 + k) (nth k (a_lons b) 0%Q) (nth k (a_lats b) 0%Q) (values_at (a_results b) k).
Proof.
  intros Ka F. destruct (first_attempt a Ka (F a (or_introl eq_refl))) as (s1 & E1 & W1 & V1).
  destruct (do_attempts_ok (names_of (a_results a)) l (places a) s1 W1) as (s & E & W & SB & V); [intros b Hb; apply F; right; exact Hb|].
  exists s. split; [unfold do_attempts; cbn [fold_left bindR]; rewrite E1; exact E|]. split; [rewrite taken_cons; exact (w_loc _ _ _ W)|].
  intros [|b0 l1] b l2 k EQ Kb Hk.
  - injection EQ as <- <-. change (taken []) with 0. cbn [Nat.add]. apply stored_read; [exact (w_nodup _ _ _ W)|].
    assert (PL : places a = List.length (a_lons a)) by (unfold places; rewrite Ka; reflexivity).
    apply (stored_keep (places a) s1); [exact SB|lia|rewrite (w_loc _ _ _ W); lia|]. apply V1. exact Hk.
  - injection EQ as <- ->. rewrite taken_cons. apply stored_read; [exact (w_nodup _ _ _ W)|]. apply V with (l2 := l2); auto.
Qed.
(* a crash of a call on any file written before: nothing stored is touched *)
Lemma crash_keeps h lons lats results k : ok_history empty_table h -> fits (t_lnames (stored h)) (mkAttempt (Some k) lons lats results) ->
  exists s s', exec_all new_file h = Ok s /\ add_metrics_killed k s lons lats results = Ok s' /\
    (forall i, i < f_loc s -> read_loc s' i = read_loc s i /\ read_ts s' i = read_ts s i) /\
    f_loc s' = match k with O => f_loc s | _ => f_loc s + List.length lons end.
Proof.
  intros H F. destruct (exec_all_ok h new_file empty_table inv_new H) as (s & E & I). fold (stored h) in I.
  destruct (attempt_ok _ _ s lons lats results k (inv_winv _ _ I) F) as (s' & E' & W' & SB & _). exists s, s'. split; [exact E|]. split; [exact E'|].
  assert (L' : f_loc s' = match k with O => f_loc s | _ => f_loc s + List.length lons end) by (rewrite (w_loc _ _ _ W'), (i_loc _ _ I); destruct k; reflexivity).
  split; [|exact L']. intros i Hi. rewrite <- (i_loc _ _ I) in SB.
  assert (LE : f_loc s <= f_loc s') by (rewrite L'; destruct k; lia).
  split; [apply (read_loc_same (f_loc s)); try assumption; [exact (i_nodup _ _ I)|lia]|].
  apply (read_ts_same (f_loc s)); try assumption; [exact (i_nodup _ _ I)|lia| |].
  - destruct (i_rs _ _ I) as (v & Ev & Dv & _). exists v. auto.
  - intros v Ev. destruct (i_time _ _ I) as (v' & Ev' & Dv' & _). congruence.
Qed.
