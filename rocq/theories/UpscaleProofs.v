(* Proofs about upscaling: matching to the longest series and averaging. *)
From Verif Require Import ReadSpec BaseProofs SortProofs NamesProofs TemporalProofs MatchersProofs ReadProofs.
From Verif Require Import TemporalModel TemporalSpec.
From Coq Require Import Lqa.

(* ------------------------------------------------------------ the mean is in the hull *)

Lemma qsum_between l lo hi : (forall x, In x l -> lo <= x <= hi)%Q -> (lo * qlen l <= qsum l <= hi * qlen l)%Q.
Proof.
  induction l as [|x l IH]; intros H.
  - unfold qlen. cbn. split; ring_simplify; lra.
  - assert (Hq : (qlen (x :: l) == 1 + qlen l)%Q).
    { unfold qlen. cbn [List.length]. rewrite Nat2Z.inj_succ. unfold Z.succ. rewrite inject_Z_plus. ring. }
    destruct IH as [I1 I2]; [intros; apply H; right; assumption|]. destruct (H x (or_introl eq_refl)) as [H1 H2].
    cbn [qsum]. rewrite Hq. split; ring_simplify; lra.
Qed.
Lemma qlen_pos {A} (l : list A) : l <> [] -> (0 < qlen l)%Q.
Proof. destruct l; [congruence|]. intros _. unfold qlen, Qlt. cbn. lia. Qed.
Lemma qmean_between l lo hi : l <> [] -> (forall x, In x l -> lo <= x <= hi)%Q -> (lo <= qmean l <= hi)%Q.
Proof.
  intros Ne H. destruct (qsum_between l lo hi H) as [H1 H2]. pose proof (qlen_pos l Ne) as P. unfold qmean.
  split; [apply Qle_shift_div_l|apply Qle_shift_div_r]; assumption.
Qed.
Lemma q_min_exists l : l <> [] -> exists x : Q, In x l /\ forall y, In y l -> (x <= y)%Q.
Proof.
  induction l as [|a l IH]; [congruence|]. intros _. destruct l as [|b l].
  - exists a. split; [left; reflexivity|]. intros y [<-|[]]. lra.
  - destruct IH as (x & Hx & M); [discriminate|]. destruct (Qlt_le_dec x a) as [L|L].
    + exists x. split; [right; exact Hx|]. intros y [<-|Hy]; [lra|apply M, Hy].
    + exists a. split; [left; reflexivity|]. intros y [<-|Hy]; [lra|]. specialize (M y Hy). lra.
Qed.
Lemma q_max_exists l : l <> [] -> exists x : Q, In x l /\ forall y, In y l -> (y <= x)%Q.
Proof.
  induction l as [|a l IH]; [congruence|]. intros _. destruct l as [|b l].
  - exists a. split; [left; reflexivity|]. intros y [<-|[]]. lra.
  - destruct IH as (x & Hx & M); [discriminate|]. destruct (Qlt_le_dec x a) as [L|L].
    + exists a. split; [left; reflexivity|]. intros y [<-|Hy]; [lra|]. specialize (M y Hy). lra.
    + exists x. split; [right; exact Hx|]. intros y [<-|Hy]; [lra|apply M, Hy].
Qed.
Lemma nanmean_hull cs :
  match nanmean cs with
  | None => forall c, In c cs -> c = None
  | Some v => exists lo hi, In (Some lo) cs /\ In (Some hi) cs /\ (lo <= v <= hi)%Q /\
                (forall x, In (Some x) cs -> (lo <= x <= hi)%Q)
  end.
Proof.
  unfold nanmean. destruct (vals cs) as [|x l] eqn:E.
  - intros [q|] H; [|reflexivity]. apply vals_in in H. rewrite E in H. contradiction.
  - assert (Ne : vals cs <> []) by (rewrite E; discriminate). rewrite <- E.
    destruct (q_min_exists _ Ne) as (lo & Hlo & Mlo). destruct (q_max_exists _ Ne) as (hi & Hhi & Mhi).
    exists lo, hi. split; [apply vals_in, Hlo|]. split; [apply vals_in, Hhi|].
    assert (B : forall y, In y (vals cs) -> (lo <= y <= hi)%Q) by (intros y Hy; split; [apply Mlo|apply Mhi]; exact Hy).
    split; [apply qmean_between; assumption|]. intros y Hy. apply B, vals_in, Hy.
Qed.

(* --------------------------------------------------------------------- longest *)

Lemma longest_spec l f0 : l = f0 :: tl l ->
  exists before after, l = before ++ longest l f0 :: after /\
    (forall x, In x before -> (first_count x < first_count (longest l f0))%nat) /\
    (forall x, In x after -> (first_count x <= first_count (longest l f0))%nat).
Proof.
  intros E. unfold longest.
  assert (G : forall rest before cur mid, (forall x, In x before -> (first_count x < first_count cur)%nat) ->
            (forall x, In x mid -> (first_count x <= first_count cur)%nat) ->
            let r := fold_left (fun ref df => if Nat.leb (first_count df) (first_count ref) then ref else df) rest cur in
            exists b a, before ++ cur :: mid ++ rest = b ++ r :: a /\
              (forall x, In x b -> (first_count x < first_count r)%nat) /\ (forall x, In x a -> (first_count x <= first_count r)%nat)).
  { induction rest as [|df rest IH]; intros before cur mid Hb Hm; cbn [fold_left].
    - exists before, mid. rewrite app_nil_r. auto.
    - destruct (Nat.leb_spec (first_count df) (first_count cur)) as [L|L].
      + destruct (IH before cur (mid ++ [df]) Hb) as (b & a & Eq & R).
        * intros x Hx. apply in_app_or in Hx as [Hx|[<-|[]]]; [apply Hm, Hx|exact L].
        * exists b, a. rewrite <- app_assoc in Eq. auto.
      + destruct (IH (before ++ cur :: mid) df []) as (b & a & Eq & R).
        * intros x Hx. apply in_app_or in Hx as [Hx|[<-|Hx]]; [apply Hb in Hx; lia|exact L|apply Hm in Hx; lia].
        * intros x [].
        * exists b, a. rewrite <- app_assoc in Eq. cbn in Eq. auto. }
  destruct l as [|x l]; [discriminate|]. injection E as ->. cbn [fold_left]. rewrite Nat.leb_refl.
  destruct (G l [] f0 []) as (b & a & Eq & R); [intros y []|intros y []|]. cbn in Eq. exists b, a. split; [exact Eq|exact R].
Qed.

Lemma first_count_values c rows : first_count (mkFrame [c] rows) = n_values rows.
Proof.
  unfold first_count, n_values, col_values. cbn [frows]. induction rows as [|[t r] rows IH]; [reflexivity|].
  cbn [map filter snd]. destruct r as [|[x|] r]; cbn; rewrite IH; reflexivity.
Qed.

(* ----------------------------------------------------------- nearest matching *)

Lemma nearest_one store oob idx o w : usable o ->
  exists d, temporal_collocation store oob idx o w nearest_opts = Ok d /\
    fcols d = fcols o /\ (forall t, has_time d t <-> In t idx) /\
    (forall t r, In t idx -> (cells_at d t r <-> nearest_row (frows o) (List.length (fcols o)) t w r)).
Proof.
  intros [W Hm]. destruct (tc_nearest_correct store oob idx o w Hm) as (g & E & G).
  eexists. split; [exact E|]. split; [reflexivity|].
  assert (Hin : forall t, In t (dedup_first (fun t => t) idx) <-> In t idx) by apply (dedup_ref_spec idx).
  assert (Ht : forall t r, In (t, r) (map (fun t => (t, g t)) (dedup_first (fun t => t) idx)) <-> In t idx /\ r = g t).
  { intros t r. rewrite in_map_iff. split.
    - intros (t' & E' & H). injection E' as -> <-. split; [apply Hin, H|reflexivity].
    - intros [H ->]. exists t. split; [reflexivity|apply Hin, H]. }
  split.
  - intros t. unfold has_time. cbn [frows]. split.
    + intros (r & H). apply Ht in H. tauto.
    + intros H. exists (g t). apply Ht. auto.
  - intros t r Hi. unfold cells_at. cbn [frows]. split.
    + intros [H|[H _]]; [apply Ht in H as [_ ->]; apply G|]. exfalso. apply H. exists (g t). apply Ht. auto.
    + intros H. left. apply Ht. split; [exact Hi|]. eapply nearest_row_unique; [exact H|apply G].
Qed.

Lemma nearest_all store oob idx others w : (forall o, In o others -> usable o) ->
  exists dfs, Forall2 (fun o d => temporal_collocation store oob idx o w nearest_opts = Ok d) others dfs /\
    flat_map fcols dfs = flat_map fcols others /\
    (forall d t, In d dfs -> (has_time d t <-> In t idx)) /\
    (forall t r, In t idx -> (row_of dfs t r <-> exists rs, Forall2 (fun o row => nearest_row (frows o) (List.length (fcols o)) t w row) others rs /\ r = List.concat rs)).
Proof.
  induction others as [|o others IH]; intros H.
  - exists []. split; [constructor|]. split; [reflexivity|]. split; [intros d t []|].
    intros t r _. split.
    + intros R. inversion R; subst. exists []. split; [constructor|reflexivity].
    + intros (rs & F & ->). inversion F; subst. constructor.
  - destruct IH as (dfs & F & C & T & R); [intros; apply H; right; assumption|].
    destruct (nearest_one store oob idx o w (H o (or_introl eq_refl))) as (d & E & Cd & Td & Rd).
    exists (d :: dfs). split; [constructor; assumption|]. split; [cbn; rewrite C, Cd; reflexivity|].
    split; [intros d' t [<-|Hd]; [apply Td|apply T; exact Hd]|].
    intros t r Ht. split.
    + intros X. inversion X as [|? ? ? r1 rs1 X1 X2]; subst. apply Rd in X1; [|exact Ht]. apply R in X2 as (rs & F2 & ->); [|exact Ht].
      exists (r1 :: rs). split; [constructor; assumption|reflexivity].
    + intros (rs & F2 & ->). inversion F2; subst. cbn. constructor; [apply Rd; assumption|]. apply R; [exact Ht|]. eauto.
Qed.

Lemma combined_dedup_noref store oob reference others w cd :
  combined_temporal_collocation store oob reference others w nearest_opts cd false =
  combined_temporal_collocation store oob (mkFrame (fcols reference) (dedup_first fst (frows reference))) others w nearest_opts cd false.
Proof.
  unfold combined_temporal_collocation, nearest_opts. cbn [o_method o_dropduplicates o_dropna o_flag o_use_invalid].
  assert (E : forall o, temporal_collocation store oob (findex reference) o w (mkOpts MNearest false false false false NoFlag false) =
              temporal_collocation store oob (findex (mkFrame (fcols reference) (dedup_first fst (frows reference)))) o w (mkOpts MNearest false false false false NoFlag false)).
  { intros o. unfold temporal_collocation. cbn [o_method o_dropduplicates o_dropna o_flag o_use_invalid eval_flag bindR].
    assert (Ed : dedup_first (fun t => t) (findex reference) =
                 dedup_first (fun t => t) (findex (mkFrame (fcols reference) (dedup_first fst (frows reference))))).
    { unfold findex. cbn [frows]. rewrite <- (dedup_map_fst (frows reference)). symmetry. apply dedup_id. rewrite map_id.
      rewrite dedup_map_fst. apply dedup_nodup. }
    rewrite Ed. reflexivity. }
  rewrite (map_ext _ _ E). reflexivity.
Qed.

Lemma nearest_rows store oob reference others w cd : (forall o, In o others -> usable o) -> others <> [] ->
  exists m, combined_temporal_collocation store oob reference others w nearest_opts cd false = Ok m /\
    fcols m = flat_map fcols others /\ NoDup (findex m) /\
    (forall t r, In (t, r) (frows m) <->
       In t (findex reference) /\
       (exists rs, Forall2 (fun o row => nearest_row (frows o) (List.length (fcols o)) t w row) others rs /\ r = List.concat rs) /\
       combined_keep cd r).
Proof.
  intros H Ne. rewrite combined_dedup_noref. set (R := mkFrame (fcols reference) (dedup_first fst (frows reference))).
  destruct (nearest_all store oob (findex R) others w H) as (dfs & F & C & T & Rw).
  assert (ND : NoDup (findex R)) by apply dedup_nodup.
  assert (Nd : dfs <> []) by (inversion F; subst; congruence).
  destruct (combined_correct store oob R others w nearest_opts cd false dfs ND F Nd) as (m & E & Cm & Nm & Im).
  exists m. split; [exact E|]. split; [rewrite Cm, C; reflexivity|]. split; [exact Nm|].
  assert (Hidx : forall t, In t (findex R) <-> In t (findex reference)).
  { intros t. unfold R, findex. cbn [frows]. rewrite <- dedup_map_fst. apply (dedup_ref_spec (map fst (frows reference))). }
  intros t r. rewrite Im. split.
  - intros ((f & Hf & Ht) & Ro & K). apply (T f t Hf) in Ht. split; [apply Hidx, Ht|]. split; [apply Rw; assumption|exact K].
  - intros (Ht & Ro & K). apply Hidx in Ht. split; [|split; [apply Rw; assumption|exact K]].
    destruct dfs as [|d dfs]; [congruence|]. exists d. split; [left; reflexivity|]. apply T; [left; reflexivity|exact Ht].
Qed.

(* ---------------------------------------------------------- dropping columns *)

Fixpoint comp_mask (m1 m2 : list bool) : list bool :=
  match m1 with
  | [] => []
  | false :: m1' => false :: comp_mask m1' m2
  | true :: m1' => match m2 with [] => false :: comp_mask m1' [] | b :: m2' => b :: comp_mask m1' m2' end
  end.
Lemma comp_mask_length m1 m2 : List.length (comp_mask m1 m2) = List.length m1.
Proof. revert m2; induction m1 as [|[] m1 IH]; intros m2; [reflexivity| |cbn; rewrite IH; reflexivity]. destruct m2; cbn; rewrite IH; reflexivity. Qed.
Lemma comp_mask_select {A} m1 m2 (l : list A) : mask_select m2 (mask_select m1 l) = mask_select (comp_mask m1 m2) l.
Proof.
  revert m2 l; induction m1 as [|b m1 IH]; intros m2 l; [destruct m2; reflexivity|]. destruct l as [|a l].
  - destruct b, m2; reflexivity.
  - destruct b; cbn [mask_select comp_mask].
    + destruct m2 as [|b2 m2]; cbn [mask_select]; [|destruct b2; rewrite IH; reflexivity].
      rewrite <- IH. destruct (mask_select m1 l); reflexivity.
    + apply IH.
Qed.
Lemma vals_select (m : list bool) (l : list cell) : (forall i, nth i m true = false -> nth i l None = None) -> List.length m = List.length l ->
  vals (mask_select m l) = vals l.
Proof.
  revert l; induction m as [|b m IH]; intros [|c l] H L; try discriminate; [reflexivity|].
  assert (IH' : vals (mask_select m l) = vals l) by (apply IH; [intros i Hi; apply (H (S i) Hi)|injection L; auto]).
  destruct b; cbn [mask_select].
  - destruct c; cbn [vals]; rewrite IH'; reflexivity.
  - specialize (H O eq_refl). cbn in H. subst c. cbn [vals]. exact IH'.
Qed.

Lemma keep_columns_rows p f t r : In (t, r) (frows (keep_columns p f)) <->
  exists r0, In (t, r0) (frows f) /\ r = mask_select (map p (seq 0 (ncols f))) r0.
Proof.
  unfold keep_columns. cbn [frows]. rewrite in_map_iff. split.
  - intros ([t' r0] & E & H). injection E as -> <-. exists r0. auto.
  - intros (r0 & H & ->). exists (t, r0). auto.
Qed.
Lemma keep_columns_index p f : findex (keep_columns p f) = findex f.
Proof. unfold findex, keep_columns. cbn [frows]. rewrite map_map. reflexivity. Qed.

(* --------------------------------------------------------------- temporal_match *)

(* one column per series *)
Definition one_column (f : frame) : Prop := exists c, fcols f = [c].

Lemma concat_singletons (fs : list frame) (P : frame -> row -> Prop) (rs : list row) :
  (forall f, In f fs -> one_column f) ->
  Forall2 (fun f r => P f r /\ List.length r = List.length (fcols f)) fs rs ->
  exists cs, rs = map (fun c => [c]) cs /\ Forall2 (fun f c => P f [c]) fs cs.
Proof.
  intros H F. induction F as [|f r fs rs [Hp Hl] F IH]; [exists []; split; [reflexivity|constructor]|].
  destruct IH as (cs & -> & F'); [intros; apply H; right; assumption|].
  destruct (H f (or_introl eq_refl)) as (c & E). rewrite E in Hl. destruct r as [|x [|y r]]; try discriminate.
  exists (x :: cs). split; [reflexivity|]. constructor; assumption.
Qed.
Lemma concat_map_single {A} (cs : list A) : List.concat (map (fun c => [c]) cs) = cs.
Proof. induction cs as [|c cs IH]; cbn; [reflexivity|]. rewrite IH. reflexivity. Qed.

Lemma Forall2_impl_in {A B} (P Q : A -> B -> Prop) l m : (forall a b, In a l -> P a b -> Q a b) -> Forall2 P l m -> Forall2 Q l m.
Proof. intros H F. induction F; constructor; [apply H; [left; reflexivity|assumption]|]. apply IHF. intros; apply H; [right|]; assumption. Qed.

Lemma up_match_spec store oob w dm fs : (forall f, In f fs -> usable f /\ one_column f) -> fs <> [] ->
  exists f mask before after ref, up_match store oob w dm fs = Ok f /\
    fs = before ++ ref :: after /\
    (forall x, In x before -> (first_count x < first_count ref)%nat) /\
    (forall x, In x after -> (first_count x <= first_count ref)%nat) /\
    NoDup (findex f) /\ List.length mask = List.length fs /\
    ncols f = List.length (filter (fun b => b) mask) /\
    (forall t r, In (t, r) (frows f) <->
       exists cs, In t (findex ref) /\
         Forall2 (fun s c => nearest_row (frows s) 1 t w [c]) fs cs /\
         (dm = true -> forall c, In c cs -> c <> None) /\
         r = mask_select mask cs) /\
    (forall t cs, In t (findex ref) -> Forall2 (fun s c => nearest_row (frows s) 1 t w [c]) fs cs ->
       (dm = true -> forall c, In c cs -> c <> None) -> vals (mask_select mask cs) = vals cs).
Proof.
  intros U Ne. destruct fs as [|f0 fs'] eqn:Efs; [congruence|]. rewrite <- Efs in *.
  assert (Hl : fs = f0 :: tl fs) by (rewrite Efs; reflexivity).
  destruct (longest_spec fs f0 Hl) as (before & after & Eb & Hb & Ha).
  destruct (nearest_rows store oob (longest fs f0) fs w (if dm then CDAny else CDFalse)) as (m & E & Cm & Nm & Im); [intros; apply U; assumption|exact Ne|].
  set (mask := map (fun i => negb (column_missing m i)) (seq 0 (ncols m))).
  assert (Lm : ncols m = List.length fs).
  { unfold ncols. rewrite Cm. clear -U. induction fs as [|f fs IH]; [reflexivity|]. cbn [flat_map]. rewrite app_length.
    destruct (proj2 (U f (or_introl eq_refl))) as (c & Ec). rewrite Ec. cbn. f_equal. apply IH. intros; apply U; right; assumption. }
  assert (Hrow : forall t r, In (t, r) (frows m) <-> In t (findex (longest fs f0)) /\
            Forall2 (fun s c => nearest_row (frows s) 1 t w [c]) fs r /\ (dm = true -> forall c, In c r -> c <> None)).
  { intros t r. rewrite Im. assert (HK : combined_keep (if dm then CDAny else CDFalse) r <-> (dm = true -> forall c, In c r -> c <> None)).
    { destruct dm; cbn; [tauto|]. split; [intros _ X; discriminate|tauto]. }
    rewrite HK. split.
    - intros (Ht & (rs & F & ->) & K). split; [exact Ht|]. split; [|exact K].
      destruct (concat_singletons fs (fun s row => nearest_row (frows s) (List.length (fcols s)) t w row) rs) as (cs & -> & F2).
      + intros; apply U; assumption.
      + eapply Forall2_impl_in; [|exact F]. intros s row Hs Hr. split; [exact Hr|]. eapply nearest_row_length; [apply U, Hs|exact Hr].
      + rewrite concat_map_single. eapply Forall2_impl_in; [|exact F2]. intros s c Hs Hr.
        destruct (proj2 (U s Hs)) as (cn & Ecn). cbv beta in Hr. rewrite Ecn in Hr. exact Hr.
    - intros (Ht & F & K). split; [exact Ht|]. split; [|exact K]. exists (map (fun c => [c]) r). split; [|rewrite concat_map_single; reflexivity].
      assert (U' : forall s, In s fs -> one_column s) by (intros; apply U; assumption).
      clear -F U'. induction F as [|s c fs r H F IH]; constructor.
      + destruct (U' s (or_introl eq_refl)) as (cn & Ecn). rewrite Ecn. exact H.
      + apply IH. intros; apply U'; right; assumption. }
  exists (keep_columns (fun i => negb (column_missing m i)) m), mask, before, after, (longest fs f0).
  split.
  { unfold up_match. rewrite Efs at 1. rewrite Efs in E. rewrite <- Efs in E. fold nearest_opts. rewrite E. reflexivity. }
  split; [exact Eb|]. split; [exact Hb|]. split; [exact Ha|].
  split; [rewrite keep_columns_index; exact Nm|].
  split; [unfold mask; rewrite map_length, seq_length; exact Lm|].
  split.
  { unfold keep_columns, ncols at 1. cbn [fcols]. fold mask.
    assert (L1 : List.length mask = List.length (fcols m)) by (unfold mask; rewrite map_length, seq_length; reflexivity).
    clear -L1. revert L1. generalize (fcols m). induction mask as [|b l IH]; intros [|c cs] L; try discriminate; [reflexivity|].
    destruct b; cbn; [f_equal|]; apply IH; injection L; auto. }
  split.
  - intros t r. rewrite keep_columns_rows. split.
    + intros (r0 & H & ->). apply Hrow in H as (Ht & F & K). exists r0. auto.
    + intros (cs & Ht & F & K & ->). exists cs. split; [apply Hrow; auto|reflexivity].
  - intros t cs Ht F K. assert (Lc : List.length cs = List.length fs) by (clear -F; induction F; cbn; congruence).
    apply vals_select; [|unfold mask; rewrite map_length, seq_length; lia].
    intros i Hi. unfold mask in Hi.
    destruct (Nat.lt_ge_cases i (ncols m)) as [L|L].
    + rewrite (nth_map_in (fun i => negb (column_missing m i)) _ i 0%nat) in Hi by (rewrite seq_length; exact L).
      rewrite seq_nth in Hi by exact L. cbn in Hi. apply negb_false_iff in Hi. unfold column_missing in Hi. rewrite forallb_forall in Hi.
      assert (In (nth i cs None) (col_values m i)).
      { unfold col_values. apply in_map_iff. exists (t, cs). split; [reflexivity|]. apply Hrow. auto. }
      apply Hi in H. destruct (nth i cs None); [discriminate|reflexivity].
    + rewrite nth_overflow in Hi by (rewrite map_length, seq_length; exact L). discriminate.
Qed.

(* ------------------------------------------------------------ get_upscaled_ts *)

Lemma mapM_reads reader period name points outs :
  map (fun g => accept_read period (reader name g)) points = map Ok outs ->
  mapM (read_ds reader period name) points = (map (fun g => (name, g)) points, Ok outs).
Proof.
  revert outs; induction points as [|g points IH]; intros [|o outs] H; try discriminate; [reflexivity|].
  cbn in H. injection H as H1 H2. cbn [mapM]. unfold read_ds at 1. rewrite H1. cbn [bindM]. rewrite (IH outs H2). cbn. rewrite app_nil_r. reflexivity.
Qed.

Section Up.
Variables (reader : string -> Z -> read_outcome) (period : option (Z * Z)) (store : cell -> cell) (oob : Z)
          (unstable : list cell -> list cell -> bool) (suffix : nat -> string).
Notation get_upscaled_ts := (get_upscaled_ts reader period store oob unstable suffix).

Lemma upscaled_no_entry p points columns name gpi :
  (forall l, ~ In (gpi, l) points) -> get_upscaled_ts p points columns name gpi = ([], Ok None).
Proof.
  intros H. unfold ReadModel.get_upscaled_ts. destruct (find _ points) as [[g l]|] eqn:E; [|reflexivity].
  apply find_some in E as [E1 E2]. apply Z.eqb_eq in E2. cbn in E2. subst g. exfalso. exact (H l E1).
Qed.

Lemma upscaled_cases p points columns name gpi pts outs :
  find (fun e => fst e =? gpi) points = Some (gpi, pts) ->
  map (fun g => accept_read period (reader name g)) pts = map Ok outs ->
  (List.concat (map opt_list outs) = [] -> get_upscaled_ts p points columns name gpi = (map (fun g => (name, g)) pts, Ok None)) /\
  (forall f, List.concat (map opt_list outs) = [f] -> get_upscaled_ts p points columns name gpi = (map (fun g => (name, g)) pts, Ok (Some f))).
Proof.
  intros F H. unfold ReadModel.get_upscaled_ts. rewrite F, (mapM_reads _ _ _ _ _ H). cbn [bindM].
  split; [intros ->|intros f ->]; cbn; rewrite app_nil_r; reflexivity.
Qed.

Lemma target_ok column name f rows : station_rows column f rows -> target_frame column name f = Ok (mkFrame [name] rows).
Proof. intros (i & E & ->). unfold target_frame. rewrite E. reflexivity. Qed.

Lemma targets_ok column (tss : list frame) rows k : Forall2 (station_rows column) tss rows ->
  exists fs, seqR (map (fun nf => target_frame column (column ++ "_" ++ suffix (fst nf))%string (snd nf)) (combine (seq k (List.length tss)) tss)) = Ok fs /\
    map frows fs = rows /\ (forall f, In f fs -> one_column f).
Proof.
  intros F. revert k. induction F as [|s r tss rows H F IH]; intros k.
  - exists []. split; [reflexivity|]. split; [reflexivity|intros f []].
  - destruct (IH (S k)) as (fs & E & Er & O). cbn [List.length seq combine map seqR fst snd].
    rewrite (target_ok _ _ _ _ H). cbn [bindR]. rewrite E. cbn [bindR].
    eexists. split; [reflexivity|]. split; [cbn; rewrite Er; reflexivity|].
    intros f [<-|Hf]; [eexists; reflexivity|apply O, Hf].
Qed.

Lemma station_usable column f rows name : usable f -> station_rows column f rows -> usable (mkFrame [name] rows).
Proof.
  intros [W Hm] (i & _ & ->). split.
  - intros t r H. cbn in *. apply in_map_iff in H as (? & E & _). injection E as _ <-. reflexivity.
  - unfold findex in *. cbn [frows] in *. rewrite <- dedup_map_fst in *. rewrite map_map. cbn [fst]. exact Hm.
Qed.

Lemma Forall2_map_l {A B C} (f : A -> B) (P : B -> C -> Prop) l m : Forall2 P (map f l) m <-> Forall2 (fun a c => P (f a) c) l m.
Proof.
  split; intros H.
  - remember (map f l) as l'. revert l Heql'. induction H; intros [|a l0] E; try discriminate; constructor; injection E as -> ->; auto.
  - induction H; constructor; auto.
Qed.

Lemma sub_mask_hull (cs : list cell) (mask : list bool) c : In c (mask_select mask cs) -> In c cs.
Proof. apply mask_select_in. Qed.

Lemma upscaled_spec p points column cols name gpi pts outs rows :
  u_method p = "average"%string ->
  find (fun e => fst e =? gpi) points = Some (gpi, pts) ->
  map (fun g => accept_read period (reader name g)) pts = map Ok outs ->
  let stations := List.concat (map opt_list outs) in
  (2 <= List.length stations)%nat -> (forall s, In s stations -> usable s) ->
  Forall2 (station_rows column) stations rows ->
  exists f ref mask, get_upscaled_ts p points (column :: cols) name gpi = (map (fun g => (name, g)) pts, Ok (Some f)) /\
    fcols f = [column] /\ NoDup (findex f) /\ first_longest rows ref /\ List.length mask = List.length stations /\
    (forall t r, In (t, r) (frows f) <-> exists cs, In t (map fst ref) /\
       Forall2 (fun s c => nearest_row s 1 t (u_window p) [c]) rows cs /\
       (u_drop_missing p = true -> forall c, In c cs -> c <> None) /\
       r = [nanmean (mask_select mask cs)]) /\
    (u_stability p = false -> forall t cs, In t (map fst ref) -> 
       Forall2 (fun s c => nearest_row s 1 t (u_window p) [c]) rows cs ->
       (u_drop_missing p = true -> forall c, In c cs -> c <> None) ->
       nanmean (mask_select mask cs) = nanmean cs).
Proof.
  intros Um F H stations Len U SR.
  destruct (targets_ok column stations rows 0 SR) as (fs & Et & Er & O).
  assert (Ufs : forall f, In f fs -> usable f /\ one_column f).
  { intros f Hf. split; [|apply O, Hf]. destruct (O f Hf) as (c & Ec). rewrite <- (frame_eta f), Ec.
    assert (Hr : In (frows f) rows) by (rewrite <- Er; apply in_map, Hf).
    clear -SR U Hr. induction SR as [|s r st rs H1 F1 IH]; [contradiction|]. destruct Hr as [->|Hr].
    - eapply station_usable; [apply U; left; reflexivity|exact H1].
    - apply IH; [intros; apply U; right; assumption|exact Hr]. }
  assert (Lfs : List.length fs = List.length stations).
  { transitivity (List.length rows); [rewrite <- Er, map_length; reflexivity|]. clear -SR. induction SR; cbn; congruence. }
  assert (Nfs : fs <> []) by (intros ->; cbn in Lfs; lia).
  destruct (up_match_spec store oob (u_window p) (u_drop_missing p) fs Ufs Nfs) as (g & mask & b & a & ref & Eg & Efs & Hb & Ha & Ng & Lm & Nc & Ig & Vg).
  set (g' := if u_stability p then tstability_filter unstable (u_min_n p) g else g).
  assert (HG : exists mask2, findex g' = findex g /\
             (forall t r, In (t, r) (frows g') <-> exists r0, In (t, r0) (frows g) /\ (r = if u_stability p && negb (Nat.ltb (ncols g) (u_min_n p)) then mask_select mask2 r0 else r0))).
  { exists (map (fun i => negb (unstable (row_means g) (col_values g i))) (seq 0 (ncols g))).
    unfold g', tstability_filter. destruct (u_stability p); cbn [andb].
    - destruct (Nat.ltb (ncols g) (u_min_n p)); cbn [negb].
      + split; [reflexivity|]. intros t r. split; [intros X; exists r; auto|intros (r0 & X & ->); exact X].
      + split; [apply keep_columns_index|]. intros t r. apply keep_columns_rows.
    - split; [reflexivity|]. intros t r. split; [intros X; exists r; auto|intros (r0 & X & ->); exact X]. }
  destruct HG as (mask2 & Fi & Ig').
  set (mask' := if u_stability p && negb (Nat.ltb (ncols g) (u_min_n p)) then comp_mask mask mask2 else mask).
  exists (mkFrame [column] (map (fun tr => (fst tr, [nanmean (snd tr)])) (frows g'))), (frows ref), mask'.
  split.
  { unfold ReadModel.get_upscaled_ts. rewrite F, (mapM_reads _ _ _ _ _ H). cbn [bindM]. fold stations.
    destruct stations as [|s1 [|s2 st]] eqn:Es; [cbn in Len; lia|cbn in Len; lia|]. rewrite <- Es in *.
    rewrite Et. cbn [bindR]. rewrite Eg. cbn [bindR]. fold g'. unfold upscale. rewrite Um, String.eqb_refl. cbn. rewrite app_nil_r. reflexivity. }
  split; [reflexivity|]. split.
  { unfold findex. cbn [frows]. rewrite map_map. cbn [fst]. change (NoDup (findex g')). rewrite Fi. exact Ng. }
  split.
  { exists (map frows b), (map frows a). rewrite <- Er, Efs, map_app. split; [reflexivity|].
    assert (Cn : forall f, In f fs -> first_count f = n_values (frows f)).
    { intros f Hf. destruct (O f Hf) as (c & Ec). rewrite <- (frame_eta f) at 1. rewrite Ec. apply first_count_values. }
    assert (Href : In ref fs) by (rewrite Efs; apply in_or_app; right; left; reflexivity).
    split; intros x Hx; apply in_map_iff in Hx as (f & <- & Hf).
    - rewrite <- (Cn ref Href), <- (Cn f); [apply Hb, Hf|]. rewrite Efs. apply in_or_app; left; exact Hf.
    - rewrite <- (Cn ref Href), <- (Cn f); [apply Ha, Hf|]. rewrite Efs. apply in_or_app; right; right; exact Hf. }
  split.
  { unfold mask'. destruct (u_stability p && _); [rewrite comp_mask_length|]; lia. }
  split.
  - intros t r. cbn [frows]. split.
    + intros X. apply in_map_iff in X as ([t' r'] & E & X). cbn in E. injection E as -> <-. apply Ig' in X as (r0 & X & ->). apply Ig in X as (cs & Ht & Fc & K & ->).
      exists cs. split; [exact Ht|]. split; [rewrite <- Er; apply Forall2_map_l, Fc|]. split; [exact K|].
      unfold mask'. destruct (u_stability p && _); [rewrite comp_mask_select|]; reflexivity.
    + intros (cs & Ht & Fc & K & ->). apply in_map_iff. exists (t, mask_select mask' cs). split; [reflexivity|]. apply Ig'.
      exists (mask_select mask cs). split.
      * apply Ig. exists cs. split; [exact Ht|]. split; [rewrite <- Er in Fc; apply Forall2_map_l in Fc; exact Fc|]. auto.
      * unfold mask'. destruct (u_stability p && _); [rewrite comp_mask_select|]; reflexivity.
  - intros St t cs Ht Fc K. unfold mask'. rewrite St. cbn [andb]. unfold nanmean.
    rewrite (Vg t cs); [reflexivity|exact Ht| |exact K]. rewrite <- Er in Fc. apply Forall2_map_l in Fc. exact Fc.
Qed.
End Up.
