(* C06: the deprecated function `matching`. *)
From Verif Require Import Base BaseProofs NamesModel NamesProofs.
From Verif Require Import DfMatchModel DfMatchSpec DfMatchProofs.
From Verif Require Import TemporalModel TemporalSpec TemporalProofs.

(* m is the only nearest observation of [arg] for the reference time t, it lies in the window, and no other
   reference time is as close to it *)
Definition wins (ref : list Z) (arg : frame) (a : asym) (w t : Z) (m : mrow) : Prop :=
  nearest_match arg t m /\ in_asym_window a w (m_dist m) /\ (forall m', nearest_match arg t m' -> m' = m) /\
  (forall t' m', In t' ref -> t' <> t -> nearest_match arg t' m' -> m_key m' = m_key m -> Z.abs (m_dist m) < Z.abs (m_dist m')).

(* what is known about the matches of one argument *)
Definition matches_of (ref : list Z) (arg : frame) (a : asym) (w : Z) (rows : list (Z * mrow)) : Prop :=
  (forall t m, In (t, m) rows -> In t ref /\ nearest_match arg t m /\ in_asym_window a w (m_dist m)) /\
  NoDup (map (fun x => m_key (snd x)) rows) /\
  (forall t, In t ref -> exists m, nearest_match arg t m /\ (in_asym_window a w (m_dist m) ->
     exists t' m', In (t', m') rows /\ m_key m' = m_key m /\ Z.abs (m_dist m') <= Z.abs (m_dist m))).

Definition no_row : mrow := mkMrow 0 0 0 [].
Definition pick (t : Z) (rows : list (Z * mrow)) : mrow :=
  match find (fun x => fst x =? t) rows with Some (_, m) => m | None => no_row end.

Lemma join_found rows n t : forallb notna (join_row (map (fun x => (fst x, Some (snd x))) rows) n t) = true -> (0 < n)%nat ->
  In (t, pick t rows) rows /\ join_row (map (fun x => (fst x, Some (snd x))) rows) n t = m_cells (pick t rows).
Proof.
  intros H N. unfold join_row, pick in *. induction rows as [|[s m] rows IH].
  - cbn in H. destruct n; [lia|discriminate].
  - cbn [map find fst snd] in *. destruct (Z.eqb_spec s t) as [->|NE]; [split; [now left|reflexivity]|].
    destruct (IH H) as [I E]. split; [now right|exact E].
Qed.
Lemma join_present rows n t m : In (t, m) rows -> (forall m', In (t, m') rows -> m' = m) ->
  join_row (map (fun x => (fst x, Some (snd x))) rows) n t = m_cells m.
Proof.
  intros I U. unfold join_row. induction rows as [|[s m0] rows IH]; [destruct I|]. cbn [map find fst snd].
  destruct (Z.eqb_spec s t) as [->|NE]; [f_equal; apply U; now left|].
  destruct I as [I|I]; [congruence|]. apply IH; [exact I|]. intros m' I'. apply U. now right.
Qed.

Lemma key_unique rows t1 m1 t2 m2 : NoDup (map (fun x : Z * mrow => m_key (snd x)) rows) -> In (t1, m1) rows -> In (t2, m2) rows -> m_key m1 = m_key m2 -> t1 = t2.
Proof.
  induction rows as [|x rows IH]; intros N I1 I2 E; [destruct I1|]. cbn [map] in N. apply NoDup_cons_iff in N as [N1 N2].
  destruct I1 as [E1|I1], I2 as [E2|I2].
  - congruence.
  - exfalso. apply N1. rewrite E1. apply in_map_iff. exists (t2, m2). auto.
  - exfalso. apply N1. rewrite E2. apply in_map_iff. exists (t1, m1). auto.
  - auto.
Qed.

Lemma sublist_filter {A B} (f : A -> B) p l : sublist (map f (filter p l)) (map f l).
Proof. induction l as [|a l IH]; cbn; [constructor|]. destruct (p a); cbn; [now apply sub_take|now apply sub_skip]. Qed.

Section Matching.
Variable kd : list Z -> Z -> nat.
Variables (reference : frame) (args : list frame) (w : Z) (a : asym).
Hypothesis KD : kd_correct kd.
Hypothesis W : 0 < w.
Hypothesis A : a <> AsymOther.
Hypothesis ND : NoDup (findex reference).
Hypothesis NE : frows reference <> [].
Hypothesis ARGS : forall arg, In arg args -> frows arg <> [] /\ wf_frame arg /\ fcols arg <> [].

Lemma ref_nonempty : findex reference <> [].
Proof. unfold findex. destruct (frows reference); [congruence|discriminate]. Qed.

Lemma all_matches : exists rs, seqR (map (fun arg => df_match kd (findex reference) arg (Some w) a true true) args) =
    Ok (map (fun rows : list (Z * mrow) => map (fun x => (fst x, Some (snd x))) rows) rs) /\
  Forall2 (fun arg rows => matches_of (findex reference) arg a w rows) args rs.
Proof.
  induction args as [|arg l IH]; [exists []; split; [reflexivity|constructor]|].
  destruct IH as (rs & E & F); [intros x I; apply ARGS; now right|].
  destruct (ARGS arg (or_introl eq_refl)) as (N1 & _).
  destruct (df_match_dups kd (findex reference) arg w a true KD W A ND ref_nonempty N1) as (rows & E1 & H).
  exists (rows :: rs). split; [|constructor; [exact H|exact F]]. cbn [map seqR]. rewrite E1. cbn [bindR]. rewrite E. reflexivity.
Qed.
End Matching.

Definition joined (args : list frame) (rs : list (list (Z * mrow))) (t : Z) : row :=
  flat_map (fun am => join_row (snd am) (ncols (fst am)) t) (combine args (map (fun rows : list (Z * mrow) => map (fun x => (fst x, Some (snd x))) rows) rs)).

Lemma joined_found ref a w args rs t : Forall2 (fun arg rows => matches_of ref arg a w rows) args rs ->
  (forall arg, In arg args -> frows arg <> [] /\ wf_frame arg /\ fcols arg <> []) -> forallb notna (joined args rs t) = true ->
  joined args rs t = flat_map m_cells (map (pick t) rs) /\ Forall2 (fun arg m => nearest_match arg t m /\ in_asym_window a w (m_dist m)) args (map (pick t) rs) /\
  Forall (fun rows => In (t, pick t rows) rows) rs.
Proof.
  intros F H N. induction F as [|arg rows args rs M F IH]; [repeat split; constructor|].
  unfold joined in *. cbn [map combine flat_map fst snd] in *. rewrite forallb_app in N. apply andb_prop in N as [N1 N2].
  destruct (H arg (or_introl eq_refl)) as (_ & _ & C). destruct (join_found rows (ncols arg) t N1) as [I E].
  { unfold ncols. destruct (fcols arg); [congruence|cbn; lia]. }
  destruct IH as (E2 & F2 & P2); [intros x Ix; apply H; now right|exact N2|]. rewrite E, E2. split; [reflexivity|].
  split; [|now constructor]. constructor; [|exact F2]. destruct M as (M1 & _). destruct (M1 t _ I) as (_ & M2 & M3). auto.
Qed.
Lemma joined_wins ref a w args rs t ms : Forall2 (fun arg rows => matches_of ref arg a w rows) args rs -> In t ref ->
  Forall2 (fun arg m => wins ref arg a w t m) args ms -> joined args rs t = flat_map m_cells ms.
Proof.
  intros F T. revert ms. induction F as [|arg rows args rs M F IH]; intros ms X; inversion X as [|arg' m args' ms' W1 X1]; subst; [reflexivity|].
  unfold joined in *. cbn [map combine flat_map fst snd]. rewrite (IH ms' X1). f_equal.
  destruct M as (M1 & M2 & M3). destruct W1 as (W1 & W2 & W3 & W4). apply join_present.
  - destruct (M3 t T) as (m0 & N0 & K). rewrite (W3 m0 N0) in *. destruct (K W2) as (t' & m' & I & KEY & D).
    destruct (Z.eq_dec t' t) as [->|NT]; [|destruct (M1 t' m' I) as (R1 & R2 & _); specialize (W4 t' m' R1 NT R2 KEY); lia].
    destruct (M1 t m' I) as (_ & R2 & _). rewrite (W3 m' R2) in I. exact I.
  - intros m' I. destruct (M1 t m' I) as (_ & R2 & _). exact (W3 m' R2).
Qed.

(* C06 for `matching`: the reference times for which every argument has an observation in the window and no
   value is missing, in their order, with the values of the reference and of the matched observations; an
   observation is used for one reference time only; and a reference time that has the closest match in every
   argument is part of the result *)
Theorem C06_matching kd reference args w a : kd_correct kd -> 0 < w -> a <> AsymOther -> NoDup (findex reference) -> frows reference <> [] ->
  (forall arg, In arg args -> frows arg <> [] /\ wf_frame arg /\ fcols arg <> []) ->
  exists out used, matching kd reference args (Some w) a = Ok out /\ fcols out = fcols reference ++ flat_map fcols args /\
    sublist (findex out) (findex reference) /\
    (forall t r, In (t, r) (frows out) -> exists v, In (t, v) (frows reference) /\ r = v ++ flat_map m_cells (used t) /\ (forall c, In c r -> c <> None) /\
       Forall2 (fun arg m => nearest_match arg t m /\ in_asym_window a w (m_dist m)) args (used t)) /\
    (forall t1 t2 i m1 m2, In t1 (findex out) -> In t2 (findex out) -> nth_error (used t1) i = Some m1 -> nth_error (used t2) i = Some m2 ->
       m_key m1 = m_key m2 -> t1 = t2) /\
    (forall t v ms, In (t, v) (frows reference) -> Forall2 (fun arg m => wins (findex reference) arg a w t m) args ms ->
       (forall c, In c (v ++ flat_map m_cells ms) -> c <> None) -> In (t, v ++ flat_map m_cells ms) (frows out)).
Proof.
  intros KD W A ND NE ARGS. destruct (all_matches kd reference args w a KD W A ND NE ARGS) as (rs & E & F).
  unfold matching. rewrite E. cbn [bindR]. eexists _, (fun t => map (pick t) rs). split; [reflexivity|]. split; [reflexivity|].
  unfold dropna_any, findex. cbn [frows fcols]. fold (findex reference).
  set (mk := fun tr : Z * row => (fst tr, snd tr ++ joined args rs (fst tr))).
  change (map (fun tr => (fst tr, snd tr ++ _)) (frows reference)) with (map mk (frows reference)).
  assert (NN : forall r : row, forallb notna r = true <-> forall c, In c r -> c <> None).
  { intros r. rewrite forallb_forall. split; intros H c I; specialize (H c I); destruct c; cbn in *; congruence. }
  assert (ROW : forall t r, In (t, r) (filter (fun tr => forallb notna (snd tr)) (map mk (frows reference))) ->
    exists v, In (t, v) (frows reference) /\ r = v ++ joined args rs t /\ forallb notna r = true /\ forallb notna (joined args rs t) = true).
  { intros t r I. apply filter_In in I as [I N]. cbn [snd] in N. apply in_map_iff in I as ([t' v] & EQ & I). unfold mk in EQ. cbn [fst snd] in EQ.
    assert (t' = t) by congruence. subst t'. assert (R : r = v ++ joined args rs t) by congruence. exists v. split; [exact I|]. split; [exact R|]. split; [exact N|].
    rewrite R, forallb_app in N. apply andb_prop in N. tauto. }
  split; [|split; [|split]].
  - replace (findex reference) with (map fst (map mk (frows reference))) by (rewrite map_map; reflexivity). apply sublist_filter.
  - intros t r I. destruct (ROW t r I) as (v & V & R & N & NJ). destruct (joined_found _ a w args rs t F ARGS NJ) as (J & F2 & _).
    exists v. split; [exact V|]. split; [rewrite R, J; reflexivity|]. split; [apply NN, N|exact F2].
  - intros t1 t2 i m1 m2 I1 I2 E1 E2 K. apply in_map_iff in I1 as ([t1' r1] & EQ1 & I1). apply in_map_iff in I2 as ([t2' r2] & EQ2 & I2). cbn [fst] in EQ1, EQ2. subst t1' t2'.
    destruct (ROW _ _ I1) as (v1 & _ & _ & _ & NJ1). destruct (ROW _ _ I2) as (v2 & _ & _ & _ & NJ2).
    destruct (joined_found _ a w args rs t1 F ARGS NJ1) as (_ & _ & P1). destruct (joined_found _ a w args rs t2 F ARGS NJ2) as (_ & _ & P2).
    rewrite nth_error_map in E1, E2. destruct (nth_error rs i) as [rows|] eqn:ER; [|discriminate]. cbn [option_map] in E1, E2. apply nth_error_In in ER.
    rewrite Forall_forall in P1, P2. specialize (P1 rows ER). specialize (P2 rows ER).
    assert (MO : exists arg, matches_of (findex reference) arg a w rows).
    { clear - F ER. induction F; [destruct ER|]. destruct ER as [<-|ER]; eauto. }
    destruct MO as (arg & _ & N & _). apply (key_unique rows t1 (pick t1 rows) t2 (pick t2 rows) N P1 P2). congruence.
  - intros t v ms V X N. assert (T : In t (findex reference)) by (apply in_map_iff; exists (t, v); auto).
    apply filter_In. cbn [snd]. split; [|apply NN, N]. apply in_map_iff. exists (t, v). split; [|exact V]. unfold mk. cbn [fst snd].
    rewrite (joined_wins _ a w args rs t ms F T X). reflexivity.
Qed.
Print Assumptions C06_matching.

(* a case that meets the hypotheses: the second reference time loses the observation at 5 to the first one *)
Example C06_matching_example :
  let reference := mkFrame ["ref"%string] [(4, [Some 1%Q]); (7, [Some 2%Q]); (20, [Some 3%Q]); (40, [Some 4%Q])] in
  let x := mkFrame ["x"%string] [(5, [Some 10%Q]); (18, [Some 11%Q]); (41, [None])] in
  kd_correct scan_nearest /\ NoDup (findex reference) /\
  matching scan_nearest reference [x] (Some 2) AsymNone = Ok (mkFrame ["ref"; "x"]%string [(4, [Some 1%Q; Some 10%Q]); (20, [Some 3%Q; Some 11%Q])]) /\
  wins (findex reference) x AsymNone 2 20 (mkMrow 1 (-2) 18 [Some 11%Q]).
Proof.
  cbv zeta. split; [exact scan_nearest_correct|]. split; [repeat constructor; cbn; intuition lia|]. split; [vm_compute; reflexivity|].
  assert (NM : forall t m, nearest_match (mkFrame ["x"%string] [(5, [Some 10%Q]); (18, [Some 11%Q]); (41, [None])]) t m ->
    (m = mkMrow 0 (5 - t) 5 [Some 10%Q] /\ Z.abs (5 - t) <= Z.abs (18 - t)) \/ (m = mkMrow 1 (18 - t) 18 [Some 11%Q] /\ Z.abs (18 - t) <= Z.abs (5 - t) /\ Z.abs (18 - t) <= Z.abs (41 - t)) \/
    (m = mkMrow 2 (41 - t) 41 [None] /\ Z.abs (41 - t) <= Z.abs (18 - t))).
  { intros t [k di ix ce] (H1 & H2 & H3). cbn [m_key m_dist m_index m_cells frows] in *.
    pose proof (H3 5 _ (or_introl eq_refl)). pose proof (H3 18 _ (or_intror (or_introl eq_refl))). pose proof (H3 41 _ (or_intror (or_intror (or_introl eq_refl)))).
    destruct k as [|[|[|k]]]; cbn in H1; [| | |destruct k; discriminate]; injection H1 as <- <-; subst di; [left|right; left|right; right]; auto. }
  split; [|split; [|split]].
  - split; [reflexivity|]. split; [reflexivity|]. cbn. intros s r [E|[E|[E|[]]]]; injection E as <- _; cbn; lia.
  - cbn. lia.
  - intros m' H. destruct (NM 20 m' H) as [(-> & ?)|[(-> & _)|(-> & ?)]]; [lia|reflexivity|lia].
  - intros t' m' T NT H K. destruct (NM t' m' H) as [(-> & ?)|[(-> & ? & ?)|(-> & ?)]]; cbn in K; try discriminate. cbn [m_dist]. cbn in T.
    destruct T as [<-|[<-|[<-|[<-|[]]]]]; cbn in *; lia.
Qed.
