(* C06, continued: the deprecated df_match with a window of zero, a negative window or an unknown asymmetry. *)
From Coq Require Import Lia Permutation Sorting.Sorted.
From Verif Require Import Base BaseProofs TemporalModel TemporalSpec TemporalProofs DfMatchModel DfMatchSpec DfMatchProofs.

Lemma window_gen kd ref arg w a : kd_correct kd -> a <> AsymOther -> ref <> [] -> frows arg <> [] ->
  exists rows, df_match kd ref arg (Some w) a false false = Ok rows /\ Permutation (map fst rows) ref /\ StronglySorted Z.le (map fst rows) /\
    forall t o, In (t, o) rows -> exists m, nearest_match arg t m /\ o = (match valid_dist a w (m_dist m) with Some true => Some m | _ => None end).
Proof.
  intros KD A R N. unfold df_match. destruct ref as [|t0 ref']; [congruence|]. set (ref := t0 :: ref') in *. destruct (frows arg) eqn:E; [congruence|]. rewrite <- E in N. clear E.
  assert (W : apply_window (Some w) a (match_table kd ref arg) = Ok (map (windowed w a) (match_table kd ref arg))).
  { unfold apply_window. apply seqR_ok. rewrite map_map. apply map_ext. intros x. unfold windowed. destruct a; [| | |congruence]; cbn [valid_dist]; destruct (_ : bool); reflexivity. }
  rewrite W. cbn [mapR]. eexists; split; [reflexivity|].
  assert (F : map fst (map (windowed w a) (match_table kd ref arg)) = map fst (match_table kd ref arg)) by (rewrite map_map; reflexivity).
  rewrite F. split; [apply match_table_perm|]. split; [apply sort_index_sorted|].
  intros t o I. apply in_map_iff in I as ([t' m] & EQ & I). unfold windowed in EQ; cbn [fst snd] in EQ. injection EQ as -> <-.
  apply (match_table_nearest kd ref arg t m KD N) in I as [_ M]. exists m. split; [exact M|reflexivity].
Qed.

(* With a window of zero the observations at the very reference times are used, and no others, whatever the asymmetry. *)
Theorem C06_zero_window :
  forall kd ref arg a, kd_correct kd -> a <> AsymOther -> ref <> [] -> frows arg <> [] ->
  exists rows, df_match kd ref arg (Some 0) a false false = Ok rows /\ Permutation (map fst rows) ref /\ StronglySorted Z.le (map fst rows) /\
    forall t o, In (t, o) rows -> exists m, nearest_match arg t m /\ ((m_index m = t /\ o = Some m) \/ (m_index m <> t /\ o = None)).
Proof.
  intros kd ref arg a KD A R N. destruct (window_gen kd ref arg 0 a KD A R N) as (rows & E & P & S & H). exists rows. repeat (split; [assumption|]).
  intros t o I. destruct (H t o I) as (m & M & ->). exists m. split; [exact M|]. destruct M as (_ & D & _). rewrite D.
  destruct (Z.eq_dec (m_index m) t) as [EQ|NE]; [left|right]; (split; [assumption|]).
  - rewrite EQ, Z.sub_diag. destruct a; [| | |congruence]; reflexivity.
  - destruct a; [| | |congruence]; cbn [valid_dist].
    + replace (0 <? Z.abs (m_index m - t)) with true by lia. reflexivity.
    + replace ((0 <=? m_index m - t) && (m_index m - t <=? 0) || (m_index m - t <=? 0) && (- 0 <? m_index m - t))%bool with false by lia. reflexivity.
    + replace ((0 <=? m_index m - t) && (m_index m - t <? 0) || (m_index m - t <=? 0) && (- 0 <=? m_index m - t))%bool with false by lia. reflexivity.
Qed.
Print Assumptions C06_zero_window.

(* With a negative window nothing matches: every reference time gets a row without values; with dropna the result is empty. *)
Theorem C06_negative_window :
  forall kd ref arg w a, kd_correct kd -> w < 0 -> a <> AsymOther -> ref <> [] -> frows arg <> [] ->
  (exists rows, df_match kd ref arg (Some w) a false false = Ok rows /\ Permutation (map fst rows) ref /\ forall t o, In (t, o) rows -> o = None) /\
  forall dd, df_match kd ref arg (Some w) a true dd = Ok [].
Proof.
  intros kd ref arg w a KD W A R N.
  assert (V : forall d, valid_dist a w d = Some false).
  { intros d. destruct a; [| | |congruence]; cbn [valid_dist]; f_equal; lia. }
  split.
  - destruct (window_gen kd ref arg w a KD A R N) as (rows & E & P & S & H). exists rows. split; [exact E|]. split; [exact P|]. intros t o I. destruct (H t o I) as (m & _ & ->). rewrite V. reflexivity.
  - intros dd. unfold df_match. destruct ref as [|t0 ref']; [congruence|]. set (ref := t0 :: ref') in *. destruct (frows arg) eqn:E; [congruence|].
    assert (AW : apply_window (Some w) a (match_table kd ref arg) = Ok (map (fun x => (fst x, None)) (match_table kd ref arg))).
    { unfold apply_window. apply seqR_ok. rewrite map_map. apply map_ext. intros x. rewrite V. reflexivity. }
    rewrite AW. cbn [mapR]. assert (D : drop_all_nan (map (fun x : Z * mrow => (fst x, None)) (match_table kd ref arg)) = []).
    { clear AW. unfold drop_all_nan. induction (match_table kd ref arg) as [|x r IH]; [reflexivity|]. cbn. exact IH. }
    rewrite D. destruct dd; reflexivity.
Qed.
Print Assumptions C06_negative_window.

(* An unknown asymmetry with a window is an error, without a window it is ignored. *)
Theorem C06_unknown_asymmetry :
  forall kd ref arg w dn dd, ref <> [] -> frows arg <> [] ->
  df_match kd ref arg (Some w) AsymOther dn dd = Err EOther /\ df_match kd ref arg None AsymOther dn dd = df_match kd ref arg None AsymNone dn dd.
Proof.
  intros kd ref arg w dn dd R N. split; [|reflexivity]. unfold df_match. destruct ref as [|t0 ref']; [congruence|]. destruct (frows arg) eqn:E; [congruence|].
  destruct (match_table_total kd (t0 :: ref') arg t0 (or_introl eq_refl)) as (m & I). destruct (match_table kd (t0 :: ref') arg) as [|x r]; [destruct I|]. reflexivity.
Qed.
Print Assumptions C06_unknown_asymmetry.

Example C06_zero_window_met :
  let arg := mkFrame ["x"%string] [(5, [Some 1%Q]); (18, [Some 2%Q])] in
  map (fun x => (fst x, match snd x with Some m => true | None => false end)) (match df_match (fun (times : list Z) (t : Z) => if (t <? 10)%Z then 0%nat else 1%nat) [4; 18; 5] arg (Some 0) AsymLE false false with Ok r => r | Err _ => [] end) = [(4, false); (5, true); (18, true)] /\
  df_match (fun (times : list Z) (t : Z) => if (t <? 10)%Z then 0%nat else 1%nat) [4; 18; 5] arg (Some (-1)) AsymNone true true = Ok [].
Proof. split; reflexivity. Qed.
