(* C06, continued: the deprecated df_match and matching without a window (the default). *)
From Coq Require Import Lia Permutation Sorting.Sorted.
From Verif Require Import Base BaseProofs TemporalModel TemporalSpec TemporalProofs DfMatchModel DfMatchSpec DfMatchProofs.

(* Without a window every reference time, however far away, gets its nearest observation. *)
Theorem C06_no_window :
  forall kd ref arg a, kd_correct kd -> ref <> [] -> frows arg <> [] ->
  exists rows, df_match kd ref arg None a false false = Ok rows /\ Permutation (map fst rows) ref /\ StronglySorted Z.le (map fst rows) /\
    (forall t o, In (t, o) rows -> exists m, nearest_match arg t m /\ o = Some m) /\
    df_match kd ref arg None a true false = Ok rows.
Proof.
  intros kd ref arg a KD R N. unfold df_match. destruct ref as [|t0 ref']; [congruence|]. set (ref := t0 :: ref') in *.
  destruct (frows arg) eqn:E; [congruence|]. rewrite <- E in N. clear E. cbn [apply_window mapR].
  exists (map (fun x => (fst x, Some (snd x))) (match_table kd ref arg)). split; [reflexivity|].
  assert (F : map fst (map (fun x => (fst x, Some (snd x))) (match_table kd ref arg)) = map fst (match_table kd ref arg)) by (rewrite map_map; reflexivity).
  rewrite F. split; [apply match_table_perm|]. split; [apply sort_index_sorted|]. split.
  - intros t o I. apply in_map_iff in I as ([t' m] & EQ & I). cbn [fst snd] in EQ. injection EQ as -> <-.
    apply (match_table_nearest kd ref arg t m KD N) in I as [_ M]. exists m. split; [exact M|reflexivity].
  - f_equal. assert (D : forall q : list (Z * mrow), drop_all_nan (map (fun x => (fst x, Some (snd x))) q) = q).
    { induction q as [|[t m] q IH]; [reflexivity|]. unfold drop_all_nan in *. cbn [map flat_map fst snd app]. rewrite IH. reflexivity. }
    rewrite D. reflexivity.
Qed.
Print Assumptions C06_no_window.

Lemma no_window kd ref arg w a : kd_correct kd -> frows arg <> [] -> 0 < w -> (forall t s, In t ref -> In s (findex arg) -> Z.abs (s - t) <= w) ->
  apply_window None a (match_table kd ref arg) = apply_window (Some w) AsymNone (match_table kd ref arg).
Proof.
  intros KD N W H. rewrite apply_window_ok by (assumption || discriminate). cbn [apply_window]. f_equal. apply map_ext_in. intros [t m] I.
  apply (match_table_nearest kd ref arg t m KD N) in I as [It (M & D & _)]. unfold windowed. cbn [fst snd valid_dist].
  apply nth_error_In in M. apply (in_map fst) in M. cbn [fst] in M. specialize (H t (m_index m) It M). rewrite D.
  replace (w <? Z.abs (m_index m - t)) with false by lia. reflexivity.
Qed.

(* It is the same as with any window that is not smaller than the distances that occur, for all options; also in matching. *)
Theorem C06_wide_window :
  forall kd ref arg w a dn dd, kd_correct kd -> ref <> [] -> frows arg <> [] -> 0 < w ->
  (forall t s, In t ref -> In s (findex arg) -> Z.abs (s - t) <= w) ->
  df_match kd ref arg None a dn dd = df_match kd ref arg (Some w) AsymNone dn dd.
Proof.
  intros kd ref arg w a dn dd KD R N W H. unfold df_match. rewrite (no_window kd ref arg w a KD N W H). reflexivity.
Qed.
Theorem C06_matching_wide_window :
  forall kd reference args w a, kd_correct kd -> frows reference <> [] -> 0 < w ->
  (forall arg, In arg args -> frows arg <> [] /\ forall t s, In t (findex reference) -> In s (findex arg) -> Z.abs (s - t) <= w) ->
  matching kd reference args None a = matching kd reference args (Some w) AsymNone.
Proof.
  intros kd reference args w a KD R W H. unfold matching. f_equal. f_equal. apply map_ext_in. intros arg I. destruct (H arg I) as [N D].
  apply C06_wide_window; try assumption. unfold findex. destruct (frows reference); [congruence|discriminate].
Qed.
Print Assumptions C06_wide_window.
Print Assumptions C06_matching_wide_window.

Example C06_no_window_met :
  let arg := mkFrame ["x"%string] [(5, [Some 1%Q]); (18, [Some 2%Q])] in
  let kd := fun (times : list Z) (t : Z) => if (t <? 12)%Z then 0%nat else 1%nat in
  map (fun x => (fst x, option_map m_dist (snd x))) (match df_match kd [400; 18; 5] arg None AsymNone false false with Ok r => r | Err _ => [] end) = [(5, Some 0); (18, Some 0); (400, Some (-382))] /\
  df_match kd [400; 18; 5] arg None AsymNone true true = df_match kd [400; 18; 5] arg (Some 400) AsymNone true true.
Proof. split; reflexivity. Qed.
