(* C69: results with time series, written in any number of batches, read back. *)
From Verif Require Import ResultsSpec BaseProofs NamesProofs MatchersProofs ValidationProofs2 ResultsProofs ResultsProofs2 ResultsTsProps.
From Verif Require Import TemporalModel TemporalSpec.
Open Scope string_scope.
Open Scope list_scope.
Open Scope Z_scope.

(* the results of one key from one call of the metrics calculators, with the data they hold *)
Record batch := mkBatch { b_results : list (field * list entry); b_lons : list Q; b_lats : list Q; b_times : list (list Q); b_fields : list (string * list entry) }.
Definition b_size (b : batch) : nat := List.length (b_lons b).
Definition total (bs : list batch) : nat := fold_right (fun b n => b_size b + n)%nat 0%nat bs.
(* every batch has the same fields; a time series has one value per time stamp of its location, other fields one value per
   location *)
Definition good_batch (tv names : list string) (b : batch) : Prop :=
  holds_series (b_results b) tv (b_lons b) (b_lats b) (b_times b) (b_fields b) /\ b_lons b <> [] /\ map fst (b_fields b) = names /\
  forall k col i, In (k, col) (b_fields b) -> (i < b_size b)%nat ->
    List.length (entry_cells (nth i col (Sc None))) = if existsb (String.eqb k) tv then List.length (nth i (b_times b) []) else 1%nat.
(* netcdf_results_manager called once per batch, the file is continued *)
Definition write_batches (tv : list string) (bs : list batch) (s : ncfile) : res ncfile :=
  fold_left (fun acc b => bindR acc (fun s => mapR fst (write_key (Some tv) s None (b_results b)))) bs (Ok s).

(* ---- tables of uniform points ---- *)
Section Uniform.
Variables (Ls Ss : list string).
Definition uniform (p : result) : Prop :=
  map fst (named (r_metrics p)) = Ls /\ map fst (r_ts p) = Ss /\ exists times, r_times p = Some times /\
  (forall n l, In (n, l) (named (r_metrics p)) -> List.length l = 1%nat) /\ (forall n l, In (n, l) (r_ts p) -> List.length l = List.length times).
Hypothesis NDL : NoDup Ls.
Hypothesis NDS : NoDup Ss.
Hypothesis DISJ : forall n, In n Ls -> In n Ss -> False.
Hypothesis FREE : forall n, In n Ls \/ In n Ss -> ~ In n reserved.
Hypothesis SNE : Ss <> [].
Definition times_of (p : result) : list Q := match r_times p with Some t => t | None => [] end.
Definition tab (ps : list result) : table :=
  mkTable (map (fun p => point [r_lon p] [r_lat p] (named (r_metrics p)) 0) ps) (map (fun p => (times_of p, fun n => dict_get (r_ts p) n)) ps)
          (match ps with [] => [] | _ => Ls end) (match ps with [] => [] | _ => Ss end).

Lemma new_names_all results : new_names [] results = map fst results.
Proof. unfold new_names. cbn [app]. induction (map fst results) as [|n l IH]; [reflexivity|]. cbn [filter existsb negb]. f_equal. exact IH. Qed.
Lemma new_names_same results : new_names (map fst results) results = map fst results.
Proof.
  unfold new_names. assert (E : forall l k, incl l k -> filter (fun n => negb (existsb (String.eqb n) k)) l = []).
  { induction l as [|n l IH]; intros k I; [reflexivity|]. cbn [filter]. replace (existsb (String.eqb n) k) with true; [cbn [negb]; apply IH; intros x X; apply I; right; exact X|].
    symmetry. apply existsb_exists. exists n. split; [apply I; left; reflexivity|apply String.eqb_refl]. }
  rewrite E by apply incl_refl. apply app_nil_r.
Qed.
Lemma firstn_snoc {A} (l : list A) x : firstn (List.length l) (l ++ [x]) = l. Proof. rewrite firstn_app, Nat.sub_diag, firstn_all. apply app_nil_r. Qed.

Lemma tab_step ps p : uniform p ->
  ok_history (tab ps) (result_calls (List.length ps) p) /\ fold_left apply_call (result_calls (List.length ps) p) (tab ps) = tab (ps ++ [p]).
Proof.
  intros (UL & US & times & ET & LL & LS). unfold result_calls. rewrite ET.
  assert (TS : exists x l, r_ts p = x :: l) by (destruct (r_ts p) as [|x l]; [cbn in US; congruence|eauto]). destruct TS as (x & l & TS). rewrite TS. cbn iota. rewrite <- TS.
  set (t1 := apply_call (tab ps) (AddMetrics [r_lon p] [r_lat p] (r_metrics p))).
  assert (T1 : t1 = mkTable (t_locs (tab ps) ++ [point [r_lon p] [r_lat p] (named (r_metrics p)) 0]) (t_series (tab ps) ++ [([], fun _ => None)]) Ls (t_tnames (tab ps))).
  { unfold t1, apply_call. cbn [List.length seq map repeat]. f_equal. unfold tab. cbn [t_lnames]. destruct ps; rewrite <- UL; [apply new_names_all|apply new_names_same]. }
  assert (LSER : List.length (t_series (tab ps)) = List.length ps) by (unfold tab; cbn [t_series]; apply map_length).
  split.
  - cbn [ok_history]. fold t1. split; [|split; [|exact Logic.I]].
    + split; [discriminate|]. split; [reflexivity|]. split; [exact LL|]. split.
      * split; [rewrite UL; exact NDL|]. intros n I. rewrite UL in I. split; [apply FREE; left; exact I|]. unfold tab. cbn [t_tnames]. destruct ps; [intros []|]. intros J. exact (DISJ n I J).
      * intros n I. rewrite UL in I. unfold tab. cbn [t_lnames t_locs]. destruct ps; [right; reflexivity|left; exact I].
    + rewrite T1. cbn [ok_call t_series t_lnames t_tnames]. split; [rewrite app_length, LSER; cbn; lia|]. split; [|split; [exact LS|split]].
      * intros e I. rewrite skipn_app, LSER, Nat.sub_diag, skipn_all2 in I by lia. cbn in I. destruct I as [<-|[]]. reflexivity.
      * split; [rewrite US; exact NDS|]. intros n I. rewrite US in I. split; [apply FREE; right; exact I|]. intros J. exact (DISJ n J I).
      * intros n I. rewrite US in I. unfold tab. cbn [t_tnames t_series]. destruct ps; [right; cbn; intros e [<-|[]]; reflexivity|left; exact I].
  - cbn [fold_left]. fold t1. rewrite T1. unfold apply_call. cbn [t_locs t_series t_lnames t_tnames]. rewrite <- LSER, firstn_snoc.
    rewrite (skipn_all2 (n := Datatypes.S (List.length (t_series (tab ps))))) by (rewrite app_length; cbn; lia).
    unfold tab. cbn [t_locs t_series t_tnames]. rewrite !map_app. cbn [map]. replace (times_of p) with times by (unfold times_of; rewrite ET; reflexivity).
    assert (NN : new_names (match ps with [] => [] | _ :: _ => Ss end) (r_ts p) = Ss) by (destruct ps; rewrite <- US; [apply new_names_all|apply new_names_same]).
    rewrite NN. destruct ps; reflexivity.
Qed.

Lemma tab_all : forall rs ps, (forall p, In p rs -> uniform p) ->
  ok_history (tab ps) (all_calls (List.length ps) rs) /\ fold_left apply_call (all_calls (List.length ps) rs) (tab ps) = tab (ps ++ rs).
Proof.
  induction rs as [|p rs IH]; intros ps U; cbn [all_calls].
  - cbn. rewrite app_nil_r. auto.
  - destruct (tab_step ps p (U p (or_introl eq_refl))) as (O & E). destruct (IH (ps ++ [p]) (fun q Q => U q (or_intror Q))) as (O2 & E2).
    rewrite app_length in O2, E2. cbn [List.length] in O2, E2. rewrite Nat.add_1_r in O2, E2. rewrite fold_left_app, E, E2, <- app_assoc. cbn [app]. split; [|reflexivity].
    apply ok_history_app. rewrite E. auto.
Qed.
End Uniform.

(* ---- the points of a batch ---- *)
Definition points (tv : list string) (b : batch) : list result := map (point_result tv (b_lons b) (b_lats b) (b_times b) (b_fields b)) (seq 0 (b_size b)).
Lemma store_app rs : forall rs' s, store_results s (rs ++ rs') = bindR (store_results s rs) (fun s => store_results s rs').
Proof.
  unfold store_results. intros rs' s. rewrite fold_left_app. destruct (fold_left _ rs (Ok s)) as [s1|e]; [reflexivity|]. cbn [bindR].
  induction rs' as [|r l IH]; [reflexivity|]. cbn [fold_left bindR]. exact IH.
Qed.
Lemma write_batches_store tv names bs : (forall b, In b bs -> good_batch tv names b) -> forall s, write_batches tv bs s = store_results s (List.concat (map (points tv) bs)).
Proof.
  unfold write_batches. induction bs as [|b bs IH]; intros G s; [reflexivity|]. cbn [fold_left map List.concat bindR]. rewrite store_app.
  destruct (G b (or_introl eq_refl)) as (H & NE & _). rewrite (write_key_series s None _ tv _ _ _ _ H NE). fold (b_size b). fold (points tv b).
  destruct (store_results s (points tv b)) as [s1|e]; cbn [bindR]; [apply IH; intros x X; apply G; right; exact X|].
  clear. induction bs as [|b bs IH]; [reflexivity|]. cbn [fold_left bindR]. exact IH.
Qed.

Lemma points_nth tv bs : forall b j pre post, bs = pre ++ b :: post -> (j < b_size b)%nat ->
  nth_error (List.concat (map (points tv) bs)) (total pre + j) = Some (point_result tv (b_lons b) (b_lats b) (b_times b) (b_fields b) j).
Proof.
  intros b j pre post -> J. rewrite map_app, concat_app. cbn [map List.concat].
  assert (L : List.length (List.concat (map (points tv) pre)) = total pre).
  { clear. induction pre as [|b pre IH]; [reflexivity|]. cbn [map List.concat total fold_right]. rewrite app_length. unfold points at 1. rewrite map_length, seq_length. fold (total pre). lia. }
  rewrite nth_error_app2 by lia. replace (total pre + j - List.length (List.concat (map (points tv) pre)))%nat with j by lia.
  rewrite nth_error_app1 by (unfold points; rewrite map_length, seq_length; exact J). unfold points. rewrite nth_error_map.
  rewrite (nth_error_nth' (seq 0 (b_size b)) 0%nat) by (rewrite seq_length; exact J). rewrite seq_nth by exact J. reflexivity.
Qed.

Section Fields.
Variables (tv : list string) (b : batch) (j : nat).
Notation p := (point_result tv (b_lons b) (b_lats b) (b_times b) (b_fields b) j).
Definition in_tv (k : string) : bool := existsb (String.eqb k) tv.
Lemma metrics_of : named (r_metrics p) = map (fun f => (fst f, entry_cells (nth j (snd f) (Sc None)))) (filter (fun f => negb (in_tv (fst f))) (b_fields b)).
Proof.
  unfold named, r_metrics, point_result. cbn [r_data r_tsvars]. induction (b_fields b) as [|f fs IH]; [reflexivity|]. cbn [map filter is_ts fst]. unfold in_tv at 1.
  destruct (existsb (String.eqb (fst f)) tv); cbn [negb map fst snd var_name]; [exact IH|f_equal; exact IH].
Qed.
Lemma series_of : r_ts p = map (fun f => (fst f, entry_cells (nth j (snd f) (Sc None)))) (filter (fun f => in_tv (fst f)) (b_fields b)).
Proof.
  unfold r_ts, named, point_result. cbn [r_data r_tsvars]. induction (b_fields b) as [|f fs IH]; [reflexivity|]. cbn [map filter is_ts fst]. unfold in_tv at 1.
  destruct (existsb (String.eqb (fst f)) tv); cbn [map fst snd var_name]; [f_equal; exact IH|exact IH].
Qed.
End Fields.
Lemma map_fst_filter {A} (q : string -> bool) (l : list (string * A)) : map fst (filter (fun f => q (fst f)) l) = filter q (map fst l).
Proof. induction l as [|f l IH]; [reflexivity|]. cbn [filter map]. destruct (q (fst f)); cbn [map]; [f_equal|]; exact IH. Qed.

Lemma points_uniform tv names b : good_batch tv names b -> forall q, In q (points tv b) -> uniform (filter (fun k => negb (in_tv tv k)) names) (filter (in_tv tv) names) q.
Proof.
  intros (H & NE & N & LEN) q I. unfold points in I. apply in_map_iff in I as (j & <- & J). apply in_seq in J. unfold uniform. rewrite metrics_of, series_of.
  assert (M : forall fs, map fst (map (fun f : string * list entry => (fst f, entry_cells (nth j (snd f) (Sc None)))) fs) = map fst fs) by (intros fs; rewrite map_map; reflexivity).
  rewrite !M, (map_fst_filter (fun k => negb (in_tv tv k))), (map_fst_filter (in_tv tv)), N. split; [reflexivity|]. split; [reflexivity|]. eexists. split; [reflexivity|]. split.
  - intros n l X. apply in_map_iff in X as ([k col] & E & X). cbn [fst snd] in E. apply filter_In in X as (X & Y). cbn [fst] in Y. assert (l = entry_cells (nth j col (Sc None))) by congruence. subst l.
    rewrite (LEN k col j X) by lia. unfold in_tv in Y. destruct (existsb (String.eqb k) tv); [discriminate|reflexivity].
  - intros n l X. apply in_map_iff in X as ([k col] & E & X). cbn [fst snd] in E. apply filter_In in X as (X & Y). cbn [fst] in Y. assert (l = entry_cells (nth j col (Sc None))) by congruence. subst l.
    rewrite (LEN k col j X) by lia. unfold in_tv in Y. rewrite Y. reflexivity.
Qed.

(* Results with time series in any number of batches: every location of every batch is read back at the position behind the
   locations stored before it, with its coordinates, its metrics, its time stamps and its time series, and nothing else. *)
Theorem C69_batches :
  forall tv names bs, bs <> [] -> NoDup names -> (forall n, In n names -> ~ In n ["lon"; "lat"; "idx"; "_row_size"; "time"]) -> (exists k, In k names /\ In k tv) ->
    (forall b, In b bs -> good_batch tv names b) ->
    exists s, write_batches tv bs new_file = Ok s /\ f_loc s = total bs /\
      forall pre b post j, bs = pre ++ b :: post -> (j < b_size b)%nat ->
        (exists fields, read_loc s (total pre + j) = Ok fields /\ NoDup (map fst fields) /\
           forall m c, In (m, c) fields <-> (m = "lon" /\ c = Some (nth j (b_lons b) 0%Q)) \/ (m = "lat" /\ c = Some (nth j (b_lats b) 0%Q)) \/
             (exists col, In (m, col) (b_fields b) /\ ~ In m tv /\ entry_cells (nth j col (Sc None)) = [c])) /\
        (exists cols, read_ts s (total pre + j) = Ok (map Some (nth j (b_times b) []), cols) /\ NoDup (map fst cols) /\
           forall m l, In (m, l) cols <-> exists col, In (m, col) (b_fields b) /\ In m tv /\ entry_cells (nth j col (Sc None)) = l).
Proof.
  intros tv names bs NE ND FREE (k0 & K0 & K1) G. set (Ls := filter (fun k => negb (in_tv tv k)) names). set (Ss := filter (in_tv tv) names).
  assert (TVS : forall k, in_tv tv k = true <-> In k tv).
  { intros k. unfold in_tv. rewrite existsb_exists. split; [intros (x & X & E); apply String.eqb_eq in E; subst; exact X|intros X; exists k; split; [exact X|apply String.eqb_refl]]. }
  assert (SNE : Ss <> []) by (intros E; assert (X : In k0 Ss) by (apply filter_In; split; [exact K0|apply TVS, K1]); rewrite E in X; destruct X).
  set (rs := List.concat (map (points tv) bs)).
  assert (U : forall q, In q rs -> uniform Ls Ss q).
  { intros q I. unfold rs in I. apply in_concat in I as (l & L & I). apply in_map_iff in L as (b & <- & B). exact (points_uniform tv names b (G b B) q I). }
  assert (DJ : forall n, In n Ls -> In n Ss -> False) by (intros n A B; apply filter_In in A as (_ & A); apply filter_In in B as (_ & B); rewrite B in A; discriminate).
  assert (FR : forall n, In n Ls \/ In n Ss -> ~ In n reserved) by (intros n [A|A]; apply filter_In in A as (A & _); exact (FREE n A)).
  destruct (tab_all Ls Ss (NoDup_filter _ ND) (NoDup_filter _ ND) DJ FR SNE rs [] U) as (OK & EQ). cbn [List.length app] in OK, EQ.
  change (tab Ls Ss []) with empty_table in OK, EQ.
  destruct (store_results_ok rs new_file empty_table inv_new OK) as (s & E & I).
  { intros q Q _. destruct (U q Q) as (_ & _ & t & -> & _). discriminate. }
  cbn [List.length t_locs empty_table] in I. rewrite EQ in I. exists s. split; [rewrite (write_batches_store tv names bs G); exact E|].
  assert (LR : List.length rs = total bs).
  { unfold rs. clear. induction bs as [|b bs IH]; [reflexivity|]. cbn [map List.concat total fold_right]. rewrite app_length. unfold points at 1. rewrite map_length, seq_length. fold (total bs). lia. }
  assert (RNE : exists q l, rs = q :: l).
  { destruct rs as [|q l] eqn:ER; [|eauto]. exfalso. destruct bs as [|b bs]; [congruence|]. destruct (G b (or_introl eq_refl)) as (_ & X & _). cbn [List.length total fold_right] in LR. unfold b_size in LR at 1. destruct (b_lons b); [congruence|cbn in LR; lia]. }
  destruct RNE as (q0 & l0 & RNE).
  assert (TL : t_lnames (tab Ls Ss rs) = Ls) by (rewrite RNE; reflexivity). assert (TS : t_tnames (tab Ls Ss rs) = Ss) by (rewrite RNE; reflexivity).
  split; [rewrite (i_loc s _ I); unfold tab; cbn [t_locs]; rewrite map_length; exact LR|].
  intros pre b post j EB J. pose proof (points_nth tv bs b j pre post EB J) as PN. fold rs in PN.
  assert (INB : In b bs) by (rewrite EB; apply in_or_app; right; left; reflexivity). destruct (G b INB) as (HS & BNE & BN & LEN).
  assert (NDF : NoDup (map fst (b_fields b))) by (rewrite BN; exact ND).
  set (p := point_result tv (b_lons b) (b_lats b) (b_times b) (b_fields b) j) in *.
  assert (DG : forall (q : string -> bool) m, dict_get (map (fun f : string * list entry => (fst f, entry_cells (nth j (snd f) (Sc None)))) (filter (fun f => q (fst f)) (b_fields b))) m =
     match dict_get (b_fields b) m with Some col => if q m then Some (entry_cells (nth j col (Sc None))) else None | None => None end).
  { intros q m. clear -NDF. induction (b_fields b) as [|[k col] fs IH]; [reflexivity|]. cbn [map fst] in NDF. apply NoDup_cons_iff in NDF as (N1 & N2). specialize (IH N2).
    cbn [filter fst]. unfold dict_get at 2. cbn [find fst]. destruct (String.eqb_spec k m) as [->|D].
    - cbn [option_map snd]. destruct (q m) eqn:Q; cbn [map fst snd].
      + unfold dict_get. cbn [find fst]. rewrite String.eqb_refl. reflexivity.
      + rewrite IH. replace (dict_get fs m) with (@None (list entry)); [reflexivity|]. symmetry. apply dict_get_none. exact N1.
    - fold (dict_get fs m). destruct (q k); cbn [map fst snd]; [|exact IH]. unfold dict_get at 1. cbn [find fst]. destruct (String.eqb_spec k m) as [C|_]; [contradiction|]. exact IH. }
  assert (FI : forall m col, In (m, col) (b_fields b) <-> dict_get (b_fields b) m = Some col) by (intros m col; symmetry; apply dict_get_in; exact NDF).
  split.
  - assert (NL : nth_error (t_locs (tab Ls Ss rs)) (total pre + j) = Some (point [r_lon p] [r_lat p] (named (r_metrics p)) 0)).
    { unfold tab. cbn [t_locs]. rewrite nth_error_map, PN. reflexivity. }
    destruct (read_loc_ok s _ _ _ I NL) as (fields & RL & NDF2 & MEM). exists fields. split; [exact RL|]. split; [exact NDF2|]. intros m c. rewrite MEM, TL. unfold point. cbn [fst snd nth].
    change (r_lon p) with (nth j (b_lons b) 0%Q). change (r_lat p) with (nth j (b_lats b) 0%Q). apply or_iff_compat_l, or_iff_compat_l. unfold p. rewrite metrics_of, (DG (fun k => negb (in_tv tv k)) m). split.
    + intros (A & C). apply filter_In in A as (A & NT). assert (D : In m (map fst (b_fields b))) by (rewrite BN; exact A). apply in_map_iff in D as ([m' col] & E1 & D). cbn [fst] in E1. subst m'.
      exists col. split; [exact D|]. split; [intros X; apply TVS in X; rewrite X in NT; discriminate|]. rewrite (proj1 (FI m col) D), NT in C.
      pose proof (LEN m col j D J) as LL. unfold in_tv in NT. apply negb_true_iff in NT. rewrite NT in LL. destruct (entry_cells (nth j col (Sc None))) as [|c0 [|c1 r]]; try discriminate LL. cbn [nth] in C. congruence.
    + intros (col & D & NT & C). rewrite (proj1 (FI m col) D). assert (TF : in_tv tv m = false) by (destruct (in_tv tv m) eqn:X; [apply TVS in X; contradiction|reflexivity]). rewrite TF. cbn [negb]. rewrite C. cbn [nth].
      split; [|reflexivity]. apply filter_In. split; [rewrite <- BN; apply in_map_iff; exists (m, col); auto|rewrite TF; reflexivity].
  - assert (NS : nth_error (t_series (tab Ls Ss rs)) (total pre + j) = Some (times_of p, fun n => dict_get (r_ts p) n)).
    { unfold tab. cbn [t_series]. rewrite nth_error_map, PN. reflexivity. }
    destruct (read_ts_ok s _ _ _ I NS) as (cols & RT & NDC & MEM); [rewrite TS; exact SNE|]. exists cols. split; [exact RT|]. split; [exact NDC|]. intros m l. rewrite MEM, TS. unfold series_values. cbn [fst snd]. unfold p. rewrite series_of, (DG (in_tv tv) m). split.
    + intros (A & C). apply filter_In in A as (A & T). assert (D : In m (map fst (b_fields b))) by (rewrite BN; exact A). apply in_map_iff in D as ([m' col] & E1 & D). cbn [fst] in E1. subst m'.
      exists col. split; [exact D|]. split; [apply TVS, T|]. rewrite (proj1 (FI m col) D), T in C. congruence.
    + intros (col & D & T & C). apply TVS in T. rewrite (proj1 (FI m col) D), T, C. split; [|reflexivity]. apply filter_In. split; [rewrite <- BN; apply in_map_iff; exists (m, col); auto|exact T].
Qed.
Print Assumptions C69_batches.

(* ---- several keys, several calls ---- *)
Section Runs.
Variables (tv : list string) (name_of : list kelem -> res string).
(* netcdf_results_manager called with the results of one job after another *)
Definition write_runs (runs : list (list (list kelem * batch))) (d : disk) : res disk :=
  fold_left (fun acc run => bindR acc (fun d => write_results d name_of (Some tv) (map (fun kb => (fst kb, b_results (snd kb))) run))) runs (Ok d).
(* the batches that belong to a file, in the order in which they were handed over *)
Definition batches_of (fname : string) (l : list (list kelem * batch)) : list batch :=
  map snd (filter (fun kb => match name_of (fst kb) with Ok f => String.eqb f fname | Err _ => false end) l).

Variable names : string -> list string.
Variable all : list (list kelem * batch).
Hypothesis GOOD : forall k b, In (k, b) all -> exists f, name_of k = Ok f /\ good_batch tv (names f) b /\
  NoDup (names f) /\ (forall n, In n (names f) -> ~ In n ["lon"; "lat"; "idx"; "_row_size"; "time"]) /\ (exists n, In n (names f) /\ In n tv).
Definition disk_ok (l : list (list kelem * batch)) (d : disk) : Prop :=
  forall f, match batches_of f l with
            | [] => dict_get d f = None
            | bs => exists s, dict_get d f = Some s /\ write_batches tv bs new_file = Ok s
            end.
Lemma batches_app f l l' : batches_of f (l ++ l') = batches_of f l ++ batches_of f l'.
Proof. unfold batches_of. rewrite filter_app, map_app. reflexivity. Qed.
Lemma write_batches_app bs bs' s : write_batches tv (bs ++ bs') s = bindR (write_batches tv bs s) (write_batches tv bs').
Proof.
  unfold write_batches. rewrite fold_left_app. destruct (fold_left _ bs (Ok s)) as [s1|e]; [reflexivity|]. cbn [bindR].
  induction bs' as [|b l IH]; [reflexivity|]. cbn [fold_left bindR]. exact IH.
Qed.
Lemma batches_good f l : incl l all -> forall b, In b (batches_of f l) -> good_batch tv (names f) b /\
  NoDup (names f) /\ (forall n, In n (names f) -> ~ In n ["lon"; "lat"; "idx"; "_row_size"; "time"]) /\ (exists n, In n (names f) /\ In n tv).
Proof.
  intros I b B. unfold batches_of in B. apply in_map_iff in B as ([k b'] & E & B). cbn [snd] in E. subst b'. apply filter_In in B as (B & N). cbn [fst] in N.
  destruct (GOOD k b (I _ B)) as (f' & E & G). rewrite E in N. apply String.eqb_eq in N. subst f'. exact G.
Qed.
Lemma time_free s t r lons lats times fs : holds_series r tv lons lats times fs -> lons <> [] -> mapR fst (write_key (Some tv) s t r) = mapR fst (write_key (Some tv) s None r).
Proof. intros H N. rewrite (write_key_series s t r tv lons lats times fs H N), (write_key_series s None r tv lons lats times fs H N). reflexivity. Qed.

Definition wstep (acc : res (disk * option (list Q))) (kr : list kelem * key_results) : res (disk * option (list Q)) :=
  bindR acc (fun dt => bindR (name_of (fst kr)) (fun fname =>
      let s := match dict_get (fst dt) fname with Some s => s | None => new_file end in
      mapR (fun st => (dict_set String.eqb (fst dt) fname (fst st), snd st)) (write_key (Some tv) s (snd dt) (snd kr)))).
Lemma one_step l d t k b : incl (l ++ [(k, b)]) all -> disk_ok l d -> exists d' t', wstep (Ok (d, t)) (k, b_results b) = Ok (d', t') /\ disk_ok (l ++ [(k, b)]) d'.
Proof.
  intros IN OK. assert (INL : incl l all) by (intros x X; apply IN, in_or_app; left; exact X). assert (INB : In (k, b) all) by (apply IN, in_or_app; right; left; reflexivity).
  destruct (GOOD k b INB) as (f & NM & G & ND & FR & KT).
  set (s := match dict_get d f with Some s => s | None => new_file end).
  assert (SW : write_batches tv (batches_of f l) new_file = Ok s).
  { specialize (OK f). unfold s. destruct (batches_of f l) as [|b0 bs]; [rewrite OK; reflexivity|]. destruct OK as (s0 & -> & W). exact W. }
  assert (BO : forall f', batches_of f' [(k, b)] = if String.eqb f f' then [b] else []) by (intros f'; unfold batches_of; cbn [filter fst map]; rewrite NM; destruct (String.eqb f f'); reflexivity).
  assert (W2 : exists s2, write_batches tv (batches_of f l ++ [b]) new_file = Ok s2).
  { destruct (C69_batches tv (names f) (batches_of f l ++ [b])) as (s2 & W & _); [destruct (batches_of f l); discriminate|exact ND|exact FR|exact KT| |eauto].
    intros x X. apply in_app_or in X as [X|[<-|[]]]; [exact (proj1 (batches_good f l INL x X))|exact G]. }
  destruct W2 as (s2 & W2). rewrite write_batches_app, SW in W2. cbn [bindR] in W2. unfold write_batches in W2. cbn [fold_left bindR] in W2.
  destruct G as (HS & LNE & G). rewrite <- (time_free s t _ _ _ _ _ HS LNE) in W2.
  destruct (write_key (Some tv) s t (b_results b)) as [[s3 t3]|e] eqn:WK; [|discriminate W2]. cbn [mapR fst] in W2. assert (s3 = s2) by congruence. subst s3.
  exists (dict_set String.eqb d f s2), t3. split; [unfold wstep; cbn [bindR fst snd]; rewrite NM; cbn [bindR]; fold s; rewrite WK; reflexivity|].
  intros f'. rewrite batches_app, BO. destruct (String.eqb_spec f f') as [<-|D].
  - assert (X : exists s', dict_get (dict_set String.eqb d f s2) f = Some s' /\ write_batches tv (batches_of f l ++ [b]) new_file = Ok s').
    { exists s2. split; [rewrite dict_get_set, String.eqb_refl; reflexivity|]. rewrite write_batches_app, SW. cbn [bindR]. unfold write_batches. cbn [fold_left bindR].
      rewrite <- (time_free s t _ _ _ _ _ HS LNE), WK. reflexivity. }
    destruct (batches_of f l ++ [b]) eqn:EB; [destruct (batches_of f l); discriminate|exact X].
  - rewrite app_nil_r, dict_get_set. specialize (OK f'). replace (String.eqb f' f) with false by (symmetry; apply String.eqb_neq; congruence).
    destruct (String.eqb_spec f f'); [congruence|]. exact OK.
Qed.
Lemma run_steps : forall run l d t, incl (l ++ run) all -> disk_ok l d ->
  exists d' t', fold_left wstep (map (fun kb => (fst kb, b_results (snd kb))) run) (Ok (d, t)) = Ok (d', t') /\ disk_ok (l ++ run) d'.
Proof.
  induction run as [|[k b] run IH]; intros l d t IN OK; [exists d, t; rewrite app_nil_r; auto|]. cbn [map fold_left fst snd].
  destruct (one_step l d t k b) as (d1 & t1 & E & OK1); [intros x X; apply IN; apply in_app_or in X as [X|[<-|[]]]; apply in_or_app; [left; exact X|right; left; reflexivity]|exact OK|].
  rewrite E. replace (l ++ (k, b) :: run) with ((l ++ [(k, b)]) ++ run) in * by (rewrite <- app_assoc; reflexivity). apply IH; assumption.
Qed.
Lemma runs_steps : forall runs l d, incl (l ++ List.concat runs) all -> disk_ok l d -> exists d', write_runs runs d = Ok d' /\ disk_ok (l ++ List.concat runs) d'.
Proof.
  induction runs as [|run runs IH]; intros l d IN OK; [exists d; cbn [List.concat]; rewrite app_nil_r; auto|]. cbn [List.concat] in *. rewrite app_assoc in *.
  destruct (run_steps run l d None) as (d1 & t1 & E & OK1); [intros x X; apply IN, in_or_app; left; exact X|exact OK|].
  unfold write_runs. cbn [fold_left bindR]. unfold write_results at 2.
  match goal with |- context [mapR fst ?x] => assert (E2 : x = Ok (d1, t1)) by exact E; rewrite E2 end. cbn [mapR fst]. apply IH; assumption.
Qed.
End Runs.

(* The results of any number of jobs, each with any number of keys: afterwards there is one file per file name that occurs, and it
   is the file written from exactly the batches of its keys in the order of the jobs; C69_batches says what it reads back as. *)
Theorem C69_jobs :
  forall tv name_of names runs,
    (forall run k b, In run runs -> In (k, b) run -> exists f, name_of k = Ok f /\ good_batch tv (names f) b /\
       NoDup (names f) /\ (forall n, In n (names f) -> ~ In n ["lon"; "lat"; "idx"; "_row_size"; "time"]) /\ (exists n, In n (names f) /\ In n tv)) ->
    exists d, write_runs tv name_of runs [] = Ok d /\
      forall f, match batches_of name_of f (List.concat runs) with
                | [] => dict_get d f = None
                | bs => exists s, dict_get d f = Some s /\ write_batches tv bs new_file = Ok s
                end.
Proof.
  intros tv name_of names runs G. destruct (runs_steps tv name_of names (List.concat runs)) with (runs := runs) (l := @nil (list kelem * batch)) (d := @nil (string * ncfile)) as (d & E & OK).
  - intros k b I. apply in_concat in I as (run & R & I). exact (G run k b R I).
  - apply incl_refl.
  - intros f. reflexivity.
  - exists d. split; [exact E|exact OK].
Qed.
Print Assumptions C69_jobs.

(* two jobs, the second with two locations, and two keys *)
Definition bx1 : batch := mkBatch
  [(FName "n", [Sc (Some 3%Q)]); (FName "lat", [Sc (Some 1%Q)]); (FName "lon", [Sc (Some 10%Q)]); (FName "rR", [Ar [Some 5%Q; Some 6%Q]]); (FName "time", [Ar [Some 100%Q; Some 101%Q]])]
  [10%Q] [1%Q] [[100%Q; 101%Q]] [("n", [Sc (Some 3%Q)]); ("rR", [Ar [Some 5%Q; Some 6%Q]])].
Definition bx2 : batch := mkBatch
  [(FName "n", [Sc (Some 4%Q); Sc None]); (FName "lat", [Sc (Some 2%Q); Sc (Some 3%Q)]); (FName "lon", [Sc (Some 20%Q); Sc (Some 30%Q)]); (FName "rR", [Ar []; Ar [Some 7%Q]]); (FName "time", [Ar []; Ar [Some 102%Q]])]
  [20%Q; 30%Q] [2%Q; 3%Q] [[]; [102%Q]] [("n", [Sc (Some 4%Q); Sc None]); ("rR", [Ar []; Ar [Some 7%Q]])].
Lemma bx_good : forall b, In b [bx1; bx2] -> good_batch ["rR"] ["n"; "rR"] b.
Proof.
  intros b [<-|[<-|[]]].
  - split; [|split; [discriminate|split; [reflexivity|]]].
    + split; [repeat constructor; cbn; intuition discriminate|]. split; [reflexivity|]. split; [reflexivity|]. split; [cbn; tauto|]. split; [cbn; tauto|]. split; [cbn; tauto|]. split; [reflexivity|].
      intros k col [E|[E|[]]]; injection E as <- <-; (split; [discriminate|split; [reflexivity|]]); [intros [C|[]]; discriminate|intros _ e [<-|[]]; eexists; reflexivity].
    + intros k col i [E|[E|[]]] I; injection E as <- <-; unfold b_size in I; cbn in I; destruct i as [|i]; try lia; reflexivity.
  - split; [|split; [discriminate|split; [reflexivity|]]].
    + split; [repeat constructor; cbn; intuition discriminate|]. split; [reflexivity|]. split; [reflexivity|]. split; [cbn; tauto|]. split; [cbn; tauto|]. split; [cbn; tauto|]. split; [reflexivity|].
      intros k col [E|[E|[]]]; injection E as <- <-; (split; [discriminate|split; [reflexivity|]]); [intros [C|[]]; discriminate|intros _ e [<-|[<-|[]]]; eexists; reflexivity].
    + intros k col i [E|[E|[]]] I; injection E as <- <-; unfold b_size in I; cbn in I; destruct i as [|[|i]]; try lia; reflexivity.
Qed.
Example C69_batches_met :
  (forall b, In b [bx1; bx2] -> good_batch ["rR"] ["n"; "rR"] b) /\ total [bx1; bx2] = 3%nat /\
  mapR (fun s => (map (read_loc s) [0; 1; 2]%nat, map (read_ts s) [0; 1; 2]%nat)) (write_batches ["rR"] [bx1; bx2] new_file) =
  Ok ([Ok [("lon", Some 10%Q); ("lat", Some 1%Q); ("n", Some 3%Q)]; Ok [("lon", Some 20%Q); ("lat", Some 2%Q); ("n", Some 4%Q)]; Ok [("lon", Some 30%Q); ("lat", Some 3%Q); ("n", None)]],
      [Ok ([Some 100%Q; Some 101%Q], [("rR", [Some 5%Q; Some 6%Q])]); Ok ([], [("rR", [])]); Ok ([Some 102%Q], [("rR", [Some 7%Q])])]).
Proof. split; [exact bx_good|]. split; [reflexivity|]. vm_compute. reflexivity. Qed.
Example C69_jobs_met :
  let xy := pair_key [("a", "x"); ("b", "y")] in let xz := pair_key [("a", "x"); ("c", "z")] in
  let runs := [[(xy, bx1); (xz, bx1)]; [(xy, bx2)]] in
  (forall run k b, In run runs -> In (k, b) run -> exists f, build_filename "/d" k = Ok f /\ good_batch ["rR"] ["n"; "rR"] b) /\
  mapR (map (fun e => (fst e, f_loc (snd e)))) (write_runs ["rR"] (build_filename "/d") runs []) = Ok [("/d/a.x_with_b.y.nc", 3%nat); ("/d/a.x_with_c.z.nc", 1%nat)].
Proof.
  split; [|vm_compute; reflexivity]. intros run k b [<-|[<-|[]]] I.
  - destruct I as [E|[E|[]]]; injection E as <- <-; (eexists; split; [vm_compute; reflexivity|apply bx_good; left; reflexivity]).
  - destruct I as [E|[]]; injection E as <- <-; (eexists; split; [vm_compute; reflexivity|apply bx_good; right; left; reflexivity]).
Qed.
