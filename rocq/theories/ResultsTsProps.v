(* C69: writing the results of a key with time series. *)
From Verif Require Import ResultsSpec BaseProofs NamesProofs MatchersProofs ValidationProofs2 ResultsProofs ResultsProofs2.
From Verif Require Import TemporalModel TemporalSpec.
Open Scope string_scope.
Open Scope list_scope.
Open Scope Z_scope.

Definition entry_cells (e : entry) : list cell := match e with Sc c => [c] | Ar l => l end.
(* the results of one key with time series: coordinates, the time stamps of each location and other fields *)
Definition holds_series (r : list (field * list entry)) (tv : list string) (lons lats : list Q) (times : list (list Q)) (fs : list (string * list entry)) : Prop :=
  NoDup (map fst r) /\ List.length lats = List.length lons /\ List.length times = List.length lons /\
  In (FName "lon", map (fun q => Sc (Some q)) lons) r /\ In (FName "lat", map (fun q => Sc (Some q)) lats) r /\
  In (FName "time", map (fun t => Ar (map Some t)) times) r /\
  filter (fun e => negb (field_eqb (fst e) (FName "lon")) && negb (field_eqb (fst e) (FName "lat")) && negb (field_eqb (fst e) (FName "time"))) r
    = map (fun f => (FName (fst f), snd f)) fs /\
  (forall k col, In (k, col) fs -> lower k <> "time" /\ List.length col = List.length lons /\
     (In k tv -> forall e, In e col -> exists l, e = Ar l)).
(* the data of location i *)
Definition point_result (tv : list string) (lons lats : list Q) (times : list (list Q)) (fs : list (string * list entry)) (i : nat) : result :=
  mkResult (nth i lons 0%Q) (nth i lats 0%Q) (map (fun f => (FName (fst f), entry_cells (nth i (snd f) (Sc None)))) fs) tv (Some (nth i times [])).

Lemma nodup_filter_fst {A B} (p : A * B -> bool) (l : list (A * B)) : NoDup (map fst l) -> NoDup (map fst (filter p l)).
Proof.
  induction l as [|x l IH]; cbn [filter map]; intros N; [constructor|]. apply NoDup_cons_iff in N as [N1 N2]. destruct (p x); [|apply IH, N2].
  cbn [map]. constructor; [|apply IH, N2]. intros C. apply N1. apply in_map_iff in C as (y & E & C). apply filter_In in C as [C _]. apply in_map_iff. exists y. auto.
Qed.
Lemma stamps_ok l : stamps (map Some l) = Ok l.
Proof. unfold stamps. induction l as [|q l IH]; [reflexivity|]. cbn [map seqR bindR]. rewrite IH. reflexivity. Qed.
Lemma find_unique (r : list (field * list entry)) k v : NoDup (map fst r) -> In (FName k, v) r -> find (fun e => field_eqb (fst e) (FName k)) r = Some (FName k, v).
Proof.
  induction r as [|[n w] r IH]; intros N I; [destruct I|]. cbn [map fst] in N. apply NoDup_cons_iff in N as [N1 N2]. cbn [find fst].
  destruct (field_eqb n (FName k)) eqn:E.
  - apply field_eqb_spec in E. subst n. destruct I as [I|I]; [congruence|]. exfalso. apply N1, in_map_iff. exists (FName k, v). auto.
  - destruct I as [I|I]; [|apply IH; assumption]. injection I as -> ->. rewrite (proj2 (field_eqb_spec _ _) eq_refl) in E. discriminate.
Qed.

Section Point.
Variables (r : list (field * list entry)) (tv : list string) (times : list (list Q)) (n i : nat).
Hypothesis ND : NoDup (map fst r).
Hypothesis TIME : In (FName "time", map (fun t => Ar (map Some t)) times) r.
Hypothesis LT : List.length times = n.
Hypothesis I : (i < n)%nat.
Definition good_field (kv : field * list entry) : Prop :=
  fst kv = FName "time" \/ exists k, fst kv = FName k /\ lower k <> "time" /\ k <> "time" /\ List.length (snd kv) = n /\ (In k tv -> forall e, In e (snd kv) -> exists l, e = Ar l).
Definition not_time (kv : field * list entry) : bool := negb (field_eqb (fst kv) (FName "time")).
Definition pstep (acc : res (option (list Q) * list (field * list cell))) (kv : field * list entry) : res (option (list Q) * list (field * list cell)) :=
  bindR acc (fun td =>
      match fst kv with
      | FTuple _ => Err EOther
      | FName k =>
          if String.eqb (lower k) "time" then
            match find (fun e => field_eqb (fst e) (FName "time")) r with
            | None => Err EKey
            | Some (_, v) => match nth_error v i with
                             | Some (Ar l) => mapR (fun t => (Some t, snd td)) (stamps l)
                             | Some (Sc _) => Err EType
                             | None => Err EIndex
                             end
            end
          else match nth_error (snd kv) i with
               | None => Err EIndex
               | Some (Sc c) => if existsb (String.eqb k) tv then Err EType
                                else Ok (fst td, snd td ++ [(fst kv, [c])])
               | Some (Ar l) => Ok (fst td, snd td ++ [(fst kv, l)])
               end
      end).
Lemma pstep_time kv tm data : fst kv = FName "time" -> pstep (Ok (tm, data)) kv = Ok (Some (nth i times []), data).
Proof.
  intros E. unfold pstep. cbn [bindR]. rewrite E. change (String.eqb (lower "time") "time") with true. cbn iota.
  rewrite (find_unique r "time" _ ND TIME). rewrite nth_error_map.
  rewrite (nth_error_nth' times [] (n := i)) by lia. cbn [option_map]. rewrite stamps_ok. reflexivity.
Qed.
Lemma pstep_field kv k tm data : fst kv = FName k -> lower k <> "time" -> List.length (snd kv) = n -> (In k tv -> forall e, In e (snd kv) -> exists l, e = Ar l) ->
  pstep (Ok (tm, data)) kv = Ok (tm, data ++ [(fst kv, entry_cells (nth i (snd kv) (Sc None)))]).
Proof.
  intros E NT LC TV. unfold pstep. cbn [bindR]. rewrite E. destruct (String.eqb_spec (lower k) "time") as [C|_]; [contradiction|].
  rewrite (nth_error_nth' (snd kv) (Sc None) (n := i)) by lia. assert (IN : In (nth i (snd kv) (Sc None)) (snd kv)) by (apply nth_In; lia).
  destruct (nth i (snd kv) (Sc None)) as [c|a] eqn:EN; cbn [entry_cells fst snd]; [|reflexivity].
  destruct (existsb (String.eqb k) tv) eqn:X; [|reflexivity].
  apply existsb_exists in X as (k' & IK & EK). apply String.eqb_eq in EK. subst k'. destruct (TV IK _ IN) as (a & C). discriminate.
Qed.
Lemma point_fold l : forall tm data, (forall kv, In kv l -> good_field kv) ->
  fold_left pstep l (Ok (tm, data)) =
  Ok (if existsb (fun kv => negb (not_time kv)) l then Some (nth i times []) else tm,
      data ++ map (fun kv => (fst kv, entry_cells (nth i (snd kv) (Sc None)))) (filter not_time l)).
Proof.
  induction l as [|kv l IH]; intros tm data G; [cbn; rewrite app_nil_r; reflexivity|]. cbn [fold_left existsb filter].
  destruct (G kv (or_introl eq_refl)) as [E|(k & E & NT & NT2 & LC & TV)].
  - rewrite (pstep_time kv tm data E). rewrite (IH _ _ (fun x X => G x (or_intror X))).
    assert (NE : not_time kv = false) by (unfold not_time; rewrite E; reflexivity). rewrite NE. cbn [negb orb]. destruct (existsb _ l); reflexivity.
  - rewrite (pstep_field kv k tm data E NT LC TV), (IH _ _ (fun x X => G x (or_intror X))).
    assert (NE : not_time kv = true).
    { unfold not_time. rewrite E. apply negb_true_iff. destruct (field_eqb (FName k) (FName "time")) eqn:F; [|reflexivity]. apply field_eqb_spec in F. congruence. }
    rewrite NE. cbn [negb orb map]. rewrite <- app_assoc. reflexivity.
Qed.
End Point.

Lemma write_key_series s time r tv lons lats times fs : holds_series r tv lons lats times fs -> lons <> [] ->
  mapR fst (write_key (Some tv) s time r) = store_results s (map (point_result tv lons lats times fs) (seq 0 (List.length lons))).
Proof.
  intros (N & L1 & L2 & H1 & H2 & H3 & H4 & H5) NE. unfold write_key. rewrite (pop_spec _ _ _ N H1).
  set (r1 := filter (fun e => negb (field_eqb (fst e) (FName "lon"))) r).
  assert (N1 : NoDup (map fst r1)) by apply nodup_filter_fst, N.
  assert (I1 : In (FName "lat", map (fun q => Sc (Some q)) lats) r1) by (apply filter_In; split; [exact H2|reflexivity]).
  rewrite (pop_spec _ _ _ N1 I1), !numbers_ok. cbn [bindR].
  set (r2 := filter (fun e => negb (field_eqb (fst e) (FName "lat"))) r1).
  assert (N2 : NoDup (map fst r2)) by apply nodup_filter_fst, N1.
  assert (T2 : In (FName "time", map (fun t => Ar (map Some t)) times) r2) by (apply filter_In; split; [apply filter_In; split; [exact H3|reflexivity]|reflexivity]).
  assert (F2 : filter not_time r2 = map (fun f => (FName (fst f), snd f)) fs).
  { unfold r2, r1. rewrite !filter_filter_and. rewrite <- H4. apply filter_ext. intros e. unfold not_time. rewrite Bool.andb_assoc. reflexivity. }
  assert (G2 : forall kv, In kv r2 -> good_field tv (List.length lons) kv).
  { intros kv I. unfold good_field. destruct (not_time kv) eqn:E.
    - right. assert (X : In kv (filter not_time r2)) by (apply filter_In; auto). rewrite F2 in X. apply in_map_iff in X as ([k col] & <- & X). cbn [fst snd].
      exists k. destruct (H5 k col X) as (A & B & C). split; [reflexivity|]. split; [exact A|]. split; [intros ->; apply A; reflexivity|]. auto.
    - left. unfold not_time in E. apply negb_false_iff in E. apply field_eqb_spec in E. exact E. }
  assert (PD : forall i tm, (i < List.length lons)%nat -> point_data r2 tv i tm = Ok (Some (nth i times []), map (fun f => (FName (fst f), entry_cells (nth i (snd f) (Sc None)))) fs)).
  { intros i tm I. unfold point_data. match goal with |- ?X = _ => refine (eq_trans (_ : X = _) _) end.
    - exact (point_fold r2 tv times (List.length lons) i N2 T2 L2 I r2 tm [] G2).
    - assert (X : existsb (fun kv => negb (not_time kv)) r2 = true) by (apply existsb_exists; eexists; split; [exact T2|reflexivity]). rewrite X, F2, map_map. reflexivity. }
  unfold store_results.
  assert (CB : combine (seq 0 (List.length lons)) (combine lons lats) = map (fun i => (i, (nth i lons 0%Q, nth i lats 0%Q))) (seq 0 (List.length lons))).
  { apply (nth_ext _ _ (0%nat, (0%Q, 0%Q)) (0%nat, (0%Q, 0%Q))).
    - rewrite combine_length, seq_length, combine_length, map_length, seq_length. lia.
    - intros k K. rewrite combine_length, seq_length, combine_length in K. rewrite combine_nth by (rewrite seq_length, combine_length; lia). rewrite combine_nth by lia.
      rewrite (nth_indep (map _ _) (0%nat, (0%Q, 0%Q)) ((fun i => (i, (nth i lons 0%Q, nth i lats 0%Q))) 0%nat)) by (rewrite map_length, seq_length; lia).
      rewrite (map_nth (fun i => (i, (nth i lons 0%Q, nth i lats 0%Q))) (seq 0 (List.length lons)) 0%nat k), seq_nth by lia. reflexivity. }
  rewrite CB. clear CB.
  assert (IX : forall i, In i (seq 0 (List.length lons)) -> (i < List.length lons)%nat) by (intros i I; apply in_seq in I; lia).
  revert s time IX. generalize (seq 0 (List.length lons)) as is. intros is. induction is as [|i is IH]; intros s time IX; [reflexivity|].
  cbn [map fold_left bindR fst snd]. rewrite (PD i time (IX i (or_introl eq_refl))). cbn [bindR fst snd]. unfold store_result at 2. cbn [point_result r_lon r_lat r_data r_tsvars r_times].
  match goal with |- context [add_result s ?a ?b ?c ?d ?e] => destruct (add_result s a b c d e) as [s'|x] end; cbn [mapR].
  - apply IH. intros k K. apply IX. right. exact K.
  - clear. induction is as [|j is IH]; [reflexivity|]. cbn [map fold_left bindR]. exact IH.
Qed.

(* C69 with time series: into a new file, the locations of a key are written in order, each with its own
   coordinates, time stamps and values *)
Theorem C69_time_series time r tv lons lats times fs :
  holds_series r tv lons lats times fs -> lons <> [] ->
  let calls := all_calls 0 (map (point_result tv lons lats times fs) (seq 0 (List.length lons))) in
  ok_history empty_table calls ->
  exists s, mapR fst (write_key (Some tv) new_file time r) = Ok s /\ exec_all new_file calls = Ok s.
Proof.
  intros H NE calls OK. rewrite (write_key_series new_file time r tv lons lats times fs H NE).
  set (rs := map (point_result tv lons lats times fs) (seq 0 (List.length lons))) in *.
  assert (TM : forall x, In x rs -> r_ts x <> [] -> r_times x <> None).
  { intros x I _. unfold rs in I. apply in_map_iff in I as (i & <- & _). discriminate. }
  destruct (exec_all_ok _ new_file empty_table inv_new OK) as (s & E & _). exists s. split; [|exact E].
  revert OK E. unfold calls. clear calls. 
  assert (G : forall (l : list result) s0 t, inv s0 t -> (forall x, In x l -> r_ts x <> [] -> r_times x <> None) -> ok_history t (all_calls (List.length (t_locs t)) l) ->
     store_results s0 l = exec_all s0 (all_calls (List.length (t_locs t)) l)).
  { unfold store_results, exec_all. induction l as [|x l IH]; intros s0 t I TMl H0; [reflexivity|]. cbn [fold_left all_calls bindR].
    cbn [all_calls] in H0. apply ok_history_app in H0 as [H1 H2]. rewrite fold_left_app.
    destruct (add_result_step s0 t x I H1) as (s1 & E1 & I1 & LL); [apply TMl; left; reflexivity|]. rewrite E1.
    assert (E1' : fold_left (fun acc c => bindR acc (fun s => exec s c)) (result_calls (List.length (t_locs t)) x) (Ok s0) = Ok s1).
    { clear IH H2. unfold store_result, add_result in E1. fold (r_metrics x) in E1.
      change (map (fun r0 : field * list cell => (var_name (fst r0), snd r0)) (filter (fun e => is_ts (r_tsvars x) (fst e)) (r_data x))) with (r_ts x) in E1.
      unfold result_calls in *. destruct H1 as [Ha Hb]. destruct (step_metrics s0 t _ _ _ I Ha) as (s2 & E0 & I0). cbn [List.length seq map] in E0.
      assert (CI : cell_index (nat_num (List.length (t_locs t))) = Ok (List.length (t_locs t))).
      { unfold cell_index, nat_num, z_num. rewrite Qround.Qfloor_Z, Nat2Z.id. reflexivity. }
      destruct (r_ts x) as [|y l']; destruct (r_times x) as [tms|]; cbn [fold_left bindR exec]; rewrite E0 in *; cbn [bindR mapR fst snd] in *; try exact E1; try discriminate.
      rewrite CI in E1. cbn [bindR] in E1. exact E1. }
    rewrite E1'. rewrite <- LL in *. apply IH; [exact I1| |exact H2]. intros; apply TMl; [right|]; assumption. }
  intros OK E. rewrite (G rs new_file empty_table inv_new TM OK). exact E.
Qed.
Print Assumptions C69_time_series.

(* the name of the time stamps is compared without regard to case, but looked up as "time" *)
Theorem C69_capital_time_refuted :
  exists r, lower "Time" = "time" /\ In (FName "Time", [Ar [Some 100%Q]]) r /\ write_key (Some ["rR"]) new_file None r = Err EKey.
Proof.
  exists [(FName "lon", [Sc (Some 1%Q)]); (FName "lat", [Sc (Some 2%Q)]); (FName "Time", [Ar [Some 100%Q]]); (FName "rR", [Ar [Some 5%Q]])].
  split; [reflexivity|]. split; [cbn; auto|]. vm_compute. reflexivity.
Qed.
Print Assumptions C69_capital_time_refuted.

Example C69_time_series_ex :
  let r := [(FName "n", [Sc (Some 3%Q); Sc (Some 4%Q)]); (FName "lat", [Sc (Some 1%Q); Sc (Some 2%Q)]); (FName "lon", [Sc (Some 10%Q); Sc (Some 20%Q)]);
            (FName "rR", [Ar [Some 5%Q; Some 6%Q]; Ar [Some 7%Q]]); (FName "time", [Ar [Some 100%Q; Some 101%Q]; Ar [Some 102%Q]])] in
  let fs := [("n", [Sc (Some 3%Q); Sc (Some 4%Q)]); ("rR", [Ar [Some 5%Q; Some 6%Q]; Ar [Some 7%Q]])] in
  holds_series r ["rR"] [10%Q; 20%Q] [1%Q; 2%Q] [[100%Q; 101%Q]; [102%Q]] fs /\
  mapR (fun s => (map (read_loc (fst s)) [0; 1]%nat, map (read_ts (fst s)) [0; 1]%nat)) (write_key (Some ["rR"]) new_file None r) =
  Ok ([Ok [("lon", Some 10%Q); ("lat", Some 1%Q); ("n", Some 3%Q)]; Ok [("lon", Some 20%Q); ("lat", Some 2%Q); ("n", Some 4%Q)]],
      [Ok ([Some 100%Q; Some 101%Q], [("rR", [Some 5%Q; Some 6%Q])]); Ok ([Some 102%Q], [("rR", [Some 7%Q])])]).
Proof.
  split; [|vm_compute; reflexivity]. split; [repeat constructor; cbn; intuition discriminate|]. split; [reflexivity|]. split; [reflexivity|].
  split; [cbn; tauto|]. split; [cbn; tauto|]. split; [cbn; tauto|]. split; [reflexivity|].
  intros k col [E|[E|[]]]; injection E as <- <-; (split; [discriminate|split; [reflexivity|]]).
  - intros [C|[]]; discriminate.
  - intros _ e [<-|[<-|[]]]; eexists; reflexivity.
Qed.
