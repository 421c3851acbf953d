(* C101: which locations Validation.calc works on, for the arguments it is given. *)
From Coq Require Import ZArith QArith List Lia Permutation.
From Verif Require Import Base BaseProofs ValidationModel ValidationSpec ValidationProofs2 ValidationProps ArgsModel.
Import ListNotations.
Open Scope nat_scope.

(* ------------------------------------------------------------------ zip *)
Lemma min_length_all {X} (ls : list (list X)) n : ls <> [] -> Forall (fun l => List.length l = n) ls -> min_length ls = n.
Proof.
  intros NE H. destruct ls as [|l r]; [congruence|]. inversion H as [|? ? L R]; subst. unfold min_length.
  clear - R. revert R. generalize (List.length l) as n. induction r as [|x r IH]; intros n R; cbn; [reflexivity|].
  inversion R as [|? ? E R']; subst. rewrite Nat.min_id. now apply IH.
Qed.
Lemma fold_min_le {X} (r : list (list X)) : forall n, fold_left (fun n l => Nat.min n (List.length l)) r n <= n /\ forall l, In l r -> fold_left (fun n l => Nat.min n (List.length l)) r n <= List.length l.
Proof.
  induction r as [|x r IH]; intros n; cbn [fold_left]; [split; [lia|intros l []]|].
  destruct (IH (Nat.min n (List.length x))) as [A B]. split; [lia|]. intros l [<-|I]; [lia|auto].
Qed.
Lemma min_length_le {X} (ls : list (list X)) l : In l ls -> min_length ls <= List.length l.
Proof. destruct ls as [|x r]; [intros []|]. unfold min_length. destruct (fold_min_le r (List.length x)) as [A B]. intros [<-|I]; [exact A|now apply B]. Qed.
Lemma min_length_attained {X} (ls : list (list X)) : ls <> [] -> exists l, In l ls /\ List.length l = min_length ls.
Proof.
  destruct ls as [|x r]; [congruence|]. intros _. unfold min_length.
  assert (G : forall r (n : nat), fold_left (fun n (l : list X) => Nat.min n (List.length l)) r n = n \/ exists l, In l r /\ List.length l = fold_left (fun n (l : list X) => Nat.min n (List.length l)) r n).
  { clear. induction r as [|y r IH]; intros n; cbn [fold_left]; [now left|].
    destruct (IH (Nat.min n (List.length y))) as [E|(l & I & E)]; [|right; exists l; split; [now right|exact E]].
    rewrite E. destruct (Nat.min_dec n (List.length y)) as [D|D]; [now left|right; exists y; split; [now left|now symmetry]]. }
  destruct (G r (List.length x)) as [E|(l & I & E)]; [exists x; split; [now left|now symmetry]|exists l; split; [now right|exact E]].
Qed.
Lemma zip_length {X} (ls : list (list X)) : List.length (zip ls) = min_length ls.
Proof. unfold zip. now rewrite map_length, seq_length. Qed.
Lemma zip_nth {X} (ls : list (list X)) i : i < min_length ls -> exists row, nth_error (zip ls) i = Some row /\ map Some row = map (fun l => nth_error l i) ls.
Proof.
  intros Hi. unfold zip. eexists. split.
  - rewrite nth_error_map. rewrite (nth_error_nth' _ 0) by now rewrite seq_length. cbn. rewrite seq_nth by exact Hi. reflexivity.
  - cbn [Nat.add]. assert (H : forall l, In l ls -> i < List.length l) by (intros l I; pose proof (min_length_le ls l I); lia).
    clear Hi. induction ls as [|l ls IH]; cbn; [reflexivity|].
    destruct (nth_error l i) as [x|] eqn:E; [|apply nth_error_None in E; pose proof (H l (or_introl eq_refl)); lia].
    cbn. f_equal. apply IH. intros; apply H; now right.
Qed.

(* ------------------------------------------------------------------ C101 *)
Section Any.
Context {A : Type}.
(* the items an argument stands for *)
Definition stands_for (x : arg A) : list (item A) := match ensure_iterable x with Ok l => l | Err _ => [] end.
Lemma locations_ok g lo la (args : list (arg A)) : (forall x, In x (g :: lo :: la :: args) -> exists l, ensure_iterable x = Ok l) ->
  locations g lo la args = Ok (zip (map stands_for (g :: lo :: la :: args))).
Proof.
  intros H. unfold locations, args_to_iterable.
  assert (E : seqR (map ensure_iterable (g :: lo :: la :: args)) = Ok (map stands_for (g :: lo :: la :: args))).
  { apply seqR_ok. rewrite map_map. apply map_ext_in. intros x I. unfold stands_for. destruct (H x I) as [l El]. now rewrite El. }
  rewrite E. cbn [mapR bindR map seq nth_error skipn List.length].
  destruct args as [|a args]; reflexivity.
Qed.
(* lists, tuples and arrays of the same length: one location per position, with the items of that position *)
Theorem C101_lists :
  forall (gpis lons lats : list A) (args : list (list A)) n, n <> 0 ->
    Forall (fun l => List.length l = n) (gpis :: lons :: lats :: args) ->
    exists locs, locations (Seq gpis) (Seq lons) (Seq lats) (map Seq args) = Ok locs /\ List.length locs = n /\
      forall i, i < n -> exists row, nth_error locs i = Some (map It row) /\
        map Some row = map (fun l => nth_error l i) (gpis :: lons :: lats :: args).
Proof.
  intros gpis lons lats args n N H.
  assert (NE : forall l : list A, List.length l = n -> ensure_iterable (Seq l) = Ok (map It l)) by (intros [|a l] L; [cbn in L; congruence|reflexivity]).
  assert (S1 : forall ls, Forall (fun l : list A => List.length l = n) ls -> map stands_for (map Seq ls) = map (map It) ls).
  { intros ls F. rewrite map_map. apply map_ext_in. intros l I. rewrite Forall_forall in F. unfold stands_for. now rewrite NE by auto. }
  assert (EQ : Seq gpis :: Seq lons :: Seq lats :: map Seq args = map (@Seq A) (gpis :: lons :: lats :: args)) by reflexivity.
  exists (zip (map (map It) (gpis :: lons :: lats :: args))). split; [|split].
  - rewrite locations_ok.
    + rewrite EQ, S1 by exact H. reflexivity.
    + rewrite EQ. intros x I. apply in_map_iff in I. destruct I as (l & <- & I). rewrite Forall_forall in H. rewrite NE by auto. eauto.
  - rewrite zip_length. apply min_length_all; [discriminate|]. apply Forall_forall. intros l I. apply in_map_iff in I. destruct I as (l' & <- & I). rewrite map_length. rewrite Forall_forall in H. auto.
  - intros i Hi. destruct (zip_nth (map (map It) (gpis :: lons :: lats :: args)) i) as (row & Er & Em).
    { rewrite (min_length_all _ n); [exact Hi|discriminate|]. apply Forall_forall. intros l I. apply in_map_iff in I. destruct I as (l' & <- & I). rewrite map_length. rewrite Forall_forall in H. auto. }
    rewrite map_map in Em. 
    assert (X : exists row', row = map It row' /\ map Some row' = map (fun l => nth_error l i) (gpis :: lons :: lats :: args)).
    { revert row Em Er. generalize (gpis :: lons :: lats :: args) as ls. intros ls row Em _. revert row Em. induction ls as [|l ls IH]; intros [|x row] Em; cbn in Em; try discriminate.
      - exists []. auto.
      - injection Em as E1 E2. destruct (IH row E2) as (row' & -> & M). rewrite nth_error_map in E1. destruct (nth_error l i) as [a|] eqn:Ea; [|discriminate E1].
        injection E1 as ->. exists (a :: row'). cbn. split; [reflexivity|]. now rewrite Ea, M. }
    destruct X as (row' & -> & M). exists row'. auto.
Qed.
(* single values: one location *)
Theorem C101_single :
  forall (g lo la : A) (args : list A), locations (Atom g) (Atom lo) (Atom la) (map Atom args) = Ok [map It (g :: lo :: la :: args)].
Proof.
  intros g lo la args. rewrite locations_ok.
  - replace (map stands_for (Atom g :: Atom lo :: Atom la :: map Atom args)) with (map (fun a => [It a]) (g :: lo :: la :: args)) by (cbn; now rewrite map_map).
    set (ls := map (fun a => [It a]) (g :: lo :: la :: args)).
    assert (L : min_length ls = 1) by (apply min_length_all; [discriminate|]; apply Forall_forall; intros l I; unfold ls in I; apply in_map_iff in I; destruct I as (a & <- & _); reflexivity).
    unfold zip. rewrite L. cbn [seq map]. do 2 f_equal. unfold ls. clear. cbn. do 3 f_equal. induction args as [|a l IH]; cbn; [reflexivity|now rewrite IH].
  - intros x I. replace (Atom g :: Atom lo :: Atom la :: map Atom args) with (map (@Atom A) (g :: lo :: la :: args)) in I by reflexivity.
    apply in_map_iff in I. destruct I as (a & <- & _). cbn. eauto.
Qed.
(* in general there are as many locations as the shortest argument has items; the rest is ignored without a message *)
Theorem C101_shortest :
  forall g lo la (args : list (arg A)) locs, locations g lo la args = Ok locs ->
    (forall x, In x (g :: lo :: la :: args) -> exists l, ensure_iterable x = Ok l /\ List.length locs <= List.length l) /\
    exists x l, In x (g :: lo :: la :: args) /\ ensure_iterable x = Ok l /\ List.length locs = List.length l.
Proof.
  intros g lo la args locs H.
  assert (OKS : forall x, In x (g :: lo :: la :: args) -> exists l, ensure_iterable x = Ok l).
  { unfold locations, args_to_iterable in H. destruct (seqR (map ensure_iterable (g :: lo :: la :: args))) as [ls|e] eqn:E; [|discriminate H].
    apply seqR_ok in E. intros x I. assert (J : In (ensure_iterable x) (map Ok ls)) by (rewrite <- E; now apply in_map).
    apply in_map_iff in J. destruct J as (l & El & _). eauto. }
  rewrite locations_ok in H by exact OKS. injection H as <-. rewrite zip_length.
  assert (SF : forall x, In x (g :: lo :: la :: args) -> ensure_iterable x = Ok (stands_for x)) by (intros x I; unfold stands_for; destruct (OKS x I) as [l ->]; reflexivity).
  split.
  - intros x I. exists (stands_for x). split; [now apply SF|]. apply min_length_le. exact (in_map stands_for (g :: lo :: la :: args) x I).
  - destruct (min_length_attained (map stands_for (g :: lo :: la :: args))) as (l & I & L); [discriminate|].
    apply in_map_iff in I. destruct I as (x & <- & I). exists x, (stands_for x). auto.
Qed.
End Any.

Example C101_ex_lists :
  locations (Seq [1; 2; 3]) (Seq [10; 20; 30]) (Seq [11; 21; 31]) [Seq [7; 8; 9]] =
  Ok [[It 1; It 10; It 11; It 7]; [It 2; It 20; It 21; It 8]; [It 3; It 30; It 31; It 9]].
Proof. reflexivity. Qed.
Example C101_ex_single : locations (Atom 1) (Atom 10) (Atom 11) [] = Ok [[It 1; It 10; It 11]].
Proof. reflexivity. Qed.

(* lists of different lengths lose locations; empty lists give a location whose id is an empty list; metadata of a single
   location given as a dictionary, and a Series without the label 0, raise KeyError *)
Theorem C101_lengths_refuted :
  locations (Seq [1; 2; 3]) (Seq [10; 20]) (Seq [11; 21; 31]) [] = Ok [[It 1; It 10; It 11]; [It 2; It 20; It 21]] /\
  locations (Seq [1; 2; 3]) (Atom 10) (Atom 11) [] = Ok [[It 1; It 10; It 11]].
Proof. split; reflexivity. Qed.
Theorem C101_empty_refuted :
  forall A : Type, locations (A := A) (Seq []) (Seq []) (Seq []) [] = Ok [[EmptySeq; EmptySeq; EmptySeq]].
Proof. reflexivity. Qed.
Theorem C101_keys_refuted :
  forall (A : Type) (g lo la : A) keys (l : list (Z * A)), (forall e, In e l -> fst e <> 0%Z) ->
    locations (Atom g) (Atom lo) (Atom la) [Dict false keys] = Err EKey /\ locations (Series l) (Series l) (Series l) [] = Err EKey.
Proof.
  intros A g lo la keys l H. split; [reflexivity|]. unfold locations, args_to_iterable. cbn [map seqR].
  assert (E : ensure_iterable (Series l) = Err EKey).
  { cbn. replace (existsb (fun e => Z.eqb (fst e) 0) l) with false; [reflexivity|]. symmetry. apply Bool.not_true_is_false. intros C. apply existsb_exists in C.
    destruct C as (e & I & E). apply Z.eqb_eq in E. now apply (H e). }
  rewrite E. reflexivity.
Qed.

(* ------------------------------------------------------------------ with the processing jobs *)
(* for a grid with cells, calling calc with each job works on every active grid point exactly once, with its own
   coordinates *)
Definition point_row (p : Z * Q * Q) : list (item number) := [It (Index (fst (fst p))); It (Coord (snd (fst p))); It (Coord (snd p))].
Lemma triple_call pts : pts <> [] -> call_calc (job_args (JobTriple (point_arrays pts))) = Ok (map point_row pts).
Proof.
  intros N. unfold job_args, point_arrays, call_calc.
  destruct (C101_lists (A := number) (map Index (map (fun p : Z * Q * Q => fst (fst p)) pts)) (map Coord (map (fun p : Z * Q * Q => snd (fst p)) pts)) (map Coord (map snd pts)) [] (List.length pts)) as (locs & E & L & V).
  - destruct pts; [congruence|discriminate].
  - repeat constructor; now rewrite !map_length.
  - cbn [map] in E. rewrite E. f_equal. apply (nth_ext _ _ [] []); [now rewrite map_length|].
    intros i Hi. rewrite L in Hi. destruct (V i Hi) as (row & Er & Em). apply (nth_error_nth _ _ []) in Er. rewrite Er.
    destruct (nth_error pts i) as [p|] eqn:Ep; [|apply nth_error_None in Ep; lia].
    rewrite !map_map in Em. cbn [map] in Em. rewrite !nth_error_map, Ep in Em. cbn in Em.
    rewrite (nth_indep _ [] (point_row (0%Z, 0%Q, 0%Q))) by now rewrite map_length. rewrite map_nth. rewrite (nth_error_nth _ _ _ Ep).
    destruct row as [|a [|b [|c [|d row]]]]; try discriminate Em. injection Em as -> -> ->. reflexivity.
Qed.
Theorem C101_jobs :
  forall pts : list (Z * (Z * Q * Q)),
    exists calls, map (fun j => call_calc (job_args j)) (get_processing_jobs (Some (CellGrid pts))) = map Ok calls /\
      Permutation (List.concat calls) (map (fun p => point_row (snd p)) pts).
Proof.
  intros pts. destruct (C35_cell_grid pts) as (js & E & P & NE).
  set (cells := z_unique (map fst pts)).
  set (inside := fun cell => map snd (filter (fun p : Z * (Z * Q * Q) => Z.eqb (fst p) cell) pts)).
  assert (J : js = map (fun c => point_arrays (inside c)) cells).
  { cbn [get_processing_jobs] in E. fold cells in E.
    assert (E2 : map JobTriple (map (fun c => point_arrays (inside c)) cells) = map JobTriple js) by (rewrite <- E, map_map; reflexivity).
    clear - E2. revert js E2. induction (map (fun c => point_arrays (inside c)) cells) as [|a l IH]; intros [|b js] E2; cbn in E2; try discriminate; [reflexivity|].
    injection E2 as <- E2. f_equal. now apply IH. }
  assert (JP : forall l, job_points (point_arrays l) = l).
  { intros l. unfold job_points, point_arrays. induction l as [|[[z q1] q2] l IH]; cbn; [reflexivity|]. cbn in IH. now rewrite IH. }
  exists (map (fun c => map point_row (inside c)) cells). split.
  - rewrite E, J, !map_map. apply map_ext_in. intros c I. apply triple_call.
    destruct (NE (point_arrays (inside c))) as [N _]; [rewrite J; apply in_map_iff; eauto|]. now rewrite JP in N.
  - rewrite <- flat_map_concat_map. rewrite J in P. 
    assert (F : flat_map (fun c => map point_row (inside c)) cells = map point_row (flat_map job_points (map (fun c => point_arrays (inside c)) cells))).
    { clear - JP. induction cells as [|c cells IH]; cbn [flat_map map]; [reflexivity|]. rewrite map_app, IH, JP. reflexivity. }
    rewrite F, P, map_map. reflexivity.
Qed.
Example C101_ex_jobs :
  map (fun j => call_calc (job_args j)) (get_processing_jobs (Some (CellGrid [(7%Z, (1%Z, 10%Q, 20%Q)); (3%Z, (2%Z, 11%Q, 21%Q)); (7%Z, (3%Z, 12%Q, 22%Q))]))) =
  [Ok [point_row (2%Z, 11%Q, 21%Q)]; Ok [point_row (1%Z, 10%Q, 20%Q); point_row (3%Z, 12%Q, 22%Q)]].
Proof. reflexivity. Qed.
(* a grid without cells: the list of jobs is a single job, calc( *jobs) works on all points; but called with each entry of
   the list, calc takes the ids of three points for id, longitude and latitude of one *)
Theorem C101_basic_grid :
  forall pts, pts <> [] -> call_calc (whole_args (get_processing_jobs (Some (BasicGrid pts)))) = Ok (map point_row pts).
Proof. intros pts N. exact (triple_call pts N). Qed.
Theorem C101_basic_grid_refuted :
  forall p1 p2 p3, exists j, In j (get_processing_jobs (Some (BasicGrid [p1; p2; p3]))) /\
    call_calc (job_args j) = Ok [[It (Index (fst (fst p1))); It (Index (fst (fst p2))); It (Index (fst (fst p3)))]].
Proof. intros p1 p2 p3. eexists. split; [left; reflexivity|reflexivity]. Qed.

Print Assumptions C101_lists.
Print Assumptions C101_single.
Print Assumptions C101_shortest.
Print Assumptions C101_lengths_refuted.
Print Assumptions C101_empty_refuted.
Print Assumptions C101_keys_refuted.
Print Assumptions C101_jobs.
Print Assumptions C101_basic_grid.
Print Assumptions C101_basic_grid_refuted.
