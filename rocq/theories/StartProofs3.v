(* Crashes between the assignments of add_metrics_results. *)
From Coq Require Import Lia Qround.
From Verif Require Import ResultsProofs ResultsProofs2 StartSpec TemporalModel.
Open Scope nat_scope.

(* ---- the assignments are the whole call *)
Lemma perform_app l1 l2 s : perform (l1 ++ l2) s = bindR (perform l1 s) (perform l2).
Proof.
  unfold perform. rewrite fold_left_app. destruct (fold_left _ l1 (Ok s)) as [s1|e]; [reflexivity|]. cbn [bindR].
  induction l2 as [|f l2 IH]; [reflexivity|exact IH].
Qed.
Lemma perform_cons (f : ncfile -> res ncfile) l s : perform (f :: l) s = bindR (f s) (perform l).
Proof. change (f :: l) with ([f] ++ l). rewrite perform_app. reflexivity. Qed.
Lemma fold_err {A} (g : A -> ncfile -> res ncfile) l e : fold_left (fun acc a => bindR acc (g a)) l (Err e) = Err e.
Proof. induction l as [|a l IH]; [reflexivity|exact IH]. Qed.
Lemma perform_results idx results : forall s, perform (map (put_result idx) results) s = store_all s DLoc idx (map (fun r => (var_name (fst r), snd r)) results).
Proof.
  unfold perform, store_all. intros s. generalize (@Ok ncfile s) as acc. induction results as [|r results IH]; intros acc; [reflexivity|]. cbn [map fold_left].
  rewrite IH. f_equal.
Qed.
Lemma add_metrics_perform s lons lats results :
  mapR fst (add_metrics_results s lons lats results) =
  bindR (add_metrics_killed (4 + List.length results) s lons lats results) (fun s' => mapR (fun _ => s') (get_var s' "idx")).
Proof.
  unfold add_metrics_results, add_metrics_killed. destruct (negb _); [reflexivity|]. unfold next_index.
  destruct (get_var s "idx") as [vi|e]; [|reflexivity]. cbn [bindR].
  match goal with |- context [bindR ?x _] => match x with context [rev] => destruct x as [idx|e]; [|reflexivity] end end. cbn [bindR].
  rewrite firstn_all2 by (unfold assignments; rewrite app_length, map_length; cbn; lia).
  unfold assignments. cbn [app]. rewrite perform_cons. destruct (write s "idx" _ _) as [s1|e]; [|reflexivity]. cbn [bindR].
  rewrite perform_cons. destruct (write s1 "_row_size" _ _) as [s2|e]; [|reflexivity]. cbn [bindR].
  rewrite perform_cons. destruct (write s2 "lon" _ _) as [s3|e]; [|reflexivity]. cbn [bindR].
  rewrite perform_cons. destruct (write s3 "lat" _ _) as [s4|e]; [|reflexivity]. cbn [bindR].
  rewrite perform_results. destruct (store_all s4 _ _ _) as [s5|e]; [|reflexivity]. cbn [bindR]. destruct (get_var s5 "idx"); reflexivity.
Qed.

(* ---- writes to existing variables *)
Definition wfold (start : nat) (l : list (string * list cell)) (s : ncfile) : res ncfile :=
  fold_left (fun acc w => bindR acc (fun s => write s (fst w) start (snd w))) l (Ok s).
Lemma wfold_cons start w l s : wfold start (w :: l) s = bindR (write s (fst w) start (snd w)) (wfold start l).
Proof.
  unfold wfold. cbn [fold_left bindR]. destruct (write s (fst w) start (snd w)) as [s1|e]; [reflexivity|]. cbn [bindR].
  induction l as [|a l IH]; [reflexivity|exact IH].
Qed.
Definition has (s : ncfile) (n : string) : Prop := exists v, view s n = Some v /\ v_dim v = DLoc.
Lemma wfold_ok start k l : forall s, NoDup (map fst l) -> (forall n d, In (n, d) l -> has s n /\ List.length d = k) -> 0 < k ->
  exists s', wfold start l s = Ok s' /\
    (forall n d, In (n, d) l -> forall v, view s n = Some v -> view s' n = Some (mkVar DLoc (write_at start d (v_data v)))) /\
    (forall n, ~ In n (map fst l) -> view s' n = view s n) /\
    map fst (f_vars s') = map fst (f_vars s) /\ f_obs s' = f_obs s /\
    f_loc s' = match l with [] => f_loc s | _ => Nat.max (f_loc s) (start + k) end.
Proof.
  induction l as [|[n d] l IH]; intros s ND H K.
  - exists s. split; [reflexivity|]. split; [intros ? ? []|]. auto.
  - cbn [map fst] in ND. apply NoDup_cons_iff in ND as [N1 N2]. rewrite wfold_cons. cbn [fst snd].
    destruct (H n d (or_introl eq_refl)) as [(v & Ev & Dv) Ld]. destruct (write_ok s n v start d Ev) as (s1 & E1 & V1 & O1 & K1 & L1). rewrite E1. cbn [bindR].
    destruct (IH s1) as (s' & E' & V' & O' & K' & B' & L').
    + exact N2.
    + intros m d' Hm. destruct (H m d' (or_intror Hm)) as [(v' & Ev' & Dv') Ld']. split; [|exact Ld']. exists v'. split; [|exact Dv']. rewrite O1; [exact Ev'|].
      intros ->. apply N1, in_map_iff. exists (n, d'). auto.
    + exact K.
    + exists s'. split; [exact E'|]. split; [|split; [|split; [|split]]].
      * intros m d' [[= -> ->]|Hm] v' Ev'.
        -- rewrite O' by exact N1. rewrite V1. rewrite Dv. congruence.
        -- apply (V' m d' Hm). rewrite O1; [exact Ev'|]. intros ->. apply N1, in_map_iff. exists (n, d'). auto.
      * intros m Hm. rewrite O' by (intros C; apply Hm; right; exact C). apply O1. intros ->. apply Hm. left. reflexivity.
      * congruence.
      * rewrite B'. assert (X := L1 DObs). rewrite Dv in X. exact X.
      * assert (X := L1 DLoc). rewrite Dv in X. cbn [dim_eqb dim_len] in X.
        assert (X' : f_loc s1 = Nat.max (f_loc s) (start + k)). { rewrite X. destruct d as [|c d]; [cbn in Ld; lia|]. unfold cell in *. rewrite Ld. reflexivity. }
        rewrite L'. destruct l; rewrite X'; [reflexivity|lia].
Qed.

(* ---- files that hold N locations, some of them perhaps incomplete *)
Record winv (names : list string) (N : nat) (s : ncfile) : Prop := {
  w_loc : f_loc s = N;
  w_nodup : NoDup (map fst (f_vars s));
  w_idx : holds s "idx" DLoc (fun i => if i <? N then nat_num i else None);
  w_has : forall n, In n (["_row_size"; "lon"; "lat"]%string ++ names) -> has s n
}.
Lemma inv_winv s t : inv s t -> winv (t_lnames t) (List.length (t_locs t)) s.
Proof.
  intros I. constructor; [exact (i_loc s t I)|exact (i_nodup s t I)|exact (i_idx s t I)|].
  intros n Hn. cbn [app] in Hn. destruct Hn as [<-|[<-|[<-|Hn]]].
  - destruct (i_rs s t I) as (v & E & D & _). exists v. auto.
  - destruct (i_lon s t I) as (v & E & D & _). exists v. auto.
  - destruct (i_lat s t I) as (v & E & D & _). exists v. auto.
  - destruct (i_l s t I n Hn) as (v & E & D & _). exists v. auto.
Qed.
Lemma next_index_ok names N s : winv names N s -> next_index s = Ok N.
Proof.
  intros W. unfold next_index. destruct (w_idx _ _ _ W) as (vi & Evi & Dvi & Cvi). unfold get_var. unfold view in Evi. rewrite Evi. cbn [bindR].
  assert (CI : cells s vi = map nat_num (seq 0 N)).
  { unfold cells. rewrite Dvi. cbn [dim_len]. rewrite (w_loc _ _ _ W). apply map_ext_in. intros i Hi. apply in_seq in Hi. rewrite Cvi.
    destruct (Nat.ltb_spec i N); [reflexivity|lia]. }
  rewrite CI. destruct N as [|m]; [reflexivity|]. rewrite seq_S, map_app, rev_app_distr. cbn [map rev app nat_num z_num Nat.add].
  assert (F := Qfloor_Z (Z.of_nat m)). destruct (nat_num m) as [q|] eqn:Eq; [|discriminate]. assert (q = inject_Z (Z.of_nat m)) by (unfold nat_num, z_num in Eq; congruence). subst q. rewrite F. clear F Eq.
  cbv zeta. destruct (Z.ltb_spec (Z.of_nat m + 1) 0); [lia|]. f_equal. lia.
Qed.

Definition all_writes (N : nat) (lons lats : list Q) (results : list (field * list cell)) : list (string * list cell) :=
  [("idx", map nat_num (seq N (List.length lons))); ("_row_size", repeat (z_num 0) (List.length lons));
   ("lon", map Some lons); ("lat", map Some lats)]%string ++ map (fun r => (var_name (fst r), snd r)) results.
Lemma has_write s n start d s' m : write s n start d = Ok s' -> has s m -> has s' m.
Proof.
  intros E (v & Ev & Dv). destruct (view s n) as [w|] eqn:En; [|unfold write, get_var, view in *; rewrite En in E; discriminate].
  destruct (write_ok s n w start d En) as (s1 & E1 & V1 & O1 & _). assert (s1 = s') by congruence. subst s1.
  destruct (string_dec m n) as [->|N]; [|exists v; rewrite O1 by exact N; auto]. exists (mkVar (v_dim w) (write_at start d (v_data w))). split; [exact V1|]. cbn. congruence.
Qed.
Lemma perform_puts idx results : forall k s, (forall n, In n (names_of results) -> has s n) ->
  perform (firstn k (map (put_result idx) results)) s = wfold idx (firstn k (map (fun r => (var_name (fst r), snd r)) results)) s.
Proof.
  induction results as [|r results IH]; intros [|k] s H; try reflexivity. cbn [map firstn]. rewrite perform_cons, wfold_cons. cbn [fst snd].
  assert (E : put_result idx r s = write s (var_name (fst r)) idx (snd r)).
  { unfold put_result. destruct (H (var_name (fst r)) (or_introl eq_refl)) as (v & Ev & _). unfold view in Ev. rewrite Ev. reflexivity. }
  rewrite E. destruct (write s (var_name (fst r)) idx (snd r)) as [s1|e] eqn:W; [|reflexivity]. cbn [bindR]. apply IH.
  intros n Hn. eapply has_write; [exact W|]. apply H. right. exact Hn.
Qed.
Lemma perform_writes names N s lons lats results k : winv names N s -> lons <> [] ->
  (forall n, In n (names_of results) -> In n names) ->
  perform (firstn k (assignments N lons lats results)) s = wfold N (firstn k (all_writes N lons lats results)) s.
Proof.
  intros W NE SUB. unfold assignments, all_writes. cbn [app].
  assert (HN : forall n, In n (names_of results) -> has s n) by (intros n Hn; apply (w_has _ _ _ W), in_or_app; right; apply SUB, Hn).
  destruct k as [|k]; [reflexivity|]. cbn [firstn]. rewrite perform_cons, wfold_cons. cbn [fst snd].
  destruct (holds_write s "idx" DLoc _ N (map nat_num (seq N (List.length lons))) (w_idx _ _ _ W)) as (s1 & E1 & H1 & O1 & K1 & L1). rewrite E1. cbn [bindR].
  assert (FL : f_loc s1 = N + List.length lons).
  { assert (X := L1 DLoc). cbn [dim_eqb dim_len] in X. rewrite X, map_length, seq_length, (w_loc _ _ _ W).
    destruct lons as [|a lons]; [contradiction|]. cbn [List.length seq map]. lia. }
  assert (HN1 := fun n Hn => has_write _ _ _ _ _ n E1 (HN n Hn)).
  destruct k as [|k]; [reflexivity|]. cbn [firstn]. rewrite perform_cons, wfold_cons. cbn [fst snd]. rewrite FL. replace (N + List.length lons - N) with (List.length lons) by lia.
  destruct (write s1 "_row_size" N _) as [s2|e] eqn:E2; [|reflexivity]. cbn [bindR]. assert (HN2 := fun n Hn => has_write _ _ _ _ _ n E2 (HN1 n Hn)).
  destruct k as [|k]; [reflexivity|]. cbn [firstn]. rewrite perform_cons, wfold_cons. cbn [fst snd].
  destruct (write s2 "lon" N _) as [s3|e] eqn:E3; [|reflexivity]. cbn [bindR]. assert (HN3 := fun n Hn => has_write _ _ _ _ _ n E3 (HN2 n Hn)).
  destruct k as [|k]; [reflexivity|]. cbn [firstn]. rewrite perform_cons, wfold_cons. cbn [fst snd].
  destruct (write s3 "lat" N _) as [s4|e] eqn:E4; [|reflexivity]. cbn [bindR]. assert (HN4 := fun n Hn => has_write _ _ _ _ _ n E4 (HN3 n Hn)).
  apply perform_puts. exact HN4.
Qed.
Lemma firstn_in {A} k (l : list A) a : In a (firstn k l) -> In a l.
Proof. revert k. induction l as [|x l IH]; intros [|k] H; cbn in *; try contradiction. destruct H; [left; assumption|right; apply (IH k); assumption]. Qed.
Lemma firstn_nodup {A} k (l : list A) : NoDup l -> NoDup (firstn k l).
Proof.
  revert k. induction l as [|x l IH]; intros [|k] H; cbn; try constructor.
  - intros C. apply firstn_in in C. inversion H; contradiction.
  - inversion H. apply IH. assumption.
Qed.

(* ---- what stays and what is new *)
Definition same_below (N : nat) (s s' : ncfile) : Prop :=
  map fst (f_vars s') = map fst (f_vars s) /\ f_obs s' = f_obs s /\
  forall n v, view s n = Some v -> exists v', view s' n = Some v' /\ v_dim v' = v_dim v /\ (v_dim v = DObs -> v' = v) /\
    forall i, i < N -> nth i (v_data v') None = nth i (v_data v) None.
Lemma attempt_ok names N s lons lats results k : winv names N s -> fits names (mkAttempt (Some k) lons lats results) ->
  exists s', add_metrics_killed k s lons lats results = Ok s' /\ winv names (match k with O => N | _ => N + List.length lons end) s' /\ same_below N s s' /\
    forall n d, In (n, d) (firstn k (all_writes N lons lats results)) -> forall v, view s n = Some v -> view s' n = Some (mkVar DLoc (write_at N d (v_data v))).
Proof.
  intros W (NE & LL & LR & ND & SUB). cbn [a_lons a_lats a_results] in *. unfold add_metrics_killed.
  assert (CHK : forallb (Nat.eqb (List.length lons)) (List.length lats :: map (fun r => List.length (snd r)) results) = true).
  { apply forallb_forall. intros x [<-|Hx]; [apply Nat.eqb_eq; lia|]. apply in_map_iff in Hx as ([n l] & <- & Hr). apply Nat.eqb_eq. symmetry. apply (LR n). exact Hr. }
  rewrite CHK. cbn [negb]. rewrite (next_index_ok _ _ _ W). cbn [bindR].
  rewrite (perform_writes names) by (try assumption; intros n Hn; apply (proj1 (SUB n Hn))).
  assert (KN : map fst (all_writes N lons lats results) = ["idx"; "_row_size"; "lon"; "lat"]%string ++ names_of results).
  { unfold all_writes, names_of. rewrite map_app, map_map. reflexivity. }
  assert (NDA : NoDup (map fst (all_writes N lons lats results))).
  { rewrite KN. assert (R1 : forall x, In x ["idx"; "_row_size"; "lon"; "lat"]%string -> ~ In x (names_of results)).
    { intros x Hx C. apply (proj2 (SUB x C)). cbn in *. intuition. }
    cbn [app]. repeat constructor; try exact ND; cbn; intros C; repeat (destruct C as [C|C]; [discriminate C|]); revert C; apply R1; cbn; auto 6. }
  assert (PO : 0 < List.length lons) by (destruct lons; [contradiction|cbn; lia]).
  destruct (wfold_ok N (List.length lons) (firstn k (all_writes N lons lats results)) s) as (s' & E & V & O & K & B & L).
  - rewrite <- firstn_map. apply firstn_nodup. exact NDA.
  - intros n d H. apply firstn_in in H. unfold all_writes in H. apply in_app_or in H. destruct H as [H|H].
    + cbn in H. destruct H as [[= <- <-]|[[= <- <-]|[[= <- <-]|[[= <- <-]|[]]]]].
      * split; [|rewrite map_length, seq_length; reflexivity]. destruct (w_idx _ _ _ W) as (v & Ev & Dv & _). exists v. auto.
      * split; [|apply repeat_length]. apply (w_has _ _ _ W). cbn. auto.
      * split; [|apply map_length]. apply (w_has _ _ _ W). cbn. auto.
      * split; [|rewrite map_length; exact LL]. apply (w_has _ _ _ W). cbn. auto.
    + apply in_map_iff in H as ([f l] & [= <- <-] & H). split; [|apply (LR f); exact H]. apply (w_has _ _ _ W), in_or_app. right.
      apply (proj1 (SUB (var_name f) (in_map (fun r => var_name (fst r)) results (f, l) H))).
  - exact PO.
  - exists s'. split; [exact E|].
    assert (SB : same_below N s s').
    { split; [exact K|]. split; [exact B|]. intros n v Ev. destruct (in_dec string_dec n (map fst (firstn k (all_writes N lons lats results)))) as [I|I].
      - apply in_map_iff in I as ([m d] & <- & I). cbn [fst] in *. eexists. split; [exact (V m d I v Ev)|].
        assert (Dv : v_dim v = DLoc).
        { apply firstn_in in I. assert (HH : has s m).
          { unfold all_writes in I. apply in_app_or in I. destruct I as [I|I].
            - cbn in I. destruct I as [[= <- _]|[[= <- _]|[[= <- _]|[[= <- _]|[]]]]]; [destruct (w_idx _ _ _ W) as (v' & Ev' & Dv' & _); exists v'; auto| | |]; apply (w_has _ _ _ W); cbn; auto.
            - apply in_map_iff in I as ([f l] & [= <- _] & I). apply (w_has _ _ _ W), in_or_app. right. apply (proj1 (SUB (var_name f) (in_map (fun r => var_name (fst r)) results (f, l) I))). }
          destruct HH as (v' & Ev' & Dv'). congruence. }
        cbn [v_dim v_data]. split; [symmetry; exact Dv|]. split; [congruence|]. intros i Hi. rewrite write_at_nth. destruct (Nat.leb_spec N i); [lia|reflexivity].
      - exists v. rewrite O by exact I. auto. }
    split; [|split; [exact SB|exact V]].
    constructor.
    + rewrite L, (w_loc _ _ _ W). destruct k; [reflexivity|]. unfold all_writes. cbn [app firstn]. lia.
    + rewrite K. exact (w_nodup _ _ _ W).
    + destruct (w_idx _ _ _ W) as (v & Ev & Dv & Cv). destruct k as [|k].
      * cbn [firstn map] in O. exists v. rewrite O by (intros []). auto.
      * exists (mkVar DLoc (write_at N (map nat_num (seq N (List.length lons))) (v_data v))). split; [apply V; [left; reflexivity|exact Ev]|]. split; [reflexivity|].
        intros i. cbn [v_data]. rewrite write_at_nth, map_length, seq_length, Cv.
        destruct (Nat.leb_spec N i); cbn [andb].
        -- destruct (Nat.ltb_spec i (N + List.length lons)).
           ++ rewrite nth_indep with (d' := nat_num 0) by (rewrite map_length, seq_length; lia). rewrite map_nth, seq_nth by lia. f_equal. lia.
           ++ destruct (Nat.ltb_spec i N); [lia|reflexivity].
        -- destruct (Nat.ltb_spec i N); [|lia]. destruct (Nat.ltb_spec i (N + List.length lons)); [reflexivity|lia].
    + intros n Hn. destruct (w_has _ _ _ W n Hn) as (v & Ev & Dv). destruct (proj2 (proj2 SB) n v Ev) as (v' & Ev' & Dv' & _). exists v'. split; [exact Ev'|]. congruence.
Qed.
