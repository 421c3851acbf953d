(* Proofs about the results file. *)
From Coq Require Import Qround.
From Verif Require Import ResultsSpec BaseProofs NamesProofs MatchersProofs.
From Verif Require Import TemporalModel TemporalSpec.
Open Scope Z_scope.

Lemma dict_get_set {V} (d : list (string * V)) k v k' : dict_get (dict_set String.eqb d k v) k' = if String.eqb k k' then Some v else dict_get d k'.
Proof.
  unfold dict_get. induction d as [|[a b] d IH]; cbn [dict_set find fst].
  - destruct (String.eqb k k'); reflexivity.
  - destruct (String.eqb_spec a k) as [->|N]; cbn [find fst].
    + destruct (String.eqb k k'); reflexivity.
    + destruct (String.eqb_spec a k') as [->|N']; [|exact IH]. destruct (String.eqb_spec k k') as [->|]; [congruence|reflexivity].
Qed.
Lemma dict_set_keys {V} (d : list (string * V)) k v : map fst (dict_set String.eqb d k v) =
  if existsb (String.eqb k) (map fst d) then map fst d else map fst d ++ [k].
Proof.
  induction d as [|[a b] d IH]; cbn; [reflexivity|]. rewrite (String.eqb_sym k a).
  destruct (String.eqb_spec a k) as [->|N]; cbn; [reflexivity|]. rewrite IH. destruct (existsb (String.eqb k) (map fst d)); reflexivity.
Qed.
Lemma dict_get_none {V} (d : list (string * V)) k : dict_get d k = None <-> ~ In k (map fst d).
Proof.
  unfold dict_get. induction d as [|[a b] d IH]; cbn; [tauto|]. destruct (String.eqb_spec a k) as [->|N]; cbn.
  - split; [discriminate|]. intros H. exfalso. apply H. auto.
  - rewrite IH. tauto.
Qed.
Lemma existsb_str k l : existsb (String.eqb k) l = true <-> In k l.
Proof. rewrite existsb_exists. split; [intros (x & H & E); apply String.eqb_eq in E; congruence|intros H; exists k; split; [exact H|apply String.eqb_refl]]. Qed.

(* ---- writing *)
Lemma write_at_nth start d l i : nth i (write_at start d l) None =
  if (start <=? i)%nat && (i <? start + List.length d)%nat then nth (i - start) d None else nth i l None.
Proof.
  destruct d as [|x d0].
  { cbn [List.length]. destruct (Nat.leb_spec start i); cbn [andb]; [|reflexivity].
    destruct (Nat.ltb_spec i (start + 0)); [lia|reflexivity]. }
  unfold write_at. set (d := x :: d0). set (l' := l ++ repeat None (start - List.length l)).
  assert (L : (start <= List.length l')%nat) by (unfold l'; rewrite app_length, repeat_length; lia).
  assert (LF : List.length (firstn start l') = start) by (rewrite firstn_length; lia).
  assert (NL : forall j, nth j l' None = nth j l None).
  { intros j. unfold l'. destruct (Nat.ltb_spec j (List.length l)); [apply app_nth1; assumption|].
    rewrite app_nth2 by assumption. rewrite (nth_overflow l) by assumption. apply nth_repeat. }
  destruct (Nat.leb_spec start i) as [H|H]; cbn [andb].
  - rewrite app_nth2 by (rewrite LF; exact H). rewrite LF.
    destruct (Nat.ltb_spec i (start + List.length d)).
    + rewrite app_nth1 by lia. reflexivity.
    + rewrite app_nth2 by lia. unfold cell in *. replace (nth i l None) with (nth (i - start - List.length d) (skipn (start + List.length d) l) None); [reflexivity|].
      clear -H0 H.
      assert (forall (l : list (option Q)) m j, nth j (skipn m l) None = nth (m + j) l None) as E.
      { clear. induction l as [|y l IH]; intros m j; [destruct m, j; cbn; try reflexivity; destruct (m + S j)%nat; reflexivity|]. destruct m; [reflexivity|]. cbn. apply IH. }
      rewrite E. f_equal. unfold cell in *. lia.
  - rewrite app_nth1 by (rewrite LF; exact H). rewrite <- NL. clear -H. revert i H. generalize l'. clear.
    induction start as [|s IH]; intros l i H; [lia|]. destruct l as [|y l]; [destruct i; reflexivity|]. destruct i; [reflexivity|]. cbn. apply IH. lia.
Qed.

Definition view (s : ncfile) (n : string) : option ncvar := dict_get (f_vars s) n.
Lemma write_ok s n v start d : view s n = Some v ->
  exists s', write s n start d = Ok s' /\ view s' n = Some (mkVar (v_dim v) (write_at start d (v_data v))) /\
    (forall m, m <> n -> view s' m = view s m) /\ map fst (f_vars s') = map fst (f_vars s) /\
    (forall dm, dim_len s' dm = if dim_eqb dm (v_dim v) then Nat.max (dim_len s dm) (match d with [] => 0 | _ => start + List.length d end)%nat else dim_len s dm).
Proof.
  intros E. unfold write, get_var. unfold view in *. rewrite E. cbn [bindR]. eexists. split; [reflexivity|].
  assert (V : forall dm k, f_vars (grow (put_var s n (mkVar (v_dim v) (write_at start d (v_data v)))) dm k) = dict_set String.eqb (f_vars s) n (mkVar (v_dim v) (write_at start d (v_data v)))) by (intros [|] k; reflexivity).
  rewrite V. split; [rewrite dict_get_set, String.eqb_refl; reflexivity|]. split; [|split].
  - intros m N. rewrite dict_get_set. assert (X : String.eqb n m = false) by (apply String.eqb_neq; congruence). rewrite X. reflexivity.
  - rewrite dict_set_keys. destruct (existsb (String.eqb n) (map fst (f_vars s))) eqn:X; [reflexivity|]. exfalso.
    assert (In n (map fst (f_vars s))). { destruct (in_dec string_dec n (map fst (f_vars s))) as [I|I]; [exact I|]. apply dict_get_none in I. congruence. }
    apply existsb_str in H. congruence.
  - intros dm. destruct (v_dim v), dm; cbn; reflexivity.
Qed.

(* ---- several variables *)
Definition spliced (start k : nat) (l : list cell) (old : option ncvar) (i : nat) : cell :=
  if (start <=? i)%nat && (i <? start + k)%nat then nth (i - start) l None
  else match old with Some v => nth i (v_data v) None | None => None end.
Lemma store_all_ok dm start k results : forall s,
  NoDup (map fst results) -> (forall n l, In (n, l) results -> List.length l = k) ->
  (forall n, In n (map fst results) -> view s n = None -> start = 0%nat) ->
  (forall n v, In n (map fst results) -> view s n = Some v -> v_dim v = dm) ->
  (start + k <= dim_len s dm)%nat ->
  exists s', store_all s dm start results = Ok s' /\
    (forall n l, In (n, l) results -> exists v, view s' n = Some v /\ v_dim v = dm /\ forall i, nth i (v_data v) None = spliced start k l (view s n) i) /\
    (forall n, ~ In n (map fst results) -> view s' n = view s n) /\
    map fst (f_vars s') = new_names (map fst (f_vars s)) results /\
    (forall d, dim_len s' d = dim_len s d).
Proof.
  unfold store_all. induction results as [|[n l] results IH]; intros s ND LEN NEW DIM SP.
  - exists s. split; [reflexivity|]. split; [intros ? ? []|]. split; [reflexivity|]. split; [unfold new_names; cbn; rewrite app_nil_r; reflexivity|reflexivity].
  - cbn [fold_left bindR fst snd]. cbn [map fst] in ND. apply NoDup_cons_iff in ND as [N1 N2].
    assert (Ll : List.length l = k) by (apply (LEN n); left; reflexivity).
    set (s1r := match dict_get (f_vars s) n with None => Ok (create_var s n dm l) | Some _ => write s n start l end).
    assert (exists s1, s1r = Ok s1 /\ (exists v, view s1 n = Some v /\ v_dim v = dm /\ forall i, nth i (v_data v) None = spliced start k l (view s n) i) /\
       (forall m, m <> n -> view s1 m = view s m) /\
       map fst (f_vars s1) = (if existsb (String.eqb n) (map fst (f_vars s)) then map fst (f_vars s) else map fst (f_vars s) ++ [n]) /\
       (forall d, dim_len s1 d = dim_len s d)) as (s1 & E1 & (v1 & V1 & D1 & C1) & O1 & K1 & L1).
    { subst s1r. destruct (dict_get (f_vars s) n) as [v|] eqn:E.
      - destruct (write_ok s n v start l E) as (s1 & E1 & V1 & O1 & K1 & L1). exists s1. split; [exact E1|].
        assert (Dv : v_dim v = dm) by (apply (DIM n); [left; reflexivity|exact E]).
        split; [|split; [exact O1|split]].
        + eexists. split; [exact V1|]. split; [exact Dv|]. intros i. cbn [v_data]. rewrite write_at_nth. unfold cell in *. rewrite Ll. unfold spliced, view. rewrite E. reflexivity.
        + rewrite K1. destruct (existsb (String.eqb n) (map fst (f_vars s))) eqn:X; [reflexivity|]. exfalso.
          assert (I : In n (map fst (f_vars s))). { destruct (in_dec string_dec n (map fst (f_vars s))) as [I|I]; [exact I|]. apply dict_get_none in I. congruence. }
          apply existsb_str in I. congruence.
        + intros d. rewrite L1. destruct (dim_eqb d (v_dim v)) eqn:X; [|reflexivity].
          assert (d = dm) by (rewrite <- Dv; destruct d, (v_dim v); try reflexivity; discriminate). subst d.
          assert ((match l with [] => 0 | _ => start + List.length l end <= start + k)%nat) by (destruct l; unfold cell in *; lia). unfold cell in *. lia.
      - assert (start = 0%nat) by (apply (NEW n); [left; reflexivity|exact E]). subst start.
        exists (create_var s n dm l). split; [reflexivity|].
        assert (V : f_vars (create_var s n dm l) = dict_set String.eqb (f_vars s) n (mkVar dm l)) by (unfold create_var; destruct dm; reflexivity).
        unfold view. rewrite V. split; [|split; [|split]].
        + exists (mkVar dm l). rewrite dict_get_set, String.eqb_refl. split; [reflexivity|]. split; [reflexivity|]. intros i. cbn [v_data]. unfold spliced. rewrite E. cbn [Nat.leb andb Nat.add].
          rewrite Nat.sub_0_r. destruct (Nat.ltb_spec i k); [reflexivity|]. apply nth_overflow. unfold cell in *. lia.
        + intros m N. rewrite dict_get_set. assert (X : String.eqb n m = false) by (apply String.eqb_neq; congruence). rewrite X. reflexivity.
        + rewrite dict_set_keys. reflexivity.
        + intros d. unfold create_var. destruct dm, d; cbn in *; unfold cell in *; lia. }
    rewrite E1. destruct (IH s1) as (s2 & E2 & V2 & O2 & K2 & L2).
    + exact N2.
    + intros m l' Hm. apply (LEN m). right. exact Hm.
    + intros m Hm. assert (m <> n) by congruence. rewrite O1 by assumption. apply NEW. right. exact Hm.
    + intros m v Hm. assert (m <> n) by congruence. rewrite O1 by assumption. apply DIM. right. exact Hm.
    + rewrite L1. exact SP.
    + exists s2. split; [exact E2|]. split; [|split; [|split]].
      * intros m l' [[= -> ->]|Hm].
        -- exists v1. rewrite O2 by exact N1. auto.
        -- destruct (V2 m l' Hm) as (v & Ev & Dv & Cv). exists v. split; [exact Ev|]. split; [exact Dv|]. intros i. rewrite Cv. rewrite O1; [reflexivity|].
           intros ->. apply N1. apply in_map_iff. exists (n, l'). auto.
      * intros m Hm. rewrite O2 by (intros C; apply Hm; right; exact C). apply O1. intros ->. apply Hm. left. reflexivity.
      * rewrite K2, K1. unfold new_names. cbn [map fst filter].
        destruct (existsb (String.eqb n) (map fst (f_vars s))) eqn:X; cbn [negb]; [reflexivity|].
        rewrite <- app_assoc. cbn [app]. do 2 f_equal.
        apply filter_ext_in. intros a Ha. rewrite existsb_app. cbn. rewrite orb_false_r.
        assert (Y : String.eqb a n = false) by (apply String.eqb_neq; congruence). rewrite Y, orb_false_r. reflexivity.
      * intros d. rewrite L2. apply L1.
Qed.

(* ---- the invariant *)
Definition holds (s : ncfile) (n : string) (dm : dim) (f : nat -> cell) : Prop :=
  exists v, view s n = Some v /\ v_dim v = dm /\ forall i, nth i (v_data v) None = f i.
Definition at_ {A} (g : A -> cell) (l : list A) (i : nat) : cell := match nth_error l i with Some a => g a | None => None end.
Definition t_times (t : table) : list Q := List.concat (map fst (t_series t)).
Definition t_values (t : table) (n : string) : list cell := List.concat (map (fun e => series_values e n) (t_series t)).
Record inv (s : ncfile) (t : table) : Prop := {
  i_loc : f_loc s = List.length (t_locs t);
  i_ser : List.length (t_series t) = List.length (t_locs t);
  i_obs : f_obs s = List.length (t_times t);
  i_nodup : NoDup (map fst (f_vars s));
  i_names : forall n, In n (map fst (f_vars s)) <-> In n reserved \/ In n (t_lnames t) \/ In n (t_tnames t);
  i_lres : forall n, In n (t_lnames t) -> ~ In n reserved;
  i_tres : forall n, In n (t_tnames t) -> ~ In n reserved /\ ~ In n (t_lnames t);
  i_wf : forall e n, In e (t_series t) -> List.length (series_values e n) = List.length (fst e);
  i_lon : holds s "lon" DLoc (at_ (fun p => Some (fst (fst p))) (t_locs t));
  i_lat : holds s "lat" DLoc (at_ (fun p => Some (snd (fst p))) (t_locs t));
  i_idx : holds s "idx" DLoc (fun i => if (i <? List.length (t_locs t))%nat then nat_num i else None);
  i_rs : holds s "_row_size" DLoc (at_ (fun e => nat_num (List.length (fst e))) (t_series t));
  i_time : holds s "time" DObs (fun i => nth i (map Some (t_times t)) None);
  i_l : forall n, In n (t_lnames t) -> holds s n DLoc (at_ (fun p => snd p n) (t_locs t));
  i_t : forall n, In n (t_tnames t) -> holds s n DObs (fun i => nth i (t_values t n) None)
}.
Lemma inv_new : inv new_file empty_table.
Proof.
  constructor; try reflexivity; cbn.
  - repeat constructor; cbn; intuition discriminate.
  - intros n. tauto.
  - intros n [].
  - intros n [].
  - intros e n [].
  - eexists. split; [reflexivity|]. split; [reflexivity|]. intros [|i]; reflexivity.
  - eexists. split; [reflexivity|]. split; [reflexivity|]. intros [|i]; reflexivity.
  - eexists. split; [reflexivity|]. split; [reflexivity|]. intros [|i]; reflexivity.
  - eexists. split; [reflexivity|]. split; [reflexivity|]. intros [|i]; reflexivity.
  - eexists. split; [reflexivity|]. split; [reflexivity|]. intros [|i]; reflexivity.
  - intros n [].
  - intros n [].
Qed.

Lemma at_app {A} (g : A -> cell) l m i : at_ g (l ++ m) i =
  if (List.length l <=? i)%nat && (i <? List.length l + List.length m)%nat then at_ g m (i - List.length l) else at_ g l i.
Proof.
  unfold at_. destruct (Nat.leb_spec (List.length l) i); cbn [andb].
  - rewrite nth_error_app2 by assumption. destruct (Nat.ltb_spec i (List.length l + List.length m)); [reflexivity|].
    rewrite (proj2 (nth_error_None m _)) by lia. rewrite (proj2 (nth_error_None l _)) by lia. reflexivity.
  - rewrite nth_error_app1 by assumption. reflexivity.
Qed.
Lemma at_map {A} (g : A -> cell) l i : at_ g l i = nth i (map g l) None.
Proof. unfold at_. revert i. induction l as [|x l IH]; intros [|i]; cbn; try reflexivity. apply IH. Qed.
Lemma cells_at {A} s n (g : A -> cell) l : holds s n DLoc (at_ g l) -> f_loc s = List.length l ->
  exists v, view s n = Some v /\ cells s v = map g l.
Proof.
  intros (v & E & D & C) L. exists v. split; [exact E|]. unfold cells. rewrite D. cbn [dim_len]. rewrite L.
  apply nth_ext with (d := None) (d' := None); [rewrite !map_length, seq_length; reflexivity|].
  intros i Hi. rewrite map_length, seq_length in Hi.
  rewrite (nth_indep _ None (nth 0 (v_data v) None)) by (rewrite map_length, seq_length; exact Hi).
  rewrite (map_nth (fun i => nth i (v_data v) None)), seq_nth by exact Hi. cbn [Nat.add]. rewrite C, at_map. reflexivity.
Qed.
Lemma sum_lengths (l : list nat) : cells_sum (map nat_num l) = list_sum l.
Proof.
  unfold cells_sum.
  assert (E : (qsum (vals (map nat_num l)) == inject_Z (Z.of_nat (list_sum l)))%Q).
  { induction l as [|x l IH]; [reflexivity|]. change (list_sum (x :: l)) with (x + list_sum l)%nat.
    rewrite Nat2Z.inj_add, inject_Z_plus, <- IH. reflexivity. }
  rewrite E, Qfloor_Z. apply Nat2Z.id.
Qed.

Lemma holds_view s s' n dm f : view s' n = view s n -> holds s n dm f -> holds s' n dm f.
Proof. intros E (v & Ev & H). exists v. rewrite E. auto. Qed.
Lemma holds_ext s n dm f f' : (forall i, f i = f' i) -> holds s n dm f -> holds s n dm f'.
Proof. intros E (v & Ev & D & C). exists v. split; [exact Ev|]. split; [exact D|]. intros i. rewrite C. apply E. Qed.
Definition splice (start : nat) (d : list cell) (f : nat -> cell) (i : nat) : cell :=
  if (start <=? i)%nat && (i <? start + List.length d)%nat then nth (i - start) d None else f i.
Lemma holds_write s n dm f start d : holds s n dm f ->
  exists s', write s n start d = Ok s' /\ holds s' n dm (splice start d f) /\
    (forall m, m <> n -> view s' m = view s m) /\ map fst (f_vars s') = map fst (f_vars s) /\
    (forall dm', dim_len s' dm' = if dim_eqb dm' dm then Nat.max (dim_len s dm') (match d with [] => 0 | _ => start + List.length d end)%nat else dim_len s dm').
Proof.
  intros (v & E & D & C). destruct (write_ok s n v start d E) as (s' & E' & V & O & K & L). exists s'. split; [exact E'|]. split.
  - eexists. split; [exact V|]. split; [exact D|]. intros i. cbn [v_data]. rewrite write_at_nth. unfold splice. rewrite C. reflexivity.
  - rewrite <- D. auto.
Qed.
Lemma splice_at {A} (g : A -> cell) l m i : splice (List.length l) (map g m) (at_ g l) i = at_ g (l ++ m) i.
Proof. rewrite at_app. unfold splice. rewrite map_length, !at_map. reflexivity. Qed.
Lemma splice_append (l d : list cell) i : splice (List.length l) d (fun i => nth i l None) i = nth i (l ++ d) None.
Proof.
  unfold splice. destruct (Nat.leb_spec (List.length l) i); cbn [andb].
  - rewrite app_nth2 by assumption. destruct (Nat.ltb_spec i (List.length l + List.length d)); [reflexivity|].
    rewrite !nth_overflow; [reflexivity| |]; unfold cell in *; lia.
  - rewrite app_nth1 by assumption. reflexivity.
Qed.
Lemma spliced_splice start k l s n dm f : List.length l = k -> holds s n dm f -> forall i, spliced start k l (view s n) i = splice start l f i.
Proof. intros <- (v & -> & _ & C) i. unfold spliced, splice. rewrite C. reflexivity. Qed.

Lemma new_names_in known results n : In n (new_names known results) <-> In n known \/ In n (map fst results).
Proof.
  unfold new_names. rewrite in_app_iff, filter_In. split; [tauto|]. intros [H|H]; [auto|].
  destruct (existsb (String.eqb n) known) eqn:E; [apply existsb_str in E; auto|]. right. split; [exact H|]. reflexivity.
Qed.
Lemma new_names_nodup known results : NoDup known -> NoDup (map fst results) -> NoDup (new_names known results).
Proof.
  intros H1 H2. apply nodup_app; [exact H1|apply NoDup_filter, H2|]. intros x Hx Hy. apply filter_In in Hy as [_ E].
  apply existsb_str in Hx. rewrite Hx in E. discriminate.
Qed.
Lemma point_name lons lats res n k : snd (point lons lats res k) n = match dict_get res n with Some l => nth k l None | None => None end.
Proof. reflexivity. Qed.
Lemma view_in s n : In n (map fst (f_vars s)) <-> view s n <> None.
Proof.
  unfold view. destruct (dict_get (f_vars s) n) as [v|] eqn:E.
  - split; [discriminate|]. intros _. destruct (in_dec string_dec n (map fst (f_vars s))) as [I|I]; [exact I|]. apply dict_get_none in I. congruence.
  - apply dict_get_none in E. tauto.
Qed.
Lemma map_nth_seq (l : list Q) : map (fun k => nth k l 0%Q) (seq 0 (List.length l)) = l.
Proof.
  apply nth_ext with (d := 0%Q) (d' := 0%Q); [rewrite map_length, seq_length; reflexivity|].
  intros i Hi. rewrite map_length, seq_length in Hi. rewrite (nth_indep _ 0%Q (nth 0 l 0%Q)) by (rewrite map_length, seq_length; exact Hi).
  rewrite (map_nth (fun k => nth k l 0%Q)), seq_nth by exact Hi. reflexivity.
Qed.

Lemma step_metrics s t lons lats results : inv s t -> ok_call t (AddMetrics lons lats results) ->
  exists s', add_metrics_results s lons lats results = Ok (s', map nat_num (seq (List.length (t_locs t)) (List.length lons))) /\
    inv s' (apply_call t (AddMetrics lons lats results)).
Proof.
  intros I (NE & LL & LR & (ND & NR) & LATE). set (L := List.length (t_locs t)). set (n := List.length lons).
  assert (Hn : (0 < n)%nat) by (unfold n; destruct lons; [contradiction|cbn; lia]).
  set (nr := named results) in *.
  unfold add_metrics_results. fold n.
  assert (CHK : forallb (Nat.eqb n) (List.length lats :: map (fun r => List.length (snd r)) results) = true).
  { apply forallb_forall. intros x [<-|Hx]; [apply Nat.eqb_eq; unfold n; lia|]. apply in_map_iff in Hx as (r & <- & Hr).
    apply Nat.eqb_eq. symmetry. apply (LR (var_name (fst r))). unfold nr, named. apply in_map_iff. exists r. auto. }
  rewrite CHK. cbn [negb].
  destruct (i_idx s t I) as (vi & Evi & Dvi & Cvi). unfold get_var at 1. unfold view in Evi. rewrite Evi. cbn [bindR].
  assert (CI : cells s vi = map nat_num (seq 0 L)).
  { unfold cells. rewrite Dvi. cbn [dim_len]. rewrite (i_loc s t I). fold L. apply map_ext_in. intros i Hi. apply in_seq in Hi. rewrite Cvi.
    fold L. destruct (Nat.ltb_spec i L); [reflexivity|lia]. }
  match goal with |- context [bindR ?x _] => match x with context [rev] => assert (EX : x = Ok L) end end.
  { rewrite CI. destruct L as [|m]; [reflexivity|]. rewrite seq_S, map_app, rev_app_distr. cbn [map rev app nat_num z_num Nat.add].
    assert (F := Qfloor_Z (Z.of_nat m)). destruct (nat_num m) as [q|] eqn:Eq; [|discriminate]. assert (q = inject_Z (Z.of_nat m)) by (unfold nat_num, z_num in Eq; congruence). subst q. rewrite F. clear F Eq.
    cbv zeta. destruct (Z.ltb_spec (Z.of_nat m + 1) 0); [lia|]. f_equal. lia. }
  rewrite EX. cbn [bindR]. clear EX.
  destruct (holds_write s "idx" DLoc _ L (map nat_num (seq L n)) (i_idx s t I)) as (s1 & E1 & H1 & O1 & K1 & L1). rewrite E1. cbn [bindR].
  assert (FL : f_loc s1 = (L + n)%nat).
  { assert (X := L1 DLoc). cbn [dim_eqb dim_len] in X. rewrite X, map_length, seq_length, (i_loc s t I). fold L.
    destruct (map nat_num (seq L n)) eqn:Em; [|lia]. apply map_eq_nil in Em. destruct n; [lia|discriminate]. }
  assert (FO : f_obs s1 = f_obs s) by (exact (L1 DObs)).
  rewrite FL. replace (L + n - L)%nat with n by lia.
  assert (H2' : holds s1 "_row_size" DLoc (at_ (fun e => nat_num (List.length (fst e))) (t_series t))) by (eapply holds_view; [apply O1; discriminate|apply (i_rs s t I)]).
  destruct (holds_write s1 "_row_size" DLoc _ L (repeat (z_num 0) n) H2') as (s2 & E2 & H2 & O2 & K2 & L2). rewrite E2. cbn [bindR].
  assert (H3' : holds s2 "lon" DLoc (at_ (fun p => Some (fst (fst p))) (t_locs t))).
  { eapply holds_view; [rewrite O2 by discriminate; apply O1; discriminate|apply (i_lon s t I)]. }
  destruct (holds_write s2 "lon" DLoc _ L (map Some lons) H3') as (s3 & E3 & H3 & O3 & K3 & L3). rewrite E3. cbn [bindR].
  assert (H4' : holds s3 "lat" DLoc (at_ (fun p => Some (snd (fst p))) (t_locs t))).
  { eapply holds_view; [rewrite O3, O2 by discriminate; apply O1; discriminate|apply (i_lat s t I)]. }
  destruct (holds_write s3 "lat" DLoc _ L (map Some lats) H4') as (s4 & E4 & H4 & O4 & K4 & L4). rewrite E4. cbn [bindR].
  assert (DL : dim_len s4 DLoc = (L + n)%nat /\ dim_len s4 DObs = f_obs s).
  { split.
    - rewrite L4, L3, L2. cbn [dim_eqb dim_len]. rewrite FL, !map_length, repeat_length.
      assert (forall A (l : list A), List.length l = n -> (match l with [] => 0 | _ => L + n end = L + n)%nat) as Q by (intros A [|? ?] E; [cbn in E; lia|reflexivity]).
      rewrite LL. fold n. rewrite !(Q cell) by (rewrite ?map_length, ?repeat_length, ?LL; reflexivity). lia.
    - rewrite L4, L3, L2. cbn [dim_eqb dim_len]. exact FO. }
  assert (OV : forall m, ~ In m ["idx"; "_row_size"; "lon"; "lat"]%string -> view s4 m = view s m).
  { intros m Hm. cbn in Hm. rewrite O4, O3, O2, O1; [reflexivity| | | |]; intros ->; apply Hm; auto 6. }
  assert (KV : map fst (f_vars s4) = map fst (f_vars s)) by congruence.
  change (map (fun r => (var_name (fst r), snd r)) results) with nr.
  assert (RES : forall m, In m (map fst nr) -> ~ In m ["idx"; "_row_size"; "lon"; "lat"]%string).
  { intros m Hm C. apply (proj1 (NR m Hm)). cbn in *. tauto. }
  destruct (store_all_ok DLoc L n nr s4) as (s5 & E5 & V5 & O5 & K5 & L5).
  { exact ND. }
  { exact LR. }
  { intros m Hm V. rewrite OV in V by (apply RES, Hm). destruct (LATE m Hm) as [Hl|Hl]; [|unfold L; rewrite Hl; reflexivity].
    exfalso. destruct (i_l s t I m Hl) as (v & Ev & _). congruence. }
  { intros m v Hm V. rewrite OV in V by (apply RES, Hm).
    assert (Hk : In m (map fst (f_vars s))) by (apply view_in; congruence). apply (i_names s t I) in Hk. destruct (NR m Hm) as [N1 N2].
    destruct Hk as [Hk|[Hk|Hk]]; [contradiction| |contradiction]. destruct (i_l s t I m Hk) as (v' & Ev & D & _). congruence. }
  { destruct DL as [-> _]. lia. }
  rewrite E5. cbn [bindR].
  assert (V5' : forall m, ~ In m (map fst nr) -> view s5 m = view s4 m) by exact O5.
  assert (RV : forall m, In m reserved -> view s5 m = view s4 m) by (intros m Hm; apply V5'; intros C; exact (proj1 (NR m C) Hm)).
  assert (HI : holds s5 "idx" DLoc (splice L (map nat_num (seq L n)) (fun i => if (i <? L)%nat then nat_num i else None))).
  { eapply holds_view; [rewrite RV by (cbn; auto); rewrite O4, O3, O2 by discriminate; reflexivity|exact H1]. }
  assert (HI' : holds s5 "idx" DLoc (fun i => if (i <? L + n)%nat then nat_num i else None)).
  { eapply holds_ext; [|exact HI]. intros i. cbv beta. unfold splice. rewrite map_length, seq_length.
    destruct (Nat.leb_spec L i); cbn [andb].
    - destruct (Nat.ltb_spec i (L + n)); [|destruct (Nat.ltb_spec i L); [lia|reflexivity]].
      rewrite (nth_indep _ None (nat_num 0)) by (rewrite map_length, seq_length; lia). rewrite map_nth, seq_nth by lia. f_equal. lia.
    - destruct (Nat.ltb_spec i L); [|lia]. destruct (Nat.ltb_spec i (L + n)); [reflexivity|lia]. }
  exists s5. split.
  - destruct HI' as (v & Ev & Dv & Cv). unfold get_var. unfold view in Ev. rewrite Ev. cbn [mapR]. f_equal. f_equal.
    assert (CC : cells s5 v = map nat_num (seq 0 (L + n))).
    { unfold cells. rewrite Dv, L5. destruct DL as [-> _]. apply map_ext_in. intros i Hi. apply in_seq in Hi. rewrite Cv. destruct (Nat.ltb_spec i (L + n)); [reflexivity|lia]. }
    rewrite CC, seq_app, map_app. cbn [Nat.add].
    replace L with (List.length (map nat_num (seq 0 L))) at 1 by (rewrite map_length, seq_length; reflexivity). apply skipn_app_len.
  - assert (LP : List.length (map (point lons lats nr) (seq 0 n)) = n) by (rewrite map_length, seq_length; reflexivity).
    constructor; cbn [apply_call t_locs t_series t_lnames t_tnames]; fold nr n.
    + rewrite app_length, LP. fold L. rewrite <- (proj1 DL). exact (L5 DLoc).
    + rewrite !app_length, repeat_length, LP. rewrite (i_ser s t I). reflexivity.
    + unfold t_times. cbn [t_series]. rewrite map_app, concat_app, app_length.
      assert (X : List.concat (map fst (repeat (@nil Q, fun _ : string => @None (list cell)) n)) = []) by (clear; induction n; [reflexivity|exact IHn]).
      rewrite X. cbn [List.length]. rewrite Nat.add_0_r. fold (t_times t). rewrite <- (i_obs s t I), <- (proj2 DL). exact (L5 DObs).
    + rewrite K5, KV. apply new_names_nodup; [apply (i_nodup s t I)|exact ND].
    + intros m. rewrite K5, KV, !new_names_in, (i_names s t I). tauto.
    + intros m Hm. apply new_names_in in Hm as [Hm|Hm]; [exact (i_lres s t I m Hm)|exact (proj1 (NR m Hm))].
    + intros m Hm. destruct (i_tres s t I m Hm) as [N1 N2]. split; [exact N1|]. rewrite new_names_in. intros [C|C]; [contradiction|]. exact (proj2 (NR m C) Hm).
    + intros e m He. apply in_app_or in He as [He|He]; [exact (i_wf s t I e m He)|]. apply repeat_spec in He. subst e. reflexivity.
    + eapply holds_view; [rewrite RV by (cbn; auto); rewrite O4 by discriminate; reflexivity|].
      eapply holds_ext; [|exact H3]. intros i. cbv beta. rewrite <- (splice_at _ (t_locs t)). fold L. rewrite map_map. cbn [point fst].
      f_equal. rewrite <- (map_nth_seq lons) at 1. rewrite map_map. reflexivity.
    + eapply holds_view; [rewrite RV by (cbn; auto); reflexivity|].
      eapply holds_ext; [|exact H4]. intros i. cbv beta. rewrite <- (splice_at _ (t_locs t)). fold L. rewrite map_map. cbn [point fst snd].
      f_equal. rewrite <- (map_nth_seq lats) at 1. rewrite map_map, LL. reflexivity.
    + eapply holds_ext; [|exact HI']. intros i. cbv beta. rewrite app_length, LP. reflexivity.
    + eapply holds_view; [rewrite RV by (cbn; auto); rewrite O4, O3 by discriminate; reflexivity|].
      eapply holds_ext; [|exact H2]. intros i. cbv beta. rewrite <- (splice_at _ (t_series t)). rewrite (i_ser s t I). fold L.
      f_equal. clear. induction n; [reflexivity|]. cbn. rewrite IHn. reflexivity.
    + eapply holds_view; [rewrite RV by (cbn; auto 6); apply OV; cbn; intuition discriminate|].
      eapply holds_ext; [|exact (i_time s t I)]. intros i. cbv beta. unfold t_times. cbn [t_series]. rewrite map_app, concat_app.
      assert (X : List.concat (map fst (repeat (@nil Q, fun _ : string => @None (list cell)) n)) = []) by (clear; induction n; [reflexivity|exact IHn]).
      rewrite X, app_nil_r. reflexivity.
    + intros m Hm. destruct (in_dec string_dec m (map fst nr)) as [Hr|Hr].
      * apply in_map_iff in Hr as ([m' l] & Em & Hr). cbn in Em. subst m'. destruct (V5 m l Hr) as (v & Ev & Dv & Cv).
        assert (Hmr : In m (map fst nr)) by (apply in_map_iff; exists (m, l); auto).
        exists v. split; [exact Ev|]. split; [exact Dv|]. intros i. rewrite Cv. rewrite OV by (apply RES, Hmr).
        assert (EG : dict_get nr m = Some l) by (apply dict_get_in; assumption).
        rewrite <- (splice_at _ (t_locs t)). fold L. rewrite map_map.
        assert (EM : map (fun k => snd (point lons lats nr k) m) (seq 0 n) = l).
        { assert (Ll : List.length l = n) by exact (LR m l Hr). rewrite <- Ll. apply nth_ext with (d := None) (d' := None); [rewrite map_length, seq_length; reflexivity|].
          intros j Hj. rewrite map_length, seq_length in Hj.
          rewrite (nth_indep _ None (snd (point lons lats nr 0) m)) by (rewrite map_length, seq_length; exact Hj).
          rewrite (map_nth (fun k => snd (point lons lats nr k) m)), seq_nth by exact Hj. rewrite point_name, EG. reflexivity. }
        rewrite EM. destruct (LATE m Hmr) as [Hl|Hl].
        -- apply (spliced_splice L n l s m DLoc); [exact (LR m l Hr)|exact (i_l s t I m Hl)].
        -- unfold spliced, splice. rewrite (LR m l Hr). fold n. destruct ((L <=? i)%nat && (i <? L + n)%nat); [reflexivity|].
           rewrite Hl. unfold at_. rewrite (proj2 (nth_error_None _ _)) by (cbn; lia).
           destruct (view s m) as [v0|] eqn:E0; [|reflexivity].
           assert (Hk : In m (map fst (f_vars s))) by (apply view_in; congruence). apply (i_names s t I) in Hk. destruct (NR m Hmr) as [N1 N2].
           destruct Hk as [Hk|[Hk|Hk]]; [contradiction| |contradiction]. destruct (i_l s t I m Hk) as (v' & Ev' & _ & C'). 
           assert (v' = v0) by congruence. subst v'. rewrite C', Hl. unfold at_. rewrite (proj2 (nth_error_None _ _)) by (cbn; lia). reflexivity.
      * apply new_names_in in Hm as [Hm|Hm]; [|contradiction]. assert (Nm := i_lres s t I m Hm).
        eapply holds_view; [rewrite V5' by exact Hr; apply OV; intros C; apply Nm; cbn in *; tauto|].
        eapply holds_ext; [|exact (i_l s t I m Hm)]. intros i. rewrite at_app. rewrite LP. fold L.
        destruct (Nat.leb_spec L i); cbn [andb]; [|reflexivity]. destruct (Nat.ltb_spec i (L + n)); [|reflexivity].
        unfold at_. rewrite (proj2 (nth_error_None (t_locs t) _)) by (unfold L in *; lia).
        rewrite nth_error_nth' with (d := point lons lats nr 0) by (rewrite LP; lia). rewrite map_nth, seq_nth by lia. rewrite point_name.
        rewrite (proj2 (dict_get_none nr m) Hr). reflexivity.
    + intros m Hm. destruct (i_tres s t I m Hm) as [N1 N2].
      assert (Hr : ~ In m (map fst nr)) by (intros C; exact (proj2 (NR m C) Hm)).
      eapply holds_view; [rewrite V5' by exact Hr; apply OV; intros C; apply N1; cbn in *; tauto|].
      eapply holds_ext; [|exact (i_t s t I m Hm)]. intros i. cbv beta. unfold t_values. cbn [t_series]. rewrite map_app, concat_app.
      assert (X : List.concat (map (fun e => series_values e m) (repeat (@nil Q, fun _ : string => @None (list cell)) n)) = []) by (clear; induction n; [reflexivity|exact IHn]).
      rewrite X, app_nil_r. reflexivity.
Qed.

Lemma split_at {A} (l : list A) i : (i < List.length l)%nat -> exists e, l = firstn i l ++ e :: skipn (S i) l /\ nth_error l i = Some e.
Proof.
  revert i. induction l as [|x l IH]; intros [|i] H; cbn in *; try lia.
  - exists x. auto.
  - destruct (IH i) as (e & E & N); [lia|]. exists e. split; [f_equal; exact E|exact N].
Qed.
Lemma concat_lengths {A B} (f : A -> list B) (g : A -> nat) l : (forall a, In a l -> List.length (f a) = g a) -> List.length (List.concat (map f l)) = list_sum (map g l).
Proof.
  induction l as [|a l IH]; intros H; [reflexivity|]. cbn [map List.concat]. rewrite app_length, H by (left; reflexivity).
  rewrite IH by (intros; apply H; right; assumption). reflexivity.
Qed.
Lemma concat_nils {A B} (f : A -> list B) l : (forall a, In a l -> f a = []) -> List.concat (map f l) = [].
Proof. induction l as [|a l IH]; intros H; [reflexivity|]. cbn. rewrite H by (left; reflexivity). apply IH. intros; apply H; right; assumption. Qed.

Lemma step_ts s t idx times results : inv s t -> ok_call t (AddTs idx times results) ->
  exists s', add_ts_results s idx times results = Ok s' /\ inv s' (apply_call t (AddTs idx times results)).
Proof.
  intros I (HI & TL & LR & (ND & NR) & LATE).
  destruct (split_at _ _ HI) as (e0 & SP & NE0).
  assert (SK : skipn idx (t_series t) = e0 :: skipn (S idx) (t_series t)).
  { rewrite SP at 1. replace idx with (List.length (firstn idx (t_series t))) at 1 by (rewrite firstn_length; lia). apply skipn_app_len. }
  set (A := firstn idx (t_series t)) in *. set (B := skipn (S idx) (t_series t)) in *.
  assert (TB : forall e, In e (e0 :: B) -> fst e = []) by (intros e He; apply TL; rewrite SK; exact He).
  assert (LA : List.length A = idx) by (unfold A; rewrite firstn_length; lia).
  assert (VB : forall e n, In e (e0 :: B) -> series_values e n = []).
  { intros e n He. apply length_zero_iff_nil. rewrite (i_wf s t I e n); [rewrite TB by exact He; reflexivity|]. rewrite SP. apply in_or_app. right. exact He. }
  set (T := List.length (t_times t)).
  assert (TA : t_times t = List.concat (map fst A)).
  { unfold t_times. rewrite SP, map_app, concat_app. rewrite (concat_nils fst (e0 :: B)) by exact TB. apply app_nil_r. }
  assert (VA : forall n, t_values t n = List.concat (map (fun e => series_values e n) A)).
  { intros n. unfold t_values. rewrite SP, map_app, concat_app. rewrite (concat_nils _ (e0 :: B)) by (intros a Ha; apply VB, Ha). apply app_nil_r. }
  assert (VL : forall n, List.length (t_values t n) = T).
  { intros n. rewrite VA. unfold T. rewrite TA. rewrite (concat_lengths _ (fun e => List.length (fst e))), (concat_lengths fst (fun e => List.length (fst e))); [reflexivity|reflexivity|].
    intros a Ha. apply (i_wf s t I). rewrite SP. apply in_or_app. left. exact Ha. }
  unfold add_ts_results.
  destruct (cells_at s "_row_size" _ _ (i_rs s t I)) as (rs & Ers & Crs); [rewrite (i_ser s t I); apply (i_loc s t I)|].
  unfold get_var at 1. unfold view in Ers. rewrite Ers. cbn [bindR].
  assert (ST : cells_sum (firstn idx (cells s rs)) = T).
  { rewrite Crs, firstn_map. fold A. rewrite <- (map_map (fun e => List.length (fst e)) nat_num), sum_lengths.
    unfold T. rewrite TA. symmetry. apply concat_lengths. reflexivity. }
  rewrite ST. cbv zeta.
  destruct (holds_write s "time" DObs _ T (map Some times) (i_time s t I)) as (s1 & E1 & H1 & O1 & K1 & L1). rewrite E1. cbn [bindR].
  assert (H2' : holds s1 "_row_size" DLoc (at_ (fun e => nat_num (List.length (fst e))) (t_series t))) by (eapply holds_view; [apply O1; discriminate|apply (i_rs s t I)]).
  destruct (holds_write s1 "_row_size" DLoc _ idx [nat_num (List.length times)] H2') as (s2 & E2 & H2 & O2 & K2 & L2). rewrite E2. cbn [bindR].
  set (k := List.length times).
  assert (DO : dim_len s2 DObs = (T + k)%nat).
  { rewrite L2, L1. cbn [dim_eqb dim_len]. rewrite (i_obs s t I). fold T. rewrite map_length. fold k. destruct times; cbn in *; lia. }
  assert (DLo : dim_len s2 DLoc = f_loc s).
  { rewrite L2, L1. cbn [dim_eqb dim_len List.length]. rewrite (i_loc s t I). rewrite (i_ser s t I) in HI. lia. }
  assert (OV : forall m, m <> "time"%string -> m <> "_row_size"%string -> view s2 m = view s m) by (intros m N1 N2; rewrite O2, O1 by assumption; reflexivity).
  assert (RES : forall m, In m (map fst results) -> m <> "time"%string /\ m <> "_row_size"%string).
  { intros m Hm. split; intros ->; apply (proj1 (NR _ Hm)); cbn; auto 6. }
  destruct (store_all_ok DObs T k results s2) as (s5 & E5 & V5 & O5 & K5 & L5).
  { exact ND. }
  { exact LR. }
  { intros m Hm V. rewrite OV in V by (apply RES, Hm). destruct (LATE m Hm) as [Hl|Hl].
    - exfalso. destruct (i_t s t I m Hl) as (v & Ev & _). congruence.
    - unfold T, t_times. rewrite (concat_nils fst) by exact Hl. reflexivity. }
  { intros m v Hm V. rewrite OV in V by (apply RES, Hm).
    assert (Hk : In m (map fst (f_vars s))) by (apply view_in; congruence). apply (i_names s t I) in Hk. destruct (NR m Hm) as [N1 N2].
    destruct Hk as [Hk|[Hk|Hk]]; [contradiction|contradiction|]. destruct (i_t s t I m Hk) as (v' & Ev & D & _). congruence. }
  { rewrite DO. lia. }
  exists s5. split; [exact E5|].
  assert (RV : forall m, In m reserved -> view s5 m = view s2 m) by (intros m Hm; apply O5; intros C; exact (proj1 (NR m C) Hm)).
  set (new := (times, fun n => dict_get results n)).
  assert (WN : forall n, List.length (series_values new n) = k).
  { intros n. unfold series_values, new. cbn [fst snd]. destruct (dict_get results n) as [l|] eqn:E; [|apply repeat_length].
    apply (LR n). apply dict_get_in; assumption. }
  assert (KV : map fst (f_vars s2) = map fst (f_vars s)) by congruence.
  assert (TN : t_times (apply_call t (AddTs idx times results)) = t_times t ++ times).
  { unfold t_times at 1. cbn [apply_call t_series]. fold A B new. rewrite map_app, concat_app, TA. f_equal. cbn [map List.concat].
    rewrite (concat_nils fst B) by (intros a Ha; apply TB; right; exact Ha). unfold new. cbn [fst]. apply app_nil_r. }
  assert (VN : forall n, t_values (apply_call t (AddTs idx times results)) n = t_values t n ++ series_values new n).
  { intros n. unfold t_values at 1. cbn [apply_call t_series]. fold A B new. rewrite map_app, concat_app, VA. f_equal. cbn [map List.concat].
    rewrite (concat_nils (fun e => series_values e n) B) by (intros a Ha; apply VB; right; exact Ha). apply app_nil_r. }
  constructor; try rewrite TN; cbn [apply_call t_locs t_series t_lnames t_tnames]; fold A B new.
  - rewrite <- (i_loc s t I), <- DLo. exact (L5 DLoc).
  - rewrite <- (i_ser s t I). transitivity (List.length (A ++ e0 :: B)); [rewrite !app_length; reflexivity|rewrite <- SP; reflexivity].
  - rewrite app_length. fold T k. rewrite <- DO. exact (L5 DObs).
  - rewrite K5, KV. apply new_names_nodup; [apply (i_nodup s t I)|exact ND].
  - intros m. rewrite K5, KV, !new_names_in, (i_names s t I). tauto.
  - exact (i_lres s t I).
  - intros m Hm. apply new_names_in in Hm as [Hm|Hm]; [exact (i_tres s t I m Hm)|exact (NR m Hm)].
  - intros e m He. apply in_app_or in He as [He|[<-|He]].
    + apply (i_wf s t I). rewrite SP. apply in_or_app. left. exact He.
    + apply WN.
    + apply (i_wf s t I). rewrite SP. apply in_or_app. right. right. exact He.
  - eapply holds_view; [rewrite RV by (cbn; auto); apply OV; discriminate|exact (i_lon s t I)].
  - eapply holds_view; [rewrite RV by (cbn; auto); apply OV; discriminate|exact (i_lat s t I)].
  - eapply holds_view; [rewrite RV by (cbn; auto); apply OV; discriminate|exact (i_idx s t I)].
  - eapply holds_view; [rewrite RV by (cbn; auto); reflexivity|]. eapply holds_ext; [|exact H2]. intros i. cbv beta.
    rewrite SP. unfold splice. cbn [List.length]. rewrite !at_app. rewrite LA. cbn [List.length].
    clearbody A B. destruct (Nat.leb_spec idx i); cbn [andb]; [|reflexivity].
    destruct (Nat.ltb_spec i (idx + 1)).
    + assert (i = idx) by lia. subst i. destruct (Nat.ltb_spec idx (idx + S (List.length B))); [|lia]. rewrite Nat.sub_diag. reflexivity.
    + destruct (Nat.ltb_spec i (idx + S (List.length B))); [|reflexivity]. destruct (i - idx)%nat as [|j] eqn:Ej; [lia|]. reflexivity.
  - eapply holds_view; [rewrite RV by (cbn; auto 6); rewrite O2 by discriminate; reflexivity|]. eapply holds_ext; [|exact H1]. intros i. cbv beta.
    rewrite map_app. rewrite <- splice_append. rewrite map_length. reflexivity.
  - intros m Hm. assert (Nm := i_lres s t I m Hm).
    assert (Hr : ~ In m (map fst results)) by (intros C; exact (proj2 (NR m C) Hm)).
    eapply holds_view; [rewrite O5 by exact Hr; apply OV; intros ->; apply Nm; cbn; auto 6|]. exact (i_l s t I m Hm).
  - intros m Hm. eapply holds_ext; [intros i; rewrite VN; reflexivity|]. destruct (in_dec string_dec m (map fst results)) as [Hr|Hr].
    + apply in_map_iff in Hr as ([m' l] & Em & Hr). cbn in Em. subst m'. destruct (V5 m l Hr) as (v & Ev & Dv & Cv).
      assert (Hmr : In m (map fst results)) by (apply in_map_iff; exists (m, l); auto).
      exists v. split; [exact Ev|]. split; [exact Dv|]. intros i. rewrite Cv. rewrite OV by (apply RES, Hmr).
      assert (EG : dict_get results m = Some l) by (apply dict_get_in; assumption).
      assert (SV : series_values new m = l) by (unfold series_values, new; cbn [fst snd]; rewrite EG; reflexivity). rewrite SV, <- splice_append, VL.
      destruct (LATE m Hmr) as [Hl|Hl].
      * apply (spliced_splice T k l s m DObs); [exact (LR m l Hr)|exact (i_t s t I m Hl)].
      * unfold spliced, splice. rewrite (LR m l Hr). fold k. destruct ((T <=? i)%nat && (i <? T + k)%nat); [reflexivity|].
        assert (T0 : T = 0%nat) by (unfold T, t_times; rewrite (concat_nils fst) by exact Hl; reflexivity).
        rewrite nth_overflow by (rewrite VL; lia).
        destruct (view s m) as [v0|] eqn:E0; [|reflexivity].
        assert (Hk : In m (map fst (f_vars s))) by (apply view_in; congruence). apply (i_names s t I) in Hk. destruct (NR m Hmr) as [N1 N2].
        destruct Hk as [Hk|[Hk|Hk]]; [contradiction|contradiction|]. destruct (i_t s t I m Hk) as (v' & Ev' & _ & C').
        assert (v' = v0) by congruence. subst v'. rewrite C'. apply nth_overflow. rewrite VL. lia.
    + apply new_names_in in Hm as [Hm|Hm]; [|contradiction]. assert (Nm := i_tres s t I m Hm).
      eapply holds_view; [rewrite O5 by exact Hr; apply OV; intros ->; apply (proj1 Nm); cbn; auto 6|].
      eapply holds_ext; [|exact (i_t s t I m Hm)]. intros i. cbv beta.
      assert (SV : series_values new m = repeat None k) by (unfold series_values, new; cbn [fst snd]; rewrite (proj2 (dict_get_none results m) Hr); reflexivity).
      rewrite SV. destruct (Nat.ltb_spec i T) as [H|H].
      * rewrite app_nth1 by (rewrite VL; exact H). reflexivity.
      * rewrite app_nth2 by (rewrite VL; exact H). rewrite nth_overflow by (rewrite VL; exact H). symmetry. apply nth_repeat.
Qed.

Lemma step_ok s t c : inv s t -> ok_call t c -> exists s', exec s c = Ok s' /\ inv s' (apply_call t c).
Proof.
  intros I H. destruct c as [lons lats results|idx times results].
  - destruct (step_metrics s t lons lats results I H) as (s' & E & I'). exists s'. split; [|exact I']. unfold exec. rewrite E. reflexivity.
  - exact (step_ts s t idx times results I H).
Qed.
Lemma exec_all_ok h : forall s t, inv s t -> ok_history t h -> exists s', exec_all s h = Ok s' /\ inv s' (fold_left apply_call h t).
Proof.
  unfold exec_all. induction h as [|c h IH]; intros s t I H; cbn [fold_left]; [exists s; auto|]. destruct H as [H1 H2].
  destruct (step_ok s t c I H1) as (s1 & E1 & I1). cbn [bindR]. rewrite E1. exact (IH s1 _ I1 H2).
Qed.

(* ---- reading *)
Lemma vars_in s n v : NoDup (map fst (f_vars s)) -> (In (n, v) (f_vars s) <-> view s n = Some v).
Proof. intros N. unfold view. symmetry. apply dict_get_in. exact N. Qed.
Lemma special_reserved n : In n reserved -> is_special n = negb (String.eqb n "lon" || String.eqb n "lat").
Proof. intros H. cbn in H. repeat destruct H as [<-|H]; try reflexivity. contradiction. Qed.
Lemma not_special n : ~ In n reserved -> is_special n = false.
Proof.
  intros H. unfold is_special. destruct (existsb _ _) eqn:E; [|reflexivity]. apply existsb_str in E. exfalso. apply H. cbn in *. tauto.
Qed.
Lemma nth_cells s n f dm i : holds s n dm f -> exists v, view s n = Some v /\ v_dim v = dm /\ ((i < dim_len s dm)%nat -> nth i (cells s v) None = f i).
Proof.
  intros (v & E & D & C). exists v. split; [exact E|]. split; [exact D|]. intros H. unfold cells. rewrite D.
  rewrite (nth_indep _ None (nth 0 (v_data v) None)) by (rewrite map_length, seq_length; exact H).
  rewrite (map_nth (fun i => nth i (v_data v) None)), seq_nth by exact H. apply C.
Qed.

Lemma read_loc_ok s t i p : inv s t -> nth_error (t_locs t) i = Some p ->
  exists fields, read_loc s i = Ok fields /\ NoDup (map fst fields) /\
    forall n c, In (n, c) fields <-> (n = "lon"%string /\ c = Some (fst (fst p))) \/ (n = "lat"%string /\ c = Some (snd (fst p))) \/ (In n (t_lnames t) /\ c = snd p n).
Proof.
  intros I Hp. assert (Hi : (i < f_loc s)%nat) by (rewrite (i_loc s t I); apply nth_error_Some; congruence).
  unfold read_loc. destruct (Nat.leb_spec (f_loc s) i) as [HX|_]; [lia|]. eexists. split; [reflexivity|]. split.
  - rewrite map_map. cbn [fst]. assert (X := i_nodup s t I). clear -X. induction (f_vars s) as [|a l IH]; [constructor|]. cbn in *.
    apply NoDup_cons_iff in X as [X1 X2]. destruct (_ && _); [|apply IH, X2]. cbn. constructor; [|apply IH, X2].
    intros C. apply X1. apply in_map_iff in C as (y & E & C). apply filter_In in C as [C _]. apply in_map_iff. exists y. auto.
  - assert (GL : forall n f, holds s n DLoc f -> exists v, view s n = Some v /\ v_dim v = DLoc /\ nth i (cells s v) None = f i).
    { intros n f Hh. destruct (nth_cells s n f DLoc i Hh) as (v & E & D & C). exists v. auto. }
    intros n c. rewrite in_map_iff. split.
    + intros ([n' v] & E & Hin). injection E as -> Ec. cbn [fst snd] in Ec. apply filter_In in Hin as [Hin Hf]. cbn [fst snd] in Hf.
      apply andb_true_iff in Hf as [Hs Hd]. apply negb_true_iff in Hs.
      assert (V : view s n = Some v) by (apply vars_in; [apply (i_nodup s t I)|exact Hin]).
      assert (Hn : In n (map fst (f_vars s))) by (apply in_map_iff; exists (n, v); auto). apply (i_names s t I) in Hn. destruct Hn as [Hn|[Hn|Hn]].
      * rewrite special_reserved in Hs by exact Hn. apply negb_false_iff, orb_true_iff in Hs. rewrite !String.eqb_eq in Hs. destruct Hs as [-> | ->].
        -- left. split; [reflexivity|]. destruct (GL _ _ (i_lon s t I)) as (v' & E' & _ & C'). assert (v' = v) by congruence. subst v'.
           rewrite <- Ec, C'. unfold at_. rewrite Hp. reflexivity.
        -- right. left. split; [reflexivity|]. destruct (GL _ _ (i_lat s t I)) as (v' & E' & _ & C'). assert (v' = v) by congruence. subst v'.
           rewrite <- Ec, C'. unfold at_. rewrite Hp. reflexivity.
      * right. right. split; [exact Hn|]. destruct (GL _ _ (i_l s t I n Hn)) as (v' & E' & _ & C'). assert (v' = v) by congruence. subst v'.
        rewrite <- Ec, C'. unfold at_. rewrite Hp. reflexivity.
      * destruct (i_t s t I n Hn) as (v' & E' & D' & _). assert (v' = v) by congruence. subst v'. rewrite D' in Hd. discriminate.
    + assert (GO : forall f, holds s n DLoc f -> is_special n = false -> f i = c -> exists x, (fst x, nth i (cells s (snd x)) None) = (n, c) /\
         In x (filter (fun nv => negb (is_special (fst nv)) && dim_eqb (v_dim (snd nv)) DLoc) (f_vars s))).
      { intros f H Hs Ef. destruct (GL n f H) as (v & V & D & C). exists (n, v). cbn [fst snd]. rewrite C, Ef. split; [reflexivity|].
        apply filter_In. split; [apply vars_in; [apply (i_nodup s t I)|exact V]|]. cbn [fst snd]. rewrite Hs, D. reflexivity. }
      intros [(-> & ->)|[(-> & ->)|(Hn & ->)]].
      * apply (GO _ (i_lon s t I) eq_refl). unfold at_. rewrite Hp. reflexivity.
      * apply (GO _ (i_lat s t I) eq_refl). unfold at_. rewrite Hp. reflexivity.
      * apply (GO _ (i_l s t I n Hn)); [apply not_special, (i_lres s t I n Hn)|]. unfold at_. rewrite Hp. reflexivity.
Qed.
Lemma skipn_plus {A} (a b : nat) (l : list A) : skipn (a + b) l = skipn b (skipn a l).
Proof. revert l. induction a as [|a IH]; intros l; [reflexivity|]. destruct l as [|x l]; [cbn; rewrite skipn_nil; reflexivity|]. apply IH. Qed.
Lemma segment {A B} (f : A -> list B) (g : A -> nat) l i e : nth_error l i = Some e -> (forall a, In a l -> List.length (f a) = g a) ->
  firstn (g e) (skipn (list_sum (map g (firstn i l))) (List.concat (map f l))) = f e.
Proof.
  revert i. induction l as [|a l IH]; intros [|i] E H; cbn in E; try discriminate.
  - injection E as ->. cbn [firstn map list_sum skipn List.concat fold_right]. rewrite <- (H e) by (left; reflexivity). apply firstn_app_len.
  - cbn [firstn map List.concat]. change (list_sum (g a :: map g (firstn i l))) with (g a + list_sum (map g (firstn i l)))%nat.
    rewrite <- (H a) by (left; reflexivity). rewrite skipn_plus, skipn_app_len. apply IH; [exact E|]. intros; apply H; right; assumption.
Qed.

Lemma read_ts_ok s t i e : inv s t -> nth_error (t_series t) i = Some e -> t_tnames t <> [] ->
  exists cols, read_ts s i = Ok (map Some (fst e), cols) /\ NoDup (map fst cols) /\
    forall n l, In (n, l) cols <-> In n (t_tnames t) /\ l = series_values e n.
Proof.
  intros I He TN. unfold read_ts.
  destruct (cells_at s "_row_size" _ _ (i_rs s t I)) as (rs & Ers & Crs); [rewrite (i_ser s t I); apply (i_loc s t I)|].
  unfold get_var at 1. unfold view in Ers. rewrite Ers. cbn [bindR]. rewrite Crs.
  rewrite (map_nth_error (fun e => nat_num (List.length (fst e))) i (t_series t) He).
  assert (CI : cell_index (nat_num (List.length (fst e))) = Ok (List.length (fst e))).
  { unfold cell_index, nat_num, z_num. rewrite Qfloor_Z, Nat2Z.id. reflexivity. }
  rewrite CI. cbn [bindR]. cbv zeta.
  assert (ST : cells_sum (firstn i (map (fun e => nat_num (List.length (fst e))) (t_series t))) = list_sum (map (fun e => List.length (fst e)) (firstn i (t_series t)))).
  { rewrite firstn_map. rewrite <- (map_map (fun e => List.length (fst e)) nat_num), sum_lengths. reflexivity. }
  rewrite ST.
  assert (VL : forall n, List.length (t_values t n) = List.length (t_times t)).
  { intros n. unfold t_values, t_times. rewrite (concat_lengths _ (fun e => List.length (fst e))), (concat_lengths fst (fun e => List.length (fst e))); [reflexivity|reflexivity|].
    intros a Ha. apply (i_wf s t I a n Ha). }
  assert (CE : forall n l, holds s n DObs (fun i => nth i l None) -> List.length l = List.length (t_times t) -> exists v, view s n = Some v /\ v_dim v = DObs /\ cells s v = l).
  { intros n l (v & E & D & C) Hl. exists v. split; [exact E|]. split; [exact D|]. unfold cells. rewrite D. cbn [dim_len]. rewrite (i_obs s t I).
    apply nth_ext with (d := None) (d' := None); [rewrite map_length, seq_length; symmetry; exact Hl|].
    intros j Hj. rewrite map_length, seq_length in Hj.
    rewrite (nth_indep _ None (nth 0 (v_data v) None)) by (rewrite map_length, seq_length; exact Hj).
    rewrite (map_nth (fun i => nth i (v_data v) None)), seq_nth by exact Hj. apply C. }
  set (vars := filter _ (f_vars s)).
  assert (IV : forall n v, In (n, v) vars <-> In n (t_tnames t) /\ view s n = Some v).
  { intros n v. unfold vars. rewrite filter_In. cbn [fst snd]. rewrite (vars_in s n v (i_nodup s t I)). split.
    - intros (V & Hf). apply andb_true_iff in Hf as [Hs Hd]. apply negb_true_iff in Hs. split; [|exact V].
      assert (Hn : In n (map fst (f_vars s))) by (apply view_in; congruence). apply (i_names s t I) in Hn. destruct Hn as [Hn|[Hn|Hn]]; [| |exact Hn]; exfalso.
      + rewrite special_reserved in Hs by exact Hn. apply negb_false_iff, orb_true_iff in Hs. rewrite !String.eqb_eq in Hs. destruct Hs as [-> | ->].
        * destruct (i_lon s t I) as (v' & E' & D' & _). assert (v' = v) by congruence. subst v'. rewrite D' in Hd. discriminate.
        * destruct (i_lat s t I) as (v' & E' & D' & _). assert (v' = v) by congruence. subst v'. rewrite D' in Hd. discriminate.
      + destruct (i_l s t I n Hn) as (v' & E' & D' & _). assert (v' = v) by congruence. subst v'. rewrite D' in Hd. discriminate.
    - intros (Hn & V). split; [exact V|]. rewrite not_special by (apply (i_tres s t I n Hn)). destruct (i_t s t I n Hn) as (v' & E' & D' & _). assert (v' = v) by congruence.
      subst v'. rewrite D'. reflexivity. }
  destruct (Nat.eqb_spec (List.length vars) 0) as [E0|_].
  { exfalso. destruct (t_tnames t) as [|n r] eqn:En; [contradiction|]. assert (Hn : In n (t_tnames t)) by (rewrite En; left; reflexivity).
    destruct (i_t s t I n Hn) as (v & V & _). assert (X : In (n, v) vars) by (apply IV; split; [left; reflexivity|exact V]).
    apply length_zero_iff_nil in E0. rewrite E0 in X. contradiction. }
  destruct (CE "time"%string (map Some (t_times t)) (i_time s t I)) as (vt & Et & Dt & Ct); [apply map_length|].
  unfold get_var. unfold view in Et. rewrite Et. cbn [bindR]. rewrite Ct.
  eexists. split; [f_equal; f_equal|split].
  - unfold t_times. rewrite skipn_map, firstn_map. f_equal.
    apply (segment fst (fun e => List.length (fst e)) (t_series t) i e He). reflexivity.
  - rewrite map_map. cbn [fst]. assert (X := i_nodup s t I). unfold vars. clear -X. induction (f_vars s) as [|a l IH]; [constructor|]. cbn in *.
    apply NoDup_cons_iff in X as [X1 X2]. destruct (_ && _); [|apply IH, X2]. cbn. constructor; [|apply IH, X2].
    intros C. apply X1. apply in_map_iff in C as (y & E & C). apply filter_In in C as [C _]. apply in_map_iff. exists y. auto.
  - assert (SEG : forall n v, In n (t_tnames t) -> view s n = Some v ->
       firstn (List.length (fst e)) (skipn (list_sum (map (fun e => List.length (fst e)) (firstn i (t_series t)))) (cells s v)) = series_values e n).
    { intros n v Hn V. destruct (CE n (t_values t n) (i_t s t I n Hn) (VL n)) as (v' & E' & _ & C'). assert (v' = v) by congruence. subst v'. rewrite C'.
      apply (segment (fun e => series_values e n) (fun e => List.length (fst e)) (t_series t) i e He). intros a Ha. apply (i_wf s t I a n Ha). }
    intros n l. rewrite in_map_iff. split.
    + intros ([n' v] & E & Hin). injection E as -> El. apply IV in Hin as [Hn V]. split; [exact Hn|]. rewrite <- El. apply SEG; assumption.
    + intros (Hn & ->). destruct (i_t s t I n Hn) as (v & V & _). exists (n, v). cbn [fst snd]. split; [f_equal; apply SEG; assumption|]. apply IV. auto.
Qed.
