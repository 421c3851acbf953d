(* Proofs about AdaptersModel: TimestampAdapter and the anomaly adapters. *)
From Verif Require Export AdaptersProofs.
From Verif Require Import BaseProofs.
Open Scope Z_scope.

(* the time computed by the code: base time plus offsets rounded down to seconds one by one *)
Definition code_time (o : ts_opts) (base_unit : Z) (cols : list string) (offsets : list (string * Z)) (r : cell * list cell) : Q :=
  let b := base_ns o base_unit (match base_of o cols r with Some b => b | None => 0%Q end) in
  match to_fields o with
  | None => b
  | Some _ => (b + inject_Z (zsum (map (offset_s cols (snd r)) offsets) * second_ns))%Q
  end.

Lemma timestamp_general o (t : tab cell) offsets k : wf t -> tcols t <> [] -> offsets_of o (tcols t) offsets -> base_unit_of o k -> base_present o (tcols t) ->
  to_replace o = true -> filter (has_base o (tcols t)) (trows t) <> [] ->
  timestamp_adapter o (Some t) =
    Ok (loc_index (mkTab (remaining o (tcols t))
       (map (fun r => (Some (code_time o k (tcols t) offsets r), map (value (tcols t) (snd r)) (remaining o (tcols t))))
            (filter (has_base o (tcols t)) (trows t))))).
Proof.
  intros W NC OF BU BP RP NE. unfold timestamp_adapter. cbn [basic].
  assert (B : match to_base o with Some f => column t f | None => Ok (map fst (trows t)) end = Ok (map (base_of o (tcols t)) (trows t))).
  { unfold base_of, base_present in *. destruct (to_base o) as [f|]; [apply column_ok; exact BP|reflexivity]. }
  rewrite B. cbn [bindR]. unfold keep_rows. rewrite map_map, mask_select_map_filter. cbn [tcols trows].
  change (filter (fun x => notna (base_of o (tcols t) x)) (trows t)) with (filter (has_base o (tcols t)) (trows t)).
  rewrite vals_map. change (filter (fun a => notna (base_of o (tcols t) a)) (trows t)) with (filter (has_base o (tcols t)) (trows t)).
  set (kept := filter (has_base o (tcols t)) (trows t)) in *.
  assert (X : match kept with [] => true | _ => false end || match tcols t with [] => true | _ => false end = false).
  { destruct kept; [contradiction|]. destruct (tcols t); [contradiction|reflexivity]. }
  rewrite X. clear X.
  set (bq := fun r => match base_of o (tcols t) r with Some x => x | None => 0%Q end).
  assert (B2 : match to_reference o with None => Ok (map bq kept) | Some r => mapR (fun k => convert_generic r k (map bq kept)) (unit_of (to_base_units o)) end
               = Ok (map (fun r => base_ns o k (bq r)) kept)).
  { unfold base_ns, base_unit_of in *. destruct (to_reference o) as [rf|]; [|reflexivity]. destruct BU as [BU|BU]; [discriminate|].
    unfold unit_of. rewrite BU. cbn [mapR]. unfold convert_generic. rewrite map_map. reflexivity. }
  rewrite B2. cbn [bindR].
  assert (WK : wf (mkTab (tcols t) kept)).
  { destruct W as [N L]. split; [exact N|]. cbn. intros r Hr. apply L. apply filter_In in Hr. tauto. }
  assert (B3 : match to_fields o with None => Ok (map (fun r => base_ns o k (bq r)) kept)
      | Some fields => mapR (fun off => map2 (fun b s => (b + inject_Z (s * second_ns))%Q) (map (fun r => base_ns o k (bq r)) kept) off) (add_offset fields (to_units o) (mkTab (tcols t) kept)) end
      = Ok (map (code_time o k (tcols t) offsets) kept)).
  { unfold code_time, offsets_of in *. destruct (to_fields o) as [fields|]; [|reflexivity]. destruct OF as (ks & U & L & -> & P).
    rewrite (add_offset_ok (mkTab (tcols t) kept) fields (to_units o) ks U P). cbn [mapR tcols trows]. rewrite map2_map. reflexivity. }
  rewrite B3. cbn [bindR]. rewrite RP. rewrite map2_map_r.
  set (t1 := mkTab (tcols t) (map (fun a => (Some (code_time o k (tcols t) offsets a), snd a)) kept)).
  assert (W1 : wf t1).
  { destruct WK as [N L]. split; [exact N|]. cbn. intros r Hr. apply in_map_iff in Hr as (a & <- & Ha). cbn. apply (L a Ha). }
  assert (R : forall p, restrict t1 p = mkTab (filter p (tcols t)) (map (fun r => (Some (code_time o k (tcols t) offsets r), map (value (tcols t) (snd r)) (filter p (tcols t)))) kept)).
  { intros p. unfold restrict, t1. cbn [tcols trows]. rewrite map_map. reflexivity. }
  unfold remaining. destruct (to_drop o).
  - assert (D : match to_fields o with None => Ok t1 | Some l => drop_columns t1 l end =
      Ok (restrict t1 (fun n => negb (existsb (String.eqb n) match to_fields o with Some l => l | None => [] end)))).
    { unfold offsets_of in OF. destruct (to_fields o) as [fields|].
      - destruct OF as (ks & _ & _ & _ & P). unfold drop_columns. rewrite drop_list_restrict by exact W1.
        assert (FB : forallb (fun n => existsb (String.eqb n) (tcols t1)) fields = true).
        { apply forallb_forall. intros n Hn. apply existsb_exists. exists n. split; [apply P; exact Hn|apply String.eqb_refl]. }
        rewrite FB. reflexivity.
      - f_equal. symmetry. cbn. apply restrict_all. exact W1. }
    rewrite D. cbn [bindR]. f_equal. f_equal. rewrite <- R. destruct (to_base o) as [f|].
    + rewrite drop_restrict by (apply restrict_wf; exact W1). rewrite restrict_restrict by exact W1. apply restrict_ext. intros n _. apply andb_comm.
    + apply restrict_ext. intros n _. rewrite andb_true_r. reflexivity.
  - cbn [bindR]. f_equal. f_equal. rewrite <- (restrict_all t1 W1). rewrite R. rewrite filter_all by reflexivity. reflexivity.
Qed.

Lemma zsum_div l : (forall x, In x l -> (second_ns | x)) -> zsum (map (fun x => x / second_ns) l) * second_ns = zsum l.
Proof.
  induction l as [|x l IH]; intros H; [reflexivity|]. change (zsum (x :: l)) with (x + zsum l). cbn [map].
  change (zsum (x / second_ns :: map (fun x => x / second_ns) l)) with (x / second_ns + zsum (map (fun x => x / second_ns) l)).
  rewrite Z.mul_add_distr_r, <- IH by (intros; apply H; right; assumption). f_equal.
  destruct (H x) as [q ->]; [left; reflexivity|]. rewrite Z.div_mul by (unfold second_ns; lia). reflexivity.
Qed.
Lemma code_time_exact o k cols offsets r :
  (to_fields o = None -> offsets = []) -> (forall fk, In fk offsets -> (second_ns | offset_ns cols (snd r) fk)) -> (code_time o k cols offsets r == exact_time o k cols offsets r)%Q.
Proof.
  intros NF H. unfold code_time, exact_time. destruct (to_fields o).
  - assert (E : zsum (map (offset_s cols (snd r)) offsets) * second_ns = zsum (map (offset_ns cols (snd r)) offsets)).
    { rewrite <- (zsum_div (map (offset_ns cols (snd r)) offsets)); [rewrite map_map; reflexivity|]. intros x Hx. apply in_map_iff in Hx as (fk & <- & Hf). apply H. exact Hf. }
    rewrite E. reflexivity.
  - rewrite (NF eq_refl). cbn [map zsum fold_right]. rewrite Qplus_0_r. reflexivity.
Qed.

(* the floor of each offset loses less than a second per field, and never adds *)
Lemma zsum_floor l : zsum l - Z.of_nat (List.length l) * second_ns <= zsum (map (fun x => x / second_ns) l) * second_ns <= zsum l.
Proof.
  induction l as [|x l IH]; [cbn; lia|]. change (zsum (x :: l)) with (x + zsum l). cbn [map List.length].
  change (zsum (x / second_ns :: map (fun x => x / second_ns) l)) with (x / second_ns + zsum (map (fun x => x / second_ns) l)).
  pose proof (Z.div_mod x second_ns ltac:(unfold second_ns; lia)). pose proof (Z.mod_pos_bound x second_ns ltac:(unfold second_ns; lia)). unfold second_ns in *. lia.
Qed.

(* ---- anomaly adapters *)
Lemma set_cell_values cols r n v : NoDup cols -> List.length r = List.length cols -> forall k, position n cols = Some k ->
  set_cell k v r = map (fun m => if String.eqb m n then v else value cols r m) cols.
Proof.
  revert r. induction cols as [|x cols IH]; intros [|y r] N L k H; cbn in L; try discriminate. apply NoDup_cons_iff in N as [N1 N2]. cbn in H.
  destruct (String.eqb_spec x n) as [->|NX].
  - injection H as <-. cbn [set_cell map]. rewrite String.eqb_refl. f_equal. rewrite <- (values_self cols r N2) at 1 by lia. apply map_ext_in. intros m Hm.
    destruct (String.eqb_spec m n); [subst; contradiction|]. symmetry. apply value_cons_ne. assumption.
  - destruct (position n cols) as [j|] eqn:E; [|discriminate]. injection H as <-. cbn [set_cell map].
    destruct (String.eqb_spec x n); [contradiction|]. f_equal; [unfold value; cbn; rewrite String.eqb_refl; reflexivity|].
    rewrite (IH r N2) by (try lia; reflexivity). apply map_ext_in. intros m Hm. destruct (String.eqb m n); [reflexivity|]. symmetry. apply value_cons_ne. intros ->. contradiction.
Qed.
Lemma nth_map2 {A B C} (f : A -> B -> C) l m d da db k : (k < List.length l)%nat -> List.length l = List.length m -> nth k (map2 f l m) d = f (nth k l da) (nth k m db).
Proof. revert m k. induction l as [|a l IH]; intros [|b m] k H L; cbn in *; try lia. destruct k; [reflexivity|]. apply IH; lia. Qed.
Lemma map2_len {A B C} (f : A -> B -> C) l : forall m, List.length l = List.length m -> List.length (map2 f l m) = List.length l.
Proof. induction l as [|a l IH]; intros [|b m] H; cbn in *; try lia. rewrite IH by lia. reflexivity. Qed.
Lemma map_map2 {A B C D} (g : C -> D) (f : A -> B -> C) l : forall m, map g (map2 f l m) = map2 (fun a b => g (f a b)) l m.
Proof. induction l as [|a l IH]; intros [|b m]; cbn; [reflexivity..|]. rewrite IH. reflexivity. Qed.
Lemma map2_fst {A B C} (g : A -> C) (l : list A) : forall (m : list B), List.length l = List.length m -> map2 (fun a _ => g a) l m = map g l.
Proof. induction l as [|a l IH]; intros [|b m] H; cbn in *; try lia; [reflexivity|]. rewrite IH by lia. reflexivity. Qed.
Lemma map2_snd {A B} (l : list A) : forall (m : list B), List.length l = List.length m -> map2 (fun _ b => b) l m = m.
Proof. induction l as [|a l IH]; intros [|b m] H; cbn in *; try lia; [reflexivity|]. rewrite IH by lia. reflexivity. Qed.

Lemma nth_set_cell_eq k v : forall r, (k < List.length r)%nat -> nth k (set_cell k v r) None = v.
Proof. induction k as [|k IH]; intros [|x r] H; cbn in *; try lia; [reflexivity|]. apply IH. lia. Qed.
Lemma nth_set_cell_ne k j v : forall r, (k < List.length r)%nat -> j <> k -> nth j (set_cell k v r) None = nth j r None.
Proof.
  revert j. induction k as [|k IH]; intros j [|x r] H NE; cbn in *; try lia; destruct j; try lia; try reflexivity. apply IH; lia.
Qed.
Lemma position_lt n l k : position n l = Some k -> (k < List.length l)%nat.
Proof. revert k. induction l as [|x l IH]; intros k H; cbn in *; [discriminate|]. destruct (String.eqb x n); [injection H as <-; lia|]. destruct (position n l); [|discriminate]. injection H as <-. specialize (IH n0 eq_refl). lia. Qed.
Lemma position_inj a b l k : position a l = Some k -> position b l = Some k -> a = b.
Proof.
  revert k. induction l as [|x l IH]; intros k H1 H2; cbn in *; [discriminate|].
  destruct (String.eqb_spec x a), (String.eqb_spec x b); try congruence.
  - injection H1 as <-. destruct (position b l); discriminate.
  - injection H2 as <-. destruct (position a l); discriminate.
  - destruct (position a l) as [i|]; [|discriminate]. destruct (position b l) as [j|]; [|discriminate]. cbn in *. apply (IH i); congruence.
Qed.
(* columns of a frame after an assignment *)
Lemma column_assign {I} (t : tab I) n v m : wf t -> List.length v = List.length (trows t) ->
  column (assign t n v) m = if String.eqb m n then Ok v else column t m.
Proof.
  intros [N L] LV. unfold assign, column. destruct (position n (tcols t)) as [k|] eqn:E; cbn [tcols trows].
  - destruct (String.eqb_spec m n) as [->|NE].
    + rewrite E. f_equal. rewrite map_map2. cbn [snd].
      assert (Q : map2 (fun (a : I * list cell) b => nth k (set_cell k b (snd a)) None) (trows t) v = map2 (fun _ b => b) (trows t) v).
      { clear -L E LV. apply position_lt in E. revert v LV. induction (trows t) as [|r rows IH]; intros [|b v] LV; cbn in *; try lia; [reflexivity|].
        rewrite nth_set_cell_eq by (rewrite L by (left; reflexivity); exact E). f_equal. apply IH; [intros; apply L; right; assumption|lia]. }
      refine (eq_trans Q _). apply map2_snd. symmetry. exact LV.
    + destruct (position m (tcols t)) as [j|] eqn:Ej; [|reflexivity]. f_equal. rewrite map_map2. cbn [snd].
      assert (Q : map2 (fun (a : I * list cell) b => nth j (set_cell k b (snd a)) None) (trows t) v = map2 (fun a _ => nth j (snd a) None) (trows t) v).
      { assert (JK : j <> k) by (intros ->; apply NE; exact (position_inj _ _ _ _ Ej E)).
        clear -L E LV JK. apply position_lt in E. revert v LV. induction (trows t) as [|r rows IH]; intros [|b v] LV; cbn in *; try lia; [reflexivity|].
        rewrite nth_set_cell_ne by (try exact JK; rewrite L by (left; reflexivity); exact E). f_equal. apply IH; [intros; apply L; right; assumption|lia]. }
      refine (eq_trans Q _). apply (map2_fst (fun a : I * list cell => nth j (snd a) None)). symmetry. exact LV.
  - destruct (String.eqb_spec m n) as [->|NE].
    + rewrite (position_app_none _ _ _ E). cbn [position]. rewrite String.eqb_refl. cbn [option_map]. f_equal. rewrite map_map2. cbn [snd].
      assert (Q : map2 (fun (a : I * list cell) b => nth (List.length (tcols t) + 0) (snd a ++ [b]) None) (trows t) v = map2 (fun _ b => b) (trows t) v).
      { clear -L LV. revert v LV. induction (trows t) as [|r rows IH]; intros [|b v] LV; cbn in *; try lia; [reflexivity|].
        f_equal; [|apply IH; [intros; apply L; right; assumption|lia]]. rewrite app_nth2 by (rewrite (L r) by (left; reflexivity); lia). rewrite (L r) by (left; reflexivity).
        replace (List.length (tcols t) + 0 - List.length (tcols t))%nat with 0%nat by lia. reflexivity. }
      refine (eq_trans Q _). apply map2_snd. symmetry. exact LV.
    + destruct (position m (tcols t)) as [j|] eqn:Ej.
      * assert (P : position m (tcols t ++ [n]) = Some j).
        { clear -Ej. revert j Ej. induction (tcols t) as [|x l IH]; intros j Ej; cbn in *; [discriminate|]. destruct (String.eqb x m); [exact Ej|].
          destruct (position m l) as [i|]; [|discriminate]. rewrite (IH i eq_refl). exact Ej. }
        rewrite P. f_equal. rewrite map_map2. cbn [snd].
        assert (Q : map2 (fun (a : I * list cell) b => nth j (snd a ++ [b]) None) (trows t) v = map2 (fun a _ => nth j (snd a) None) (trows t) v).
        { clear -L LV Ej. apply position_lt in Ej. revert v LV. induction (trows t) as [|r rows IH]; intros [|b v] LV; cbn in *; try lia; [reflexivity|].
          f_equal; [|apply IH; [intros; apply L; right; assumption|lia]]. rewrite app_nth1 by (rewrite (L r) by (left; reflexivity); lia). reflexivity. }
        refine (eq_trans Q _). apply (map2_fst (fun a : I * list cell => nth j (snd a) None)). symmetry. exact LV.
      * rewrite (position_app_none _ _ _ Ej). cbn [position]. destruct (String.eqb_spec n m); [congruence|]. reflexivity.
Qed.
Lemma assign_wf {I} (t : tab I) n v : wf t -> List.length v = List.length (trows t) -> wf (assign t n v).
Proof.
  intros [N L] LV. unfold assign. destruct (position n (tcols t)) as [k|] eqn:E; (split; cbn [tcols trows]).
  - exact N.
  - intros r Hr. apply position_lt in E. revert v LV Hr. induction (trows t) as [|a rows IH]; intros [|b v] LV Hr; cbn in *; try lia; try contradiction.
    destruct Hr as [<-|Hr]; [cbn|apply (IH (fun r X => L r (or_intror X)) v); [lia|exact Hr]].
    assert (S1 : forall k b l, (k < List.length l)%nat -> List.length (set_cell k b l) = List.length l).
    { clear. induction k as [|k IH]; intros b [|x l] H; cbn in *; try lia. rewrite IH by lia. reflexivity. }
    rewrite S1; apply L || rewrite (L a) by (left; reflexivity); try (left; reflexivity). exact E.
  - apply NoDup_rev in N. rewrite <- (rev_involutive (tcols t ++ [n])). apply NoDup_rev. rewrite rev_app_distr. cbn. constructor; [|exact N].
    intros X. apply in_rev in X. apply position_in in X as [k X]. congruence.
  - intros r Hr. rewrite app_length. cbn. revert v LV Hr. induction (trows t) as [|a rows IH]; intros [|b v] LV Hr; cbn in *; try lia; try contradiction.
    destruct Hr as [<-|Hr]; [cbn; rewrite app_length; cbn; rewrite (L a) by (left; reflexivity); reflexivity|]. apply (IH (fun r X => L r (or_intror X)) v); [lia|exact Hr].
Qed.
Lemma assign_index {I} (t : tab I) n v : List.length v = List.length (trows t) -> map fst (trows (assign t n v)) = map fst (trows t).
Proof.
  intros LV. unfold assign. destruct (position n (tcols t)); cbn [trows]; rewrite map_map2; cbn [fst]; apply map2_fst; symmetry; exact LV.
Qed.
Lemma assign_rows_length {I} (t : tab I) n v : List.length v = List.length (trows t) -> List.length (trows (assign t n v)) = List.length (trows t).
Proof. intros LV. unfold assign. destruct (position n (tcols t)); cbn [trows]; apply map2_len; symmetry; exact LV. Qed.
Lemma assign_cols_in {I} (t : tab I) n v : In n (tcols t) -> tcols (assign t n v) = tcols t.
Proof. intros H. apply position_in in H as [k H]. unfold assign. rewrite H. reflexivity. Qed.

Section Anomaly.
Context {I : Type}.
Variable anomaly : list (I * cell) -> list cell.
Hypothesis anomaly_length : forall s, List.length (anomaly s) = List.length s.
Lemma series_length (t : tab I) v n : column t n = Ok v -> List.length (series t v) = List.length (trows t).
Proof.
  unfold column. destruct (position n (tcols t)); [|discriminate]. intros H. injection H as <-. unfold series. rewrite combine_length, !map_length. apply Nat.min_id.
Qed.
Lemma column_some (t : tab I) n : In n (tcols t) -> exists v, column t n = Ok v.
Proof. intros H. rewrite column_ok by exact H. eexists. reflexivity. Qed.
Lemma anomaly_fold L : forall t : tab I, wf t -> NoDup L -> (forall n, In n L -> In n (tcols t)) ->
  exists t', fold_left (fun acc n => bindR acc (fun t => bindR (column t n) (fun v => Ok (assign t n (anomaly (series t v)))))) L (Ok t) = Ok t' /\
    wf t' /\ tcols t' = tcols t /\ map fst (trows t') = map fst (trows t) /\
    forall m, column t' m = if existsb (String.eqb m) L then mapR (fun v => anomaly (series t v)) (column t m) else column t m.
Proof.
  induction L as [|n L IH]; intros t W N H; cbn [fold_left].
  - exists t. repeat split; try apply W.
  - apply NoDup_cons_iff in N as [N1 N2]. destruct (column_some t n) as [v V]; [apply H; left; reflexivity|]. cbn [bindR]. rewrite V. cbn [bindR].
    assert (LA : List.length (anomaly (series t v)) = List.length (trows t)) by (rewrite anomaly_length; exact (series_length t v n V)).
    set (t1 := assign t n (anomaly (series t v))).
    assert (C1 : tcols t1 = tcols t) by (apply assign_cols_in, H; left; reflexivity).
    assert (I1 : map fst (trows t1) = map fst (trows t)) by (apply assign_index; exact LA).
    destruct (IH t1) as (t' & E & W' & C' & I' & M'); [apply assign_wf; assumption|exact N2|intros m Hm; rewrite C1; apply H; right; exact Hm|].
    exists t'. split; [exact E|]. split; [exact W'|]. split; [congruence|]. split; [congruence|]. intros m. rewrite M'.
    assert (SE : forall x, series t1 x = series t x) by (intros; unfold series; rewrite I1; reflexivity).
    pose proof (column_assign t n _ m W LA) as CA. fold t1 in CA. rewrite CA. cbn [existsb]. destruct (String.eqb_spec m n) as [->|NE]; cbn [orb].
    + assert (X : existsb (String.eqb n) L = false).
      { apply not_true_is_false. intros X. apply existsb_exists in X as (y & Y1 & Y2). apply String.eqb_eq in Y2. subst. contradiction. }
      rewrite X, V. reflexivity.
    + destruct (existsb (String.eqb m) L); [|reflexivity]. destruct (column t m) as [x|e]; cbn [mapR]; [|reflexivity]. f_equal. f_equal. apply SE.
Qed.
End Anomaly.
