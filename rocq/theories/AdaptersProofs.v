(* Proofs about AdaptersModel. *)
From Verif Require Export AdaptersSpec.
From Verif Require Import BaseProofs.
Open Scope Z_scope.

Lemma position_in n l : In n l <-> exists k, position n l = Some k.
Proof.
  induction l as [|x l IH]; cbn.
  - split; [intros []|intros [k H]; discriminate].
  - destruct (String.eqb_spec x n); [subst; split; [intros _; exists O; reflexivity|auto]|].
    split.
    + intros [H|H]; [contradiction|]. apply IH in H as [k H]. exists (S k). rewrite H. reflexivity.
    + intros [k H]. right. apply IH. destruct (position n l); [eexists; reflexivity|discriminate].
Qed.
Lemma column_ok {I} (t : tab I) n : In n (tcols t) -> column t n = Ok (map (fun r => value (tcols t) (snd r) n) (trows t)).
Proof.
  intros H. apply position_in in H as [k H]. unfold column, value. rewrite H. reflexivity.
Qed.
Lemma column_missing {I} (t : tab I) n : ~ In n (tcols t) -> column t n = Err EKey.
Proof.
  intros H. unfold column. destruct (position n (tcols t)) eqn:E; [|reflexivity]. exfalso. apply H, position_in. eexists. exact E.
Qed.

(* ---- masking *)
Lemma self_masking_ok {I} o f threshold n (t : tab I) : resolve o = Ok f -> In n (tcols t) ->
  self_masking o threshold n (Some t) = Ok (mkTab (tcols t) (filter (fun r => f (value (tcols t) (snd r) n) threshold) (trows t))).
Proof.
  intros R H. unfold self_masking. rewrite R. cbn [bindR basic]. rewrite column_ok by exact H. cbn [bindR]. unfold keep_rows.
  rewrite map_map, mask_select_map_filter. reflexivity.
Qed.

Definition resolved (flt : string * op * cell) (g : string * (cell -> cell -> bool) * cell) : Prop :=
  fst (fst g) = fst (fst flt) /\ snd g = snd flt /\ resolve (snd (fst flt)) = Ok (snd (fst g)).
Lemma filter_mask_ok {I} ign (t : tab I) flt g : resolved flt g -> In (fst (fst g)) (tcols t) ->
  filter_mask ign t flt = Ok (map (fun r => passes ign (tcols t) (snd r) g) (trows t)).
Proof.
  destruct flt as [[n o] th]. destruct g as [[n' f] th']. intros (E1 & E2 & E3) H. cbn in *. subst. rewrite E3. cbn [bindR].
  rewrite column_ok by exact H. cbn [bindR]. f_equal. rewrite map_map. apply map_ext. intros r.
  destruct ign; [reflexivity|]. cbn. rewrite orb_false_r. reflexivity.
Qed.
Lemma map2_map_andb {A} (p q : A -> bool) l : map2 andb (map p l) (map q l) = map (fun a => p a && q a) l.
Proof. induction l as [|a l IH]; cbn; [|rewrite IH]; reflexivity. Qed.
Lemma fold_masks {I} ign (t : tab I) flts : forall gs acc, Forall2 resolved flts gs -> (forall g, In g gs -> In (fst (fst g)) (tcols t)) ->
  fold_left (fun acc flt => bindR acc (fun mask => mapR (fun new => Some (match mask with None => new | Some m => map2 andb m new end)) (filter_mask ign t flt)))
    flts (Ok (Some (map acc (trows t)))) =
  Ok (Some (map (fun r => acc r && forallb (passes ign (tcols t) (snd r)) gs) (trows t))).
Proof.
  induction flts as [|flt flts IH]; intros gs acc F H; inversion F; subst; cbn [fold_left].
  - f_equal. f_equal. apply map_ext. intros r. cbn. rewrite andb_true_r. reflexivity.
  - cbn [bindR]. rewrite (filter_mask_ok ign t flt y H2) by (apply H; left; reflexivity). cbn [mapR]. rewrite map2_map_andb.
    rewrite (IH l' _ H4) by (intros; apply H; right; assumption). f_equal. f_equal. apply map_ext. intros r. cbn [forallb]. rewrite andb_assoc. reflexivity.
Qed.
Lemma filter_filter_and {A} (p q : A -> bool) l : filter q (filter p l) = filter (fun a => p a && q a) l.
Proof. induction l as [|a l IH]; cbn; [reflexivity|]. destruct (p a); cbn; rewrite IH; reflexivity. Qed.
Lemma advanced_ok {I} ign (t : tab I) flts gs : flts <> [] -> Forall2 resolved flts gs -> (forall g, In g gs -> In (fst (fst g)) (tcols t)) ->
  advanced_masking flts ign (Some t) =
    Ok (mkTab (tcols t) (filter (fun r => forallb (passes ign (tcols t) (snd r)) gs && existsb notna (snd r)) (trows t))).
Proof.
  intros NE F H. unfold advanced_masking. cbn [basic]. destruct F as [|flt g flts gs R F]; [contradiction|]. cbn [fold_left bindR].
  rewrite (filter_mask_ok ign t flt g R) by (apply H; left; reflexivity). cbn [mapR].
  rewrite (fold_masks ign t flts gs (fun r => passes ign (tcols t) (snd r) g) F) by (intros; apply H; right; assumption). cbn [bindR].
  unfold keep_rows. cbn [tcols trows]. rewrite mask_select_map_filter, filter_filter_and. reflexivity.
Qed.
Lemma fold_err {A B} (f : A -> B -> res A) l e : fold_left (fun acc x => bindR acc (fun a => f a x)) l (Err e) = Err e.
Proof. induction l; cbn; auto. Qed.
Lemma fold_mask_err {I} ign (t : tab I) flts flt e : In flt flts -> filter_mask ign t flt = Err e ->
  forall acc, exists e', fold_left (fun acc flt => bindR acc (fun mask => mapR (fun new => Some (match mask with None => new | Some m => map2 andb m new end)) (filter_mask ign t flt))) flts acc = Err e'.
Proof.
  intros H E. induction flts as [|x flts IH]; [destruct H|]. intros acc. cbn [fold_left]. destruct H as [->|H]; [|apply IH; exact H].
  destruct acc as [m|e0]; cbn [bindR]; rewrite ?E; cbn [mapR]; rewrite fold_err; eexists; reflexivity.
Qed.

(* ---- timestamps *)
Lemma position_app_none n a b : position n a = None -> position n (a ++ b) = option_map (fun k => (List.length a + k)%nat) (position n b).
Proof.
  induction a as [|x a IH]; cbn; intros H; [destruct (position n b); reflexivity|].
  destruct (String.eqb x n); [discriminate|]. rewrite IH by (destruct (position n a); [discriminate|reflexivity]). destruct (position n b); reflexivity.
Qed.
Lemma drop_at_filter cols n k : NoDup cols -> position n cols = Some k -> drop_at k cols = filter (fun c => negb (String.eqb c n)) cols.
Proof.
  revert k. induction cols as [|x cols IH]; intros k N H; cbn in *; [discriminate|]. apply NoDup_cons_iff in N as [N1 N2].
  destruct (String.eqb_spec x n).
  - injection H as <-. subst. cbn. symmetry. apply filter_all. intros y Hy. destruct (String.eqb_spec y n); [subst; contradiction|reflexivity].
  - destruct (position n cols) as [j|] eqn:E; [|discriminate]. injection H as <-. cbn. f_equal. apply IH; [exact N2|reflexivity].
Qed.
Lemma value_cons_ne x cols v r n : n <> x -> value (x :: cols) (v :: r) n = value cols r n.
Proof.
  intros H. unfold value. cbn. destruct (String.eqb_spec x n); [congruence|]. destruct (position n cols); reflexivity.
Qed.
Lemma values_self cols r : NoDup cols -> List.length r = List.length cols -> map (value cols r) cols = r.
Proof.
  revert r. induction cols as [|x cols IH]; intros [|v r] N L; cbn in L; try discriminate; [reflexivity|]. apply NoDup_cons_iff in N as [N1 N2].
  cbn [map]. f_equal; [unfold value; cbn; rewrite String.eqb_refl; reflexivity|]. rewrite <- (IH r N2) at 2 by lia. apply map_ext_in. intros n Hn.
  apply value_cons_ne. intros ->. contradiction.
Qed.
Lemma drop_at_values cols r n k : NoDup cols -> List.length r = List.length cols -> position n cols = Some k ->
  drop_at k r = map (value cols r) (drop_at k cols).
Proof.
  revert r k. induction cols as [|x cols IH]; intros [|v r] k N L H; cbn in L; try discriminate. apply NoDup_cons_iff in N as [N1 N2].
  cbn in H. destruct (String.eqb_spec x n).
  - injection H as <-. cbn [drop_at]. rewrite <- (values_self cols r N2) at 1 by lia. apply map_ext_in. intros m Hm. symmetry. apply value_cons_ne. intros ->. contradiction.
  - destruct (position n cols) as [j|] eqn:E; [|discriminate]. injection H as <-. cbn [drop_at map]. f_equal; [unfold value; cbn; rewrite String.eqb_refl; reflexivity|].
    rewrite (IH r j N2) by (try lia; reflexivity). apply map_ext_in. intros m Hm. symmetry. apply value_cons_ne. intros ->.
    rewrite (drop_at_filter cols n j N2 E) in Hm. apply filter_In in Hm as [Hm _]. contradiction.
Qed.
Lemma value_select names cols r n : In n names -> value names (map (value cols r) names) n = value cols r n.
Proof.
  unfold value at 1. intros H. apply position_in in H as [k H]. rewrite H. revert k H. induction names as [|x names IH]; intros k H; cbn in *; [discriminate|].
  destruct (String.eqb_spec x n); [injection H as <-; subst; reflexivity|]. destruct (position n names) as [j|]; [|discriminate]. injection H as <-. apply IH. reflexivity.
Qed.

(* a frame restricted to some columns *)
Definition restrict {I} (t : tab I) (p : string -> bool) : tab I :=
  mkTab (filter p (tcols t)) (map (fun r => (fst r, map (value (tcols t) (snd r)) (filter p (tcols t)))) (trows t)).
Lemma restrict_all {I} (t : tab I) : wf t -> restrict t (fun _ => true) = t.
Proof.
  intros [N L]. destruct t as [cols rows]. unfold restrict. cbn in *. rewrite filter_all by reflexivity. f_equal.
  rewrite <- (map_id rows) at 2. apply map_ext_in. intros [i r] H. cbn. rewrite (values_self cols r N (L _ H)). reflexivity.
Qed.
Lemma filter_and_nil {A} (p q : A -> bool) l : filter p (filter q l) = filter (fun a => p a && q a) l.
Proof. induction l as [|a l IH]; cbn; [reflexivity|]. destruct (q a) eqn:Q; cbn; [|rewrite andb_false_r; exact IH]. rewrite andb_true_r, IH. reflexivity. Qed.
Lemma restrict_restrict {I} (t : tab I) p q : wf t -> restrict (restrict t q) p = restrict t (fun n => p n && q n).
Proof.
  intros [N L]. unfold restrict. cbn [tcols trows]. rewrite filter_and_nil. f_equal. rewrite map_map. apply map_ext_in. intros [i r] H. cbn [fst snd]. f_equal.
  apply map_ext_in. intros n Hn. apply value_select. apply filter_In in Hn as [A B]. apply filter_In. apply andb_prop in B as [B1 B2]. auto.
Qed.
Lemma restrict_wf {I} (t : tab I) p : wf t -> wf (restrict t p).
Proof.
  intros [N L]. split; [apply NoDup_filter; exact N|]. cbn. intros r H. apply in_map_iff in H as (r0 & <- & _). cbn. rewrite map_length. reflexivity.
Qed.
Lemma drop_restrict {I} (t : tab I) n : wf t -> drop_column t n = restrict t (fun c => negb (String.eqb c n)).
Proof.
  intros [N L]. unfold drop_column. destruct (position n (tcols t)) as [k|] eqn:E.
  - unfold restrict. rewrite <- (drop_at_filter _ _ _ N E). f_equal. apply map_ext_in. intros r H. f_equal. apply (drop_at_values (tcols t) (snd r) n k N (L _ H) E).
  - assert (X : restrict t (fun c => negb (String.eqb c n)) = restrict t (fun _ => true)).
    { unfold restrict. assert (Y : filter (fun c => negb (String.eqb c n)) (tcols t) = filter (fun _ => true) (tcols t)); [|rewrite Y; reflexivity].
      apply filter_ext_in. intros c Hc. destruct (String.eqb_spec c n); [subst; apply position_in in Hc as [k Hk]; congruence|reflexivity]. }
    rewrite X, restrict_all by (split; assumption). reflexivity.
Qed.
Lemma restrict_ext {I} (t : tab I) p q : (forall n, In n (tcols t) -> p n = q n) -> restrict t p = restrict t q.
Proof. intros H. unfold restrict. assert (E : filter p (tcols t) = filter q (tcols t)) by (apply filter_ext_in; exact H). rewrite E. reflexivity. Qed.
Lemma drop_list_restrict {I} l : forall (t : tab I), wf t ->
  fold_left drop_column l t = restrict t (fun c => negb (existsb (String.eqb c) l)).
Proof.
  induction l as [|n l IH]; intros t W; cbn [fold_left].
  - cbn. symmetry. apply restrict_all. exact W.
  - rewrite drop_restrict by exact W. rewrite IH by (apply restrict_wf; exact W). rewrite restrict_restrict by exact W.
    apply restrict_ext. intros c _. cbn [existsb]. rewrite negb_orb, andb_comm. reflexivity.
Qed.

Lemma map2_map {A B C D} (f : B -> C -> D) (g : A -> B) (h : A -> C) l : map2 f (map g l) (map h l) = map (fun a => f (g a) (h a)) l.
Proof. induction l as [|a l IH]; cbn; [|rewrite IH]; reflexivity. Qed.
Lemma map2_map_r {A C D} (f : A -> C -> D) (h : A -> C) l : map2 f l (map h l) = map (fun a => f a (h a)) l.
Proof. induction l as [|a l IH]; cbn; [|rewrite IH]; reflexivity. Qed.

(* offsets as added by the code: each rounded down to seconds *)
Definition offset_s (cols : list string) (r : list cell) (fk : string * Z) : Z := offset_ns cols r fk / second_ns.
Lemma add_offset_ok {I} (t : tab I) fields units ks :
  Forall2 (fun u k => unit_ns u = Some k) units ks -> (forall f, In f fields -> In f (tcols t)) ->
  add_offset fields units t = Ok (map (fun r => zsum (map (offset_s (tcols t) (snd r)) (combine fields ks))) (trows t)).
Proof.
  intros F H. unfold add_offset.
  assert (G : forall acc, fold_left (fun acc fu => bindR acc (fun total =>
      bindR (column t (fst fu)) (fun v => bindR (unit_of (snd fu)) (fun k =>
      Ok (map2 (fun s c => (s * second_ns + match c with Some x => trunc x * k | None => 0 end) / second_ns) total v)))))
      (combine fields units) (Ok (map acc (trows t))) =
      Ok (map (fun r => acc r + zsum (map (offset_s (tcols t) (snd r)) (combine fields ks))) (trows t))).
  { revert ks F H. revert units. induction fields as [|f fields IH]; intros units ks F H acc.
    - cbn. f_equal. apply map_ext. intros. lia.
    - destruct F as [|u k units ks U F]; cbn [combine fold_left].
      + cbn. f_equal. apply map_ext. intros. lia.
      + cbn [bindR fst snd]. rewrite column_ok by (apply H; left; reflexivity). cbn [bindR]. unfold unit_of. rewrite U. cbn [bindR].
        rewrite map2_map. rewrite (IH units ks F) by (intros; apply H; right; assumption). f_equal. apply map_ext. intros r. cbn [map zsum fold_right].
        unfold offset_s at 2, offset_ns. cbn [fst snd]. rewrite (Z.add_comm (acc r * second_ns)), Z.div_add by (unfold second_ns; lia).
        unfold zsum. lia. }
  rewrite (G (fun _ => 0)). reflexivity.
Qed.

Lemma vals_map {A} (b : A -> cell) l : vals (map b l) = map (fun a => match b a with Some x => x | None => 0%Q end) (filter (fun a => notna (b a)) l).
Proof. induction l as [|a l IH]; cbn; [reflexivity|]. destruct (b a) eqn:E; cbn; [rewrite E, IH; reflexivity|exact IH]. Qed.

Lemma loc_index_distinct cols rows (e : cell * list cell -> Q) : (forall r, In r rows -> fst r = Some (e r)) -> NoDupA Qeq (map e rows) ->
  loc_index (mkTab cols rows) = mkTab cols rows.
Proof.
  intros H N. unfold loc_index. cbn [tcols trows]. f_equal.
  assert (A : filter notna (map fst rows) = map fst rows).
  { apply filter_all. intros c Hc. apply in_map_iff in Hc as (r & <- & Hr). rewrite (H r Hr). reflexivity. }
  rewrite A.
  assert (B : forall r, In r rows -> filter (fun x => cell_eqb (fst x) (fst r)) rows = [r]).
  { clear A. induction rows as [|x rows IH]; [intros r []|]. cbn [map] in N. inversion N as [|q l N1 N2]; subst.
    assert (S : forall r, In r rows -> cell_eqb (fst x) (fst r) = false /\ cell_eqb (fst r) (fst x) = false).
    { intros r Hr. rewrite (H x) by (left; reflexivity). rewrite (H r) by (right; exact Hr). cbn.
      assert (D : ~ (e x == e r)%Q). { intros E. apply N1. apply InA_alt. exists (e r). split; [exact E|]. apply in_map. exact Hr. }
      split; apply not_true_is_false; intros E; apply Qeq_bool_iff in E; apply D; [exact E|symmetry; exact E]. }
    intros r [<-|Hr]; cbn [filter].
    - assert (R : cell_eqb (fst x) (fst x) = true) by (rewrite (H x) by (left; reflexivity); apply Qeq_bool_iff; reflexivity). rewrite R. f_equal.
      apply filter_none. intros y Hy. apply S. exact Hy.
    - rewrite (proj1 (S r Hr)). apply IH; [intros; apply H; right; assumption|exact N2|exact Hr]. }
  revert B. generalize rows at 2 3 as all. intros all. clear. induction rows as [|x rows IH]; intros B; cbn; [reflexivity|].
  rewrite (B x) by (left; reflexivity). cbn. f_equal. apply IH. intros; apply B; right; assumption.
Qed.

(* the number of rows with a label *)
Definition label_count (l : cell) (t : tab cell) : nat := countb (fun r => cell_eqb (fst r) l) (trows t).
Lemma cell_eqb_trans a b c : cell_eqb a b = true -> cell_eqb a c = cell_eqb b c.
Proof.
  destruct a as [a|], b as [b|], c as [c|]; cbn; intros H; try discriminate; try reflexivity. apply Qeq_bool_iff in H.
  destruct (Qeq_bool a c) eqn:E1, (Qeq_bool b c) eqn:E2; try reflexivity; exfalso.
  - apply Qeq_bool_iff in E1. apply Qeq_bool_neq in E2. apply E2. rewrite <- H. exact E1.
  - apply Qeq_bool_iff in E2. apply Qeq_bool_neq in E1. apply E1. rewrite H. exact E2.
Qed.
Lemma cell_eqb_sym a b : cell_eqb a b = cell_eqb b a.
Proof.
  destruct a as [a|], b as [b|]; cbn; try reflexivity. destruct (Qeq_bool a b) eqn:E1, (Qeq_bool b a) eqn:E2; try reflexivity.
  - apply Qeq_bool_iff in E1. apply Qeq_bool_neq in E2. exfalso. apply E2. symmetry. exact E1.
  - apply Qeq_bool_iff in E2. apply Qeq_bool_neq in E1. exfalso. apply E1. symmetry. exact E2.
Qed.
Lemma loc_index_squares (t : tab cell) x : label_count (Some x) (loc_index t) = (label_count (Some x) t * label_count (Some x) t)%nat.
Proof.
  unfold label_count, countb, loc_index. cbn [trows]. set (rows := trows t). generalize rows at 1 3 as all. intros all.
  induction rows as [|r rows IH]; cbn [map filter flat_map]; [cbn; lia|].
  destruct (cell_eqb (fst r) (Some x)) eqn:E.
  - assert (NN : notna (fst r) = true) by (destruct (fst r); [reflexivity|discriminate]). rewrite NN. cbn [flat_map]. rewrite filter_app, app_length, IH. cbn [List.length].
    assert (Q : filter (fun r0 => cell_eqb (fst r0) (Some x)) (filter (fun r0 => cell_eqb (fst r0) (fst r)) all) = filter (fun r0 => cell_eqb (fst r0) (Some x)) all).
    { rewrite filter_and_nil. apply filter_ext. intros a. destruct (cell_eqb (fst a) (Some x)) eqn:E2; [|reflexivity]. cbn.
      rewrite (cell_eqb_sym (fst a)), (cell_eqb_trans _ _ (fst a) E), cell_eqb_sym. exact E2. }
    rewrite Q. lia.
  - destruct (notna (fst r)); [|exact IH]. cbn [flat_map]. rewrite filter_app, app_length, IH.
    assert (Q : filter (fun r0 => cell_eqb (fst r0) (Some x)) (filter (fun r0 => cell_eqb (fst r0) (fst r)) all) = []).
    { rewrite filter_and_nil. apply filter_none. intros a _. destruct (cell_eqb (fst a) (fst r)) eqn:E2; [|apply andb_false_r]. rewrite andb_true_r.
      rewrite (cell_eqb_trans _ _ (Some x) E2). exact E. }
    rewrite Q. reflexivity.
Qed.
