(* Details of the validation driver, the adapters and the results files: C32, C33, C69, C70. *)
From Coq Require Import Lia Ascii.
From Verif Require Import AdaptersModel AdaptersSpec AdaptersProofs AdaptersProofs2 AdaptersProps.
Import ListNotations.

(* ---- C70: AnomalyClimAdapter ---- *)
Definition climatology_name (n : string) : string := (n ++ "_climatology")%string.
Lemma append_inj_r (a b c : string) : (a ++ c = b ++ c)%string -> a = b.
Proof.
  assert (LA : forall a c : string, String.length (a ++ c)%string = (String.length a + String.length c)%nat) by (induction a0; intros; cbn; [reflexivity|rewrite IHa0; reflexivity]).
  revert b. induction a as [|x a IH]; intros [|y b] H; try reflexivity.
  - apply (f_equal String.length) in H. rewrite !LA in H. cbn in H. lia.
  - apply (f_equal String.length) in H. rewrite !LA in H. cbn in H. lia.
  - cbn in H. injection H as -> H. f_equal. apply IH, H.
Qed.

Section Clim.
Context {I : Type}.
Variable anomaly_clim : list (I * cell) -> list cell * list cell.
Hypothesis lengths : forall s, List.length (fst (anomaly_clim s)) = List.length s /\ List.length (snd (anomaly_clim s)) = List.length s.
Let step (rc : bool) (acc : res (tab I)) n := bindR acc (fun t => bindR (column t n) (fun v =>
  let '(a, c) := anomaly_clim (series t v) in Ok (if rc then assign (assign t n a) (climatology_name n) c else assign t n a))).

Lemma clim_fold rc L : forall t : tab I, wf t -> NoDup L -> (forall n, In n L -> In n (tcols t)) ->
  (forall n m, In n L -> In m L -> climatology_name n <> m) ->
  exists t', fold_left (step rc) L (Ok t) = Ok t' /\ map fst (trows t') = map fst (trows t) /\
    (forall n v, In n L -> column t n = Ok v -> column t' n = Ok (fst (anomaly_clim (series t v))) /\
       (rc = true -> column t' (climatology_name n) = Ok (snd (anomaly_clim (series t v))))) /\
    (forall m, ~ In m L -> (forall n, In n L -> rc = true -> m <> climatology_name n) -> column t' m = column t m).
Proof.
  induction L as [|n L IH]; intros t W N S1 CN.
  - exists t. split; [reflexivity|]. split; [reflexivity|]. split; [intros n v []|]. intros m _ _. reflexivity.
  - inversion N as [|? ? N1 N2]; subst. cbn [fold_left]. unfold step at 2. cbn [bindR].
    destruct (column_some t n (S1 n (or_introl eq_refl))) as (v & Ev). rewrite Ev. cbn [bindR].
    destruct (lengths (series t v)) as [L1 L2]. rewrite (series_length t v n Ev) in L1, L2.
    destruct (anomaly_clim (series t v)) as [a c] eqn:EA. cbn [fst snd] in L1, L2.
    set (t1 := if rc then assign (assign t n a) (climatology_name n) c else assign t n a).
    assert (W0 : wf (assign t n a)) by (apply assign_wf; assumption).
    assert (LR : List.length c = List.length (trows (assign t n a))) by (rewrite assign_rows_length; congruence).
    assert (W1 : wf t1) by (unfold t1; destruct rc; [apply assign_wf; assumption|exact W0]).
    assert (IX : map fst (trows t1) = map fst (trows t)).
    { unfold t1. destruct rc; [rewrite assign_index by exact LR|]; apply assign_index; exact L1. }
    assert (CO : forall m, column t1 m = if (rc && String.eqb m (climatology_name n))%bool then Ok c else if String.eqb m n then Ok a else column t m).
    { intros m. unfold t1. destruct rc; cbn [andb]; [rewrite column_assign by assumption; destruct (String.eqb m _); [reflexivity|]|]; apply column_assign; assumption. }
    assert (OT : forall m, m <> n -> (rc = true -> m <> climatology_name n) -> column t1 m = column t m).
    { intros m M1 M2. rewrite CO. destruct (String.eqb_spec m n); [contradiction|]. destruct rc; cbn [andb]; [|reflexivity].
      destruct (String.eqb_spec m (climatology_name n)); [exfalso; apply M2; auto|reflexivity]. }
    assert (S2 : forall m, In m L -> In m (tcols t1)).
    { intros m Hm. assert (E : column t1 m = column t m).
      { apply OT; [intros ->; contradiction|]. intros _ E. apply (CN n m (or_introl eq_refl) (or_intror Hm)). symmetry. exact E. }
      destruct (column_some t m (S1 m (or_intror Hm))) as (w & Ew). rewrite Ew in E.
      destruct (in_dec string_dec m (tcols t1)) as [H|H]; [exact H|]. rewrite (column_missing t1 m H) in E. discriminate. }
    destruct (IH t1 W1 N2 S2 ltac:(intros; apply CN; right; assumption)) as (t' & E & X & A & O).
    exists t'. split; [exact E|]. split; [congruence|]. assert (SE : forall w, series t1 w = series t w) by (intros w; unfold series; rewrite IX; reflexivity). split.
    + intros m w [<-|Hm] Ew.
      * assert (w = v) by congruence. subst w. rewrite EA. cbn [fst snd]. split.
        -- rewrite O; [|exact N1|]. 2:{ intros k Hk _ E'. apply (CN k n (or_intror Hk) (or_introl eq_refl)). symmetry. exact E'. }
           rewrite CO. assert (NE : String.eqb n (climatology_name n) = false).
           { apply String.eqb_neq. intros E'. apply (CN n n); [left; reflexivity|left; reflexivity|symmetry; exact E']. }
           rewrite NE, Bool.andb_false_r, String.eqb_refl. reflexivity.
        -- intros RC. rewrite O.
           ++ rewrite CO, RC, String.eqb_refl. reflexivity.
           ++ intros Hc. apply (CN n (climatology_name n)); [left; reflexivity|right; exact Hc|reflexivity].
           ++ intros k Hk _ E'. apply append_inj_r in E'. subst k. contradiction.
      * rewrite <- SE. apply A; [exact Hm|]. rewrite OT; [exact Ew|intros ->; contradiction|].
        intros _ E'. apply (CN n m (or_introl eq_refl) (or_intror Hm)). symmetry. exact E'.
    + intros m M1 M2. rewrite O.
      * apply OT; [intros ->; apply M1; left; reflexivity|]. intros RC. apply M2; [left; reflexivity|exact RC].
      * intros Hm. apply M1. right. exact Hm.
      * intros k Hk. apply M2. right. exact Hk.
Qed.
End Clim.

(* each selected column becomes the anomaly of its own series; with return_clim a column
   <name>_climatology holds the climatology of that series; every other column is unchanged *)
Theorem C70_climatology_columns :
  forall (I : Type) (anomaly_clim : list (I * cell) -> list cell * list cell),
    (forall s, List.length (fst (anomaly_clim s)) = List.length s /\ List.length (snd (anomaly_clim s)) = List.length s) ->
  forall columns return_clim (t : tab I), wf t ->
    let selected := match columns with None => tcols t | Some l => l end in
    NoDup selected -> (forall n, In n selected -> In n (tcols t)) ->
    (forall n, In n selected -> ~ In (n ++ "_climatology")%string selected) ->
    exists t', anomaly_clim_adapter anomaly_clim columns return_clim (Some t) = Ok t' /\
      map fst (trows t') = map fst (trows t) /\
      (forall n v, In n selected -> column t n = Ok v ->
         column t' n = Ok (fst (anomaly_clim (combine (map fst (trows t)) v))) /\
         (return_clim = true -> column t' (n ++ "_climatology")%string = Ok (snd (anomaly_clim (combine (map fst (trows t)) v))))) /\
      (forall m, ~ In m selected -> (forall n, In n selected -> return_clim = true -> m <> (n ++ "_climatology")%string) -> column t' m = column t m).
Proof.
  intros I ac LN columns rc t W selected N S1 CN.
  destruct (clim_fold ac LN rc selected t W N S1) as (t' & E & X & A & O).
  { intros n m Hn Hm E. apply (CN n Hn). unfold climatology_name in E. rewrite E. exact Hm. }
  exists t'. split; [exact E|]. split; [exact X|]. split; [exact A|exact O].
Qed.
Example C70_ex_climatology :
  let t := mkTab ["a"; "b"]%string [(1, [Some 1%Q; Some 5%Q]); (2, [Some 3%Q; None])] in
  wf t /\ (forall n, In n ["a"]%string -> ~ In (n ++ "_climatology")%string ["a"]%string) /\
  exists t', anomaly_clim_adapter means (Some ["a"]%string) true (Some t) = Ok t' /\
    column t' "a_climatology" = Ok [Some 2%Q; Some 2%Q] /\ column t' "a" = Ok [Some (-1)%Q; Some 1%Q] /\ column t' "b" = Ok [Some 5%Q; None].
Proof.
  cbn zeta. split; [split; [repeat constructor; cbn; intuition discriminate|intros r [<-|[<-|[]]]; reflexivity]|].
  split; [intros n [<-|[]] [H|[]]; discriminate|]. eexists. split; [vm_compute; reflexivity|]. repeat split; vm_compute; reflexivity.
Qed.
Print Assumptions C70_climatology_columns.
