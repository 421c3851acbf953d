(* Missing columns (C58) and the end of the iteration of smoothn (C78). *)
From Coq Require Import Reals List Lra Lia.
From Verif Require Import Base DctModel DctSpec DctProofs6.
Open Scope R_scope.

(* ---- C78: the inner loop runs until the tolerance is reached, is undefined (0 / 0), or MaxIter passes were made ---- *)
Definition reached (t : tolerance) (tolz : R) : Prop := t = TolNaN \/ exists r, t = TolNum r /\ r <= tolz.
(* n passes, numbered from j, none of them after the tolerance was reached *)
Inductive passes (step : nat -> state -> res state) (tolz : R) : nat -> nat -> state -> state -> Prop :=
| no_pass j st : passes step tolz 0 j st st
| one_pass n j st st' st'' : ~ reached (tol st) tolz -> step j st = Ok st' -> passes step tolz n (S j) st' st'' -> passes step tolz (S n) j st st''.
Lemma exceeds_reached t tolz : exceeds t tolz = true <-> ~ reached t tolz.
Proof.
  unfold reached. destruct t as [r| |]; cbn [exceeds].
  - destruct (Rlt_dec tolz r) as [L|L]; split; intros H; try reflexivity; try discriminate.
    + intros [C|(r' & C & LE)]; [discriminate|]. injection C as <-. lra.
    + exfalso. apply H. right. exists r. split; [reflexivity|lra].
  - split; [intros _ [C|(r & C & _)]; discriminate|reflexivity].
  - split; [discriminate|]. intros H. exfalso. apply H. left. reflexivity.
Qed.
Theorem C78_iteration fmin shape order lam data valid rf given tolz maxiter st st' :
  inner fmin shape order lam data valid rf given tolz maxiter 0 st = Ok st' <->
  exists n, (n <= maxiter)%nat /\ passes (inner_step fmin shape order lam data valid rf given) tolz n 0 st st' /\
    (n = maxiter \/ reached (tol st') tolz).
Proof.
  generalize 0%nat as j. revert st st'. induction maxiter as [|m IH]; intros st st' j; cbn [inner].
  - split.
    + intros [= <-]. exists 0%nat. split; [lia|]. split; [constructor|left; reflexivity].
    + intros (n & L & P & _). assert (n = 0%nat) by lia. subst n. inversion P; subst. reflexivity.
  - destruct (exceeds (tol st) tolz) eqn:E.
    + assert (E' := E). apply exceeds_reached in E'. split.
      * destruct (inner_step _ _ _ _ _ _ _ _ j st) as [st1|e] eqn:S1; [|discriminate]. cbn [bindR]. intros H. apply IH in H as (n & L & P & F).
        exists (S n). split; [lia|]. split; [econstructor; eassumption|]. destruct F as [F|F]; [left; lia|right; exact F].
      * intros (n & L & P & F). inversion P as [|n' j' a st1 b NR S1 P']; subst.
        -- exfalso. destruct F as [F|F]; [lia|exact (E' F)].
        -- rewrite S1. cbn [bindR]. apply IH. exists n'. split; [lia|]. split; [exact P'|]. destruct F as [F|F]; [left; lia|right; exact F].
    + assert (RC : reached (tol st) tolz).
      { unfold reached. destruct (tol st) as [r| |]; cbn [exceeds] in E; [|discriminate|left; reflexivity]. right. exists r. split; [reflexivity|]. destruct (Rlt_dec tolz r); [discriminate|lra]. }
      split.
      * intros [= <-]. exists 0%nat. split; [lia|]. split; [constructor|right; exact RC].
      * intros (n & L & P & F). inversion P as [|n' j' a st1 b NR S1 P']; subst; [reflexivity|contradiction].
Qed.
(* the tolerance of a pass that changes an array into zeros is infinite, so the loop goes on *)
Example C78_ex_infinite : next_tol [1%nat] true (fun _ => true) (fun _ => 0) (fun _ => 1) = TolInf /\ ~ reached TolInf 1.
Proof.
  split; [|intros [C|(r & C & _)]; discriminate]. unfold next_tol. cbn -[sqrt]. unfold norm2. cbn -[sqrt].
  destruct (Req_EM_T _ 0) as [E|N].
  - destruct (Req_EM_T _ 0) as [E2|N2]; [|reflexivity]. exfalso. match type of E2 with sqrt ?a = 0 => assert (0 < sqrt a) by (apply sqrt_lt_R0; lra) end. lra.
  - exfalso. apply N. match goal with |- sqrt ?a = 0 => replace a with 0 by ring end. apply sqrt_0.
Qed.
Print Assumptions C78_iteration.

(* ---- C58: a column that is missing from the data raises KeyError ---- *)
From Verif Require Import CalcModel CalcSpec CalcProofs CalcProps.
Open Scope string_scope.
Lemma index_of_none l s : ~ In s l -> index_of l s = None.
Proof. induction l as [|x l IH]; intros H; [reflexivity|]. cbn. destruct (String.eqb_spec x s) as [->|]; [destruct H; left; reflexivity|]. rewrite IH; [reflexivity|]. intros C. apply H. right. exact C. Qed.
Theorem C58_missing_column sp_pearson sp_spearman sp_kendall min_obs meta other calc_tau f i :
  good_meta meta i basic_names -> (min_obs <= nrows f)%nat -> ~ In "ref" (f_cols f) \/ ~ In other (f_cols f) ->
  basic_calc sp_pearson sp_spearman sp_kendall min_obs meta other calc_tau f i = Err EKey.
Proof.
  intros G L M. unfold basic_calc, basic_on. destruct (meta_calc_ok (basic_template meta) meta i basic_names (basic_has_base meta) G) as (d & E & _). rewrite E. cbn [bindR].
  apply Nat.ltb_ge in L. rewrite L. unfold column. destruct M as [M|M].
  - rewrite (index_of_none _ _ M). reflexivity.
  - destruct (index_of (f_cols f) "ref") as [k|]; cbn [bindR]; [|reflexivity]. rewrite (index_of_none _ _ M). reflexivity.
Qed.
Example C58_missing_column_ex : good_meta fields place basic_names /\ (2 <= nrows two_rows)%nat /\ ~ In "third" (f_cols two_rows).
Proof. split; [apply place_good; cbn; intuition discriminate|]. cbn. split; [lia|intuition discriminate]. Qed.
Print Assumptions C58_missing_column.
