(* TsDistributor.select with set_nan works on the caller's frame (C98). *)
From Verif Require Import GroupingSpec GroupingProofs GroupingProps OwnModel.
From Coq Require Import Lia.
Open Scope Z_scope.

Definition decided (P : ts -> Prop) (l : list frow) : Prop := forall r, In r l -> P (fst r) \/ ~ P (fst r).
Lemma blanked_trans (P Q R : ts -> Prop) l m o : decided P l -> decided Q l -> (forall t, R t <-> P t /\ Q t) ->
  blanked P l m -> blanked Q m o -> blanked R l o.
Proof.
  intros D1 D2 E H. revert o. unfold blanked in *. induction H as [|r s l m (F & Y & N) H IH]; intros o K; inversion K as [|s' q m' o' (F' & Y' & N') K']; subst.
  - constructor.
  - constructor; [|apply IH; [intros x Hx; apply D1; right; exact Hx|intros x Hx; apply D2; right; exact Hx|exact K']]. split; [congruence|]. rewrite F in *. split.
    + intros HR. apply E in HR as (HP & HQ). rewrite (Y' HQ). exact (Y HP).
    + intros NR. rewrite (E (fst r)) in NR. destruct (D2 r (or_introl eq_refl)) as [HQ|HQ].
      * rewrite (Y' HQ). apply N. intros HP. apply NR. split; assumption.
      * rewrite (N' HQ). destruct (D1 r (or_introl eq_refl)) as [HP|HP]; [rewrite (Y HP); reflexivity|]. rewrite (N HP), repeat_length. reflexivity.
Qed.
Lemma marks_decided (P : ts -> Prop) : forall l mask, marks P (map fst l) mask -> decided P l.
Proof.
  intros l. induction l as [|r l IH]; intros mask H; unfold marks in H; cbn [map] in H; inversion H as [|x b idx m HB HM]; subst; intros y Hy; [destruct Hy|].
  destruct Hy as [<-|Hy].
  - destruct b; [left; apply HB; reflexivity|right; intros HP; apply HB in HP; discriminate].
  - exact (IH m HM y Hy).
Qed.
Lemma blanked_times P l o : blanked P l o -> map fst o = map fst l.
Proof. intros H. induction H as [|r s l m (F & _) H IH]; cbn [map]; [reflexivity|]. f_equal; [exact F|exact IH]. Qed.

(* selecting with set_nan from the same frame again and again: a row keeps its values if all
   selections so far wanted it, not just the last one *)
Theorem C98_select_accumulates : forall Ds df,
  (forall D, In D Ds -> no_datetime_objects D /\ olist (d_gen_ranges D) = []) -> (forall r, In r df -> valid_ts (fst r)) ->
  exists out, select_in_place Ds df = Ok out /\ blanked (fun t => forall D, In D Ds -> meets D t) df out.
Proof.
  induction Ds as [|D Ds IH]; intros df HD HT.
  - exists df. split; [reflexivity|]. induction df as [|r df IHd]; constructor; [|apply IHd; intros x Hx; apply HT; right; exact Hx].
    split; [reflexivity|]. split; [reflexivity|]. intros H. exfalso. apply H. intros ? [].
  - destruct (HD D (or_introl eq_refl)) as (H1 & H2). destruct (C15_select D df H1 H2 HT) as (_ & m & E & B).
    cbn [select_in_place]. rewrite E. cbn [bindR]. pose proof (blanked_times _ _ _ B) as T.
    assert (HT' : forall r, In r m -> valid_ts (fst r)).
    { intros r Hr. apply (in_map fst) in Hr. rewrite T in Hr. apply in_map_iff in Hr as (x & <- & Hx). exact (HT x Hx). }
    destruct (IH m (fun D' H' => HD D' (or_intror H')) HT') as (out & EO & BO). exists out. split; [exact EO|].
    assert (DEC : forall D', In D' (D :: Ds) -> decided (meets D') df).
    { intros D' H'. destruct (HD D' H') as (A & A'). destruct (C15_filter_marks_the_union D' (map fst df) A A') as (mask & _ & M).
      - intros t Ht. apply in_map_iff in Ht as (x & <- & Hx). exact (HT x Hx).
      - exact (marks_decided _ _ _ M). }
    assert (DALL : forall L, (forall D', In D' L -> In D' (D :: Ds)) -> decided (fun t => forall D', In D' L -> meets D' t) df).
    { induction L as [|X L IHL]; intros HL r Hr; [left; intros ? []|]. destruct (DEC X (HL X (or_introl eq_refl)) r Hr) as [HX|HX].
      - destruct (IHL (fun D' H' => HL D' (or_intror H')) r Hr) as [HY|HY].
        + left. intros D' [<-|H']; [exact HX|exact (HY D' H')].
        + right. intros HA. apply HY. intros D' H'. apply HA. right. exact H'.
      - right. intros HA. apply HX, HA. left. reflexivity. }
    apply (blanked_trans (meets D) (fun t => forall D', In D' Ds -> meets D' t) _ df m out).
    + apply DEC. left. reflexivity.
    + apply DALL. intros D' H'. right. exact H'.
    + intros t. split; [intros H; split; [apply H; left; reflexivity|intros D' H'; apply H; right; exact H']|]. intros (A & A') D' [<-|H']; [exact A|exact (A' D' H')].
    + exact B.
    + exact BO.
Qed.
Print Assumptions C98_select_accumulates.
Section Ex98b.
Definition early98 : distributor := mkDistr None (Some [(jan 3, jan 5)]) None None.
Definition late98 : distributor := mkDistr None (Some [(jan 5, jan 7)]) None None.
Definition df98 : list frow := map (fun d => (jan d, [Some (inject_Z d)])) [3; 4; 5; 6; 7].
Example C98_ex_select : (forall D, In D [early98; late98] -> no_datetime_objects D /\ olist (d_gen_ranges D) = []) /\ (forall r, In r df98 -> valid_ts (fst r)) /\
  select_in_place [early98; late98] df98 = Ok (map (fun d => (jan d, [if d =? 5 then Some 5%Q else None])) [3; 4; 5; 6; 7]).
Proof.
  split; [|split; [|vm_compute; reflexivity]].
  - intros D [<-|[<-|[]]]; (split; [intros g []|reflexivity]).
  - intros r H. cbn in H. repeat destruct H as [<-|H]; try contradiction; vm_compute; repeat split; discriminate.
Qed.
(* the second selection alone would have kept 6 and 7 January *)
Theorem C98_select_set_nan_refuted : exists D E df out alone, 
  select_in_place [D; E] df = Ok out /\ ts_select E df true = Ok alone /\ out <> alone.
Proof. exists early98, late98, df98. eexists. eexists. split; [vm_compute; reflexivity|]. split; [vm_compute; reflexivity|]. discriminate. Qed.
End Ex98b.
Print Assumptions C98_select_set_nan_refuted.
