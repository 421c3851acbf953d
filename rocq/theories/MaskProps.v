(* C34 for references with several columns. *)
From Verif Require Import MatchersSpec ValidationSpec BaseProofs ValidationProps MaskProofs MaskProofs2.
From Verif Require Import TemporalModel TemporalSpec.

(* some masking column has a value at the observation matched to the reference time t *)
Definition masked_at (mds : ds_dict) (masks : list (string * frame)) (w t : Z) : Prop :=
  exists ds f cols col j row, In (ds, f) masks /\ In (ds, cols) mds /\ In col cols /\ nth_error (fcols f) j = Some col /\
    nearest_row (frows f) (List.length (fcols f)) t w row /\ nth j row None <> None.

(* An observation is removed only if a masking column has a value there and one of the reference
   columns has one; it is removed if a masking column has a value and all reference columns have one. *)
Theorem C34_reference_columns_partial :
  forall (G V : Type) (c : @config G V) store oob w mds gm ref (g : G) rcs masks masked,
    (forall d r n, c_match c d r n = combinatory_matcher store oob w d r n) ->
    wf_dict mds -> In ("_reference"%string, rcs) mds -> rcs <> [] ->
    gm g = Ok masks -> NoDup (map fst masks) -> ~ In "_reference"%string (map fst masks) ->
    wf_frame ref -> NoDup (fcols ref) -> (forall k f, In (k, f) masks -> usable f /\ NoDup (fcols f)) ->
    mask_dataset c mds gm ref g = Ok masked ->
    exists keep, frows masked = filter keep (frows ref) /\ forall t rr, first_row ref t rr ->
      (keep (t, rr) = false -> masked_at mds masks w t /\ exists i rc, In rc rcs /\ nth_error (fcols ref) i = Some rc /\ nth i rr None <> None) /\
      (masked_at mds masks w t -> (forall rc, In rc rcs -> exists i, nth_error (fcols ref) i = Some rc /\ nth i rr None <> None) -> keep (t, rr) = false).
Proof.
  intros G V c store oob w mds gm ref g rcs masks masked HM W ER NE EG NM NR WR NC US H.
  assert (CP : forall l x i, NoDup l -> (col_pos x l = Some i <-> nth_error l i = Some x)).
  { clear. induction l as [|y l IH]; intros x i N; cbn; [destruct i; split; discriminate|]. apply NoDup_cons_iff in N as [N1 N2].
    destruct (String.eqb_spec x y) as [->|N].
    - split; [intros [= <-]; reflexivity|]. destruct i as [|i]; cbn; [reflexivity|]. intros E. apply nth_error_In in E. contradiction.
    - destruct i as [|i]; cbn.
      + split; [destruct (col_pos x l); discriminate|intros [= ->]; contradiction].
      + rewrite <- (IH x i N2). destruct (col_pos x l); cbn; split; congruence. }
  destruct (mask_several c store oob w mds gm ref g rcs masks masked HM W ER NE EG NM NR WR (fun k f I => proj1 (US k f I)) H) as (keep & EK & K1 & K2).
  exists keep. split; [exact EK|]. intros t rr FR. split.
  - intros KF. destruct (K1 t rr KF) as (rc & i & Hrc & Ei & ds & f & cols & col & j & rr' & row & H1 & H2 & H3 & Ej & FR' & Vi & NRr & Vj).
    assert (rr' = rr) by (unfold first_row in *; congruence). subst rr'. split.
    + exists ds, f, cols, col, j, row. rewrite <- (CP _ _ _ (proj2 (US ds f H1))). auto 7.
    + exists i, rc. rewrite <- (CP _ _ _ NC). auto.
  - intros (ds & f & cols & col & j & row & H1 & H2 & H3 & Ej & NRr & Vj) ALLV.
    apply (K2 t rr ds f cols col j row H1 H2 H3); [apply CP; [exact (proj2 (US ds f H1))|exact Ej]|exact NRr|exact Vj|].
    exists rr. split; [exact FR|]. intros rc Hrc. destruct (ALLV rc Hrc) as (i & Ei & Vi). exists i. rewrite (CP _ _ _ NC). auto.
Qed.
(* if the reference misses no value, exactly the observations with a masking value are removed *)
Theorem C34_complete_reference_partial :
  forall (G V : Type) (c : @config G V) store oob w mds gm ref (g : G) rcs masks masked,
    (forall d r n, c_match c d r n = combinatory_matcher store oob w d r n) ->
    wf_dict mds -> In ("_reference"%string, rcs) mds -> rcs <> [] -> incl rcs (fcols ref) ->
    gm g = Ok masks -> NoDup (map fst masks) -> ~ In "_reference"%string (map fst masks) ->
    wf_frame ref -> NoDup (fcols ref) -> (forall k f, In (k, f) masks -> usable f /\ NoDup (fcols f)) ->
    NoDup (findex ref) -> (forall t r v, In (t, r) (frows ref) -> In v r -> v <> None) ->
    mask_dataset c mds gm ref g = Ok masked ->
    exists keep, frows masked = filter keep (frows ref) /\
      forall t r, In (t, r) (frows ref) -> (keep (t, r) = true <-> ~ masked_at mds masks w t).
Proof.
  intros G V c store oob w mds gm ref g rcs masks masked HM W ER NE IC EG NM NR WR NC US NT CV H.
  destruct (C34_reference_columns_partial G V c store oob w mds gm ref g rcs masks masked HM W ER NE EG NM NR WR NC US H) as (keep & EK & K).
  exists keep. split; [exact EK|]. intros t r I.
  assert (FR : first_row ref t r).
  { unfold first_row. unfold findex in NT. clear -NT I. induction (frows ref) as [|[t' r'] l IH]; [contradiction|]. cbn in *. apply NoDup_cons_iff in NT as [N1 N2].
    destruct I as [E|I]; [injection E as -> ->; rewrite Z.eqb_refl; reflexivity|]. destruct (Z.eqb_spec t' t) as [->|N]; [|apply IH; assumption].
    exfalso. apply N1, in_map_iff. exists (t, r). auto. }
  destruct (K t r FR) as (K1 & K2). assert (AV : forall rc, In rc rcs -> exists i, nth_error (fcols ref) i = Some rc /\ nth i r None <> None).
  { intros rc Hrc. apply IC, In_nth_error in Hrc as (i & Ei). exists i. split; [exact Ei|]. apply (CV t r _ I), nth_In. rewrite (WR t r I). apply nth_error_Some. congruence. }
  split.
  - intros KT M. rewrite (K2 M AV) in KT. discriminate.
  - intros NMk. destruct (keep (t, r)) eqn:E; [reflexivity|]. exfalso. apply NMk, K1. reflexivity.
Qed.
(* Neither bound can be improved: the last reference column decides, a masking value True does not
   remove the first observation, whose second reference column is missing. *)
Definition two_col_mask : frame := mkFrame ["z"%string] [(11, [Some 1%Q]); (21, [Some 1%Q])].
Definition two_col_ref (a b : cell) : frame := mkFrame ["x"; "y"]%string [(10, [a; b]); (20, [Some 2%Q; Some 3%Q]); (30, [Some 4%Q; Some 5%Q])].
Definition two_col_cfg : @config nat Z :=
  mkCfg [("a", ["x"; "y"])]%string "a" "a" "a" ex_get (combinatory_matcher (fun v => v) 0 2) None []
    (Some ([("_reference", ["x"; "y"]); ("m", ["z"])]%string, fun _ => Ok [("m"%string, two_col_mask)])).
Theorem C34_last_column_decides_refuted :
  exists mds gm masked1 masked2, c_mask two_col_cfg = Some (mds, gm) /\
    mask_dataset two_col_cfg mds gm (two_col_ref (Some 1%Q) None) 0%nat = Ok masked1 /\ findex masked1 = [10; 30] /\
    mask_dataset two_col_cfg mds gm (two_col_ref None (Some 1%Q)) 0%nat = Ok masked2 /\ findex masked2 = [30].
Proof. do 4 eexists. split; [reflexivity|]. split; [vm_compute; reflexivity|]. split; [reflexivity|]. split; [vm_compute; reflexivity|]. reflexivity. Qed.
Example C34_ex_columns : exists mds gm masked, c_mask two_col_cfg = Some (mds, gm) /\ wf_dict mds /\ In ("_reference"%string, ["x"; "y"]%string) mds /\
  incl ["x"; "y"]%string (fcols (two_col_ref (Some 1%Q) (Some 7%Q))) /\ gm 0%nat = Ok [("m"%string, two_col_mask)] /\ usable two_col_mask /\
  mask_dataset two_col_cfg mds gm (two_col_ref (Some 1%Q) (Some 7%Q)) 0%nat = Ok masked /\ findex masked = [30].
Proof.
  do 3 eexists. split; [reflexivity|]. split; [|split; [left; reflexivity|]].
  - split; [repeat constructor; cbn; intuition discriminate|]. intros k cs [E|[E|[]]]; injection E as <- <-; repeat constructor; cbn; intuition discriminate.
  - split; [apply incl_refl|]. split; [reflexivity|]. split; [split; [intros t r [E|[E|[]]]; injection E as <- <-; reflexivity|left; cbn; repeat constructor; lia]|].
    split; [vm_compute; reflexivity|reflexivity].
Qed.
Print Assumptions C34_reference_columns_partial.
Print Assumptions C34_complete_reference_partial.
Print Assumptions C34_last_column_decides_refuted.
