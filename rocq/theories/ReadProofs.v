(* Proofs about reading, upscaling and the data manager. *)
From Verif Require Import ReadSpec BaseProofs SortProofs NamesProofs TemporalProofs MatchersProofs.
From Verif Require Import TemporalModel TemporalSpec.
From Coq Require Import Lqa.

(* --------------------------------------------------------------- read_ds *)

Lemma accept_read_some period o f : accept_read period o = Ok (Some f) <->
  exists g, o = RFrame g /\ frows f <> [] /\
    f = match period with Some p => period_slice p g | None => g end.
Proof.
  split.
  - destruct o as [g|[n|]| |msg|e]; cbn; try discriminate.
    + destruct (Nat.eqb (List.length (frows g)) 0) eqn:E; [discriminate|].
      destruct (Nat.eqb (List.length (frows match period with Some p => period_slice p g | None => g end)) 0) eqn:E'; [discriminate|].
      intros H. injection H as <-. exists g. split; [reflexivity|]. split; [|reflexivity].
      intros X. rewrite X in E'. discriminate.
    + destruct (String.eqb msg _); discriminate.
  - intros (g & -> & Ne & E). cbn.
    assert (Eg : Nat.eqb (List.length (frows g)) 0 = false).
    { apply Nat.eqb_neq. intros X. destruct (frows g) eqn:Eg; [|discriminate]. apply Ne. rewrite E.
      destruct period; cbn; rewrite ?Eg; reflexivity. }
    rewrite Eg, <- E. destruct (frows f); [congruence|reflexivity].
Qed.
Lemma accept_read_err period o e : accept_read period o = Err e <->
  o = RRaise e \/ (o = RObject None /\ e = EType) \/
  (exists msg, o = RRuntime msg /\ msg <> "No such file or directory"%string /\ e = EOther).
Proof.
  destruct o as [g|[n|]| |msg|e']; cbn.
  - split.
    + destruct (Nat.eqb _ 0); [discriminate|]. destruct (Nat.eqb _ 0); discriminate.
    + intros [H|[[H _]|(m & H & _)]]; discriminate.
  - split; [discriminate|]. intros [H|[[H _]|(m & H & _)]]; discriminate.
  - split; [intros H; injection H as <-; auto|]. intros [H|[[_ ->]|(m & H & _)]]; try discriminate. reflexivity.
  - split; [discriminate|]. intros [H|[[H _]|(m & H & _)]]; discriminate.
  - destruct (String.eqb_spec msg "No such file or directory") as [->|Ne].
    + split; [discriminate|]. intros [H|[[H _]|(m & H & N & _)]]; try discriminate. injection H as <-. congruence.
    + split; [intros H; injection H as <-; right; right; eauto|]. intros [H|[[H _]|(m & H & N & ->)]]; try discriminate. reflexivity.
  - split; [intros H; injection H as <-; auto|]. intros [H|[[H _]|(m & H & _)]]; try discriminate. congruence.
Qed.

(* --------------------------------------------------------------- data manager *)

Section Manager.
Variables (reader : string -> Z -> read_outcome) (period : option (Z * Z)) (store : cell -> cell) (oob : Z)
          (unstable : list cell -> list cell -> bool) (suffix : nat -> string).
Notation get_other := (get_other reader period store oob unstable suffix).
Notation other_loop := (other_loop reader period store oob unstable suffix).
Notation get_data := (get_data reader period store oob unstable suffix).
Notation chosen := (chosen reader period store oob unstable suffix).

Lemma get_other_chosen m gpi lon lat d l o : get_other m gpi lon lat d = (l, Ok o) <-> chosen m gpi lon lat d (l, o).
Proof.
  unfold ReadModel.get_other. split.
  - destruct (d_compatible d) eqn:C.
    + unfold read_ds. intros H. injection H as <- H. apply ch_same; assumption.
    + destruct (m_up m) as [[p luts]|] eqn:U.
      * destruct (luts (d_name d)) as [points|] eqn:L; [|discriminate]. intros H. eapply ch_up; eassumption.
      * destruct (d_lut d) as [lut|] eqn:L.
        -- destruct (lut gpi) as [g|e] eqn:G; cbn; [|discriminate]. destruct (g =? -1) eqn:E.
           ++ intros H. injection H as <- <-. apply Z.eqb_eq in E. subst. eapply ch_lut_none; eassumption.
           ++ unfold read_ds. intros H. injection H as <- H. apply Z.eqb_neq in E. eapply ch_lut; eassumption.
        -- destruct (d_nearest d lon lat) as [g [dist|]] eqn:N.
           ++ unfold read_ds. intros H. injection H as <- H. eapply ch_near; eassumption.
           ++ intros H. injection H as <- <-. eapply ch_near_none; eassumption.
  - intros H. inversion H as [o' C A|p luts points l' o' C U L G|lut g o' C U L G E A|lut C U L G|g dist o' C U L N A|g C U L N]; subst.
    + rewrite C. unfold read_ds. rewrite A. reflexivity.
    + rewrite C, U, L. exact G.
    + rewrite C, U, L, G. cbn. apply Z.eqb_neq in E. rewrite E. unfold read_ds. rewrite A. reflexivity.
    + rewrite C, U, L, G. reflexivity.
    + rewrite C, U, L, N. unfold read_ds. rewrite A. reflexivity.
    + rewrite C, U, L, N. reflexivity.
Qed.

Lemma sdict_set_fresh {V} (d : list (string * V)) k v : ~ In k (map fst d) -> dict_set String.eqb d k v = d ++ [(k, v)].
Proof.
  induction d as [|[k' v'] d IH]; cbn; intros H; [reflexivity|]. destruct (String.eqb_spec k' k) as [->|Ne]; [tauto|].
  rewrite IH by tauto. reflexivity.
Qed.

Lemma found_names ds outs x : In x (map fst (found ds outs)) -> In x (map d_name ds).
Proof.
  intros H. apply in_map_iff in H as ([k f] & <- & H). unfold found in H. apply in_concat in H as (l & Hl & H).
  apply in_map_iff in Hl as ([d o] & <- & Hd). cbn in H. apply in_combine_l in Hd.
  destruct (snd o); [|contradiction]. destruct H as [E|[]]. injection E as <- _. cbn. apply in_map. exact Hd.
Qed.

Lemma other_loop_spec m gpi lon lat ds outs acc :
  Forall2 (chosen m gpi lon lat) ds outs -> NoDup (map d_name ds) ->
  (forall d, In d ds -> ~ In (d_name d) (map fst acc)) ->
  other_loop m gpi lon lat ds acc = (List.concat (map fst outs), Ok (acc ++ found ds outs)).
Proof.
  intros F. revert acc. induction F as [|d [l o] ds outs H F IH]; intros acc N A.
  - cbn. rewrite app_nil_r. reflexivity.
  - cbn [ReadModel.other_loop]. apply get_other_chosen in H. rewrite H. cbn [bindM]. cbn in N. inversion N as [|? ? N1 N2]; subst.
    destruct o as [f|].
    + rewrite sdict_set_fresh by (apply A; left; reflexivity). rewrite IH; [|exact N2|].
      * cbn. rewrite <- app_assoc. reflexivity.
      * intros d' Hd' X. rewrite map_app, in_app_iff in X. destruct X as [X|[X|[]]]; [apply (A d' (or_intror Hd')); exact X|].
        cbn in X. apply N1. rewrite X. apply in_map. exact Hd'.
    + rewrite IH; [reflexivity|exact N2|]. intros d' Hd'. apply A. right; exact Hd'.
Qed.

Lemma other_loop_err m gpi lon lat ds acc l e : other_loop m gpi lon lat ds acc = (l, Err e) ->
  exists d, In d ds /\ snd (get_other m gpi lon lat d) = Err e.
Proof.
  revert acc l. induction ds as [|d ds IH]; intros acc l H; [discriminate|]. cbn [ReadModel.other_loop] in H.
  destruct (get_other m gpi lon lat d) as [l1 [o|e1]] eqn:E; cbn [bindM] in H.
  - destruct (other_loop m gpi lon lat ds _) as [l2 r] eqn:E2. injection H as _ ->.
    destruct (IH _ _ E2) as (d' & Hd & He). exists d'. split; [right; exact Hd|exact He].
  - injection H as _ ->. exists d. split; [left; reflexivity|]. rewrite E. reflexivity.
Qed.
Lemma other_loop_ok m gpi lon lat ds acc l out : other_loop m gpi lon lat ds acc = (l, Ok out) ->
  exists outs, Forall2 (chosen m gpi lon lat) ds outs.
Proof.
  revert acc l. induction ds as [|d ds IH]; intros acc l H; [exists []; constructor|]. cbn [ReadModel.other_loop] in H.
  destruct (get_other m gpi lon lat d) as [l1 [o|e1]] eqn:E; cbn [bindM] in H; [|discriminate].
  destruct (other_loop m gpi lon lat ds _) as [l2 r] eqn:E2. injection H as _ ->.
  destruct (IH _ _ E2) as (outs & F). exists ((l1, o) :: outs). constructor; [apply get_other_chosen; exact E|exact F].
Qed.

Lemma get_data_no_ref m gpi lon lat : accept_read period (reader (m_ref m) gpi) = Ok None ->
  get_data m gpi lon lat = ([(m_ref m, gpi)], Ok []).
Proof. intros H. unfold ReadModel.get_data, read_ds. rewrite H. reflexivity. Qed.

Lemma get_data_spec m gpi lon lat rf outs : NoDup (m_ref m :: map d_name (m_others m)) ->
  accept_read period (reader (m_ref m) gpi) = Ok (Some rf) ->
  Forall2 (chosen m gpi lon lat) (m_others m) outs ->
  get_data m gpi lon lat =
  ((m_ref m, gpi) :: List.concat (map fst outs),
   Ok (match found (m_others m) outs with [] => [] | _ => found (m_others m) outs ++ [(m_ref m, rf)] end)).
Proof.
  intros N A F. inversion N as [|? ? N1 N2]; subst. unfold ReadModel.get_data, read_ds. rewrite A. cbn [bindM].
  rewrite (other_loop_spec m gpi lon lat _ outs [] F N2) by (intros d _ []). cbn [bindM app].
  destruct (found (m_others m) outs) as [|e r] eqn:E.
  - cbn. rewrite app_nil_r. reflexivity.
  - rewrite <- E. rewrite sdict_set_fresh by (intros X; apply N1; eapply found_names; exact X).
    cbn. rewrite app_nil_r. reflexivity.
Qed.

Lemma get_data_cases m gpi lon lat : NoDup (m_ref m :: map d_name (m_others m)) ->
  (exists e, accept_read period (reader (m_ref m) gpi) = Err e /\ snd (get_data m gpi lon lat) = Err e) \/
  accept_read period (reader (m_ref m) gpi) = Ok None \/
  (exists rf, accept_read period (reader (m_ref m) gpi) = Ok (Some rf) /\
     ((exists outs, Forall2 (chosen m gpi lon lat) (m_others m) outs) \/
      (exists d e, In d (m_others m) /\ snd (get_other m gpi lon lat d) = Err e /\ snd (get_data m gpi lon lat) = Err e))).
Proof.
  intros N. destruct (accept_read period (reader (m_ref m) gpi)) as [[rf|]|e] eqn:A.
  - right; right. exists rf. split; [reflexivity|]. unfold ReadModel.get_data, read_ds. rewrite A. cbn [bindM].
    destruct (other_loop m gpi lon lat (m_others m) []) as [l [out|e]] eqn:E.
    + left. eapply other_loop_ok; exact E.
    + right. destruct (other_loop_err _ _ _ _ _ _ _ _ E) as (d & Hd & He). exists d, e. cbn. auto.
  - auto.
  - left. exists e. split; [reflexivity|]. unfold ReadModel.get_data, read_ds. rewrite A. reflexivity.
Qed.
End Manager.
