(* Proofs about StoredModel. *)
From Verif Require Export StoredModel.
From Verif Require Import BaseProofs GroupingProofs.
Open Scope Z_scope.

Lemma gp_get_set {V} (d : list (Z * V)) k v k' : gp_get (dict_set Z.eqb d k v) k' = if k' =? k then Some v else gp_get d k'.
Proof.
  unfold gp_get. induction d as [|[a b] d IH]; cbn.
  - destruct (Z.eqb_spec k k'); subst; [rewrite Z.eqb_refl; reflexivity|]. destruct (Z.eqb_spec k' k); [congruence|reflexivity].
  - destruct (Z.eqb_spec a k); cbn.
    + subst. destruct (Z.eqb_spec k k'); destruct (Z.eqb_spec k' k); try congruence; reflexivity.
    + destruct (Z.eqb_spec a k'); cbn; [|exact IH]. destruct (Z.eqb_spec k' k); [congruence|reflexivity].
Qed.
Lemma str_get_set {V} (d : list (string * V)) k v k' : str_get (dict_set String.eqb d k v) k' = if String.eqb k' k then Some v else str_get d k'.
Proof.
  unfold str_get. induction d as [|[a b] d IH]; cbn.
  - destruct (String.eqb_spec k k'); subst; [rewrite String.eqb_refl; reflexivity|]. destruct (String.eqb_spec k' k); [congruence|reflexivity].
  - destruct (String.eqb_spec a k); cbn.
    + subst. destruct (String.eqb_spec k k'); destruct (String.eqb_spec k' k); try congruence; reflexivity.
    + destruct (String.eqb_spec a k'); cbn; [|exact IH]. destruct (String.eqb_spec k' k); [congruence|reflexivity].
Qed.

(* ---- the parameters of a point are written once *)
Lemma scale_store o st data ref gpi g :
  gp_get (fst (stored_scale o st data ref gpi)) g =
    match gp_get st g with
    | Some p => Some p
    | None => if g =? gpi then match calc_parameters o data ref with Ok (e :: l) => Some (e :: l) | _ => None end else None
    end.
Proof.
  unfold stored_scale, get_parameters. destruct (gp_get st gpi) as [p|] eqn:E.
  - cbn. destruct (gp_get st g) eqn:E2; [reflexivity|]. destruct (Z.eqb_spec g gpi); [congruence|reflexivity].
  - destruct (calc_parameters o data ref) as [[|e l]|x]; cbn [bindR store_parameters mapR fst].
    + destruct (gp_get st g); [reflexivity|]. destruct (g =? gpi); reflexivity.
    + rewrite gp_get_set. destruct (Z.eqb_spec g gpi); [subst; rewrite E; reflexivity|]. destruct (gp_get st g); reflexivity.
    + destruct (gp_get st g); [reflexivity|]. destruct (g =? gpi); reflexivity.
Qed.
Lemma stored_fixed o calls : forall st g p, gp_get st g = Some p -> gp_get (fst (scale_run o st calls)) g = Some p.
Proof.
  induction calls as [|c calls IH]; intros st g p H; cbn; [exact H|].
  destruct (stored_scale o st (sc_data c) (sc_ref c) (sc_gpi c)) as [st1 x] eqn:E.
  specialize (IH st1 g p). destruct (scale_run o st1 calls) as [st2 xs]. cbn in *. apply IH.
  assert (E1 : st1 = fst (stored_scale o st (sc_data c) (sc_ref c) (sc_gpi c))) by (rewrite E; reflexivity).
  rewrite E1, scale_store, H. reflexivity.
Qed.
(* the outcome depends on the parameters of the point only *)
Lemma scale_local o st1 st2 data ref gpi : gp_get st1 gpi = gp_get st2 gpi ->
  snd (stored_scale o st1 data ref gpi) = snd (stored_scale o st2 data ref gpi).
Proof.
  intros H. unfold stored_scale, get_parameters. rewrite H. destruct (gp_get st2 gpi); [reflexivity|].
  destruct (calc_parameters o data ref) as [[|e l]|x]; reflexivity.
Qed.
Lemma scale_ok_stored o st data ref gpi out : snd (stored_scale o st data ref gpi) = Ok out ->
  exists p, gp_get (fst (stored_scale o st data ref gpi)) gpi = Some p /\ scale_columns p data ref = Ok out /\
    (gp_get st gpi = Some p \/ gp_get st gpi = None /\ calc_parameters o data ref = Ok p).
Proof.
  unfold stored_scale, get_parameters. destruct (gp_get st gpi) as [p|] eqn:E; cbn.
  - intros H. exists p. auto.
  - destruct (calc_parameters o data ref) as [[|e l]|x]; cbn; intros H; try discriminate.
    exists (e :: l). rewrite gp_get_set, Z.eqb_refl. auto.
Qed.
Lemma scale_with_stored o st data ref gpi p : gp_get st gpi = Some p ->
  stored_scale o st data ref gpi = (st, scale_columns p data ref).
Proof. intros H. unfold stored_scale, get_parameters. rewrite H. reflexivity. Qed.

Lemma scale_run_app o a : forall st b, scale_run o st (a ++ b) =
  (fst (scale_run o (fst (scale_run o st a)) b), snd (scale_run o st a) ++ snd (scale_run o (fst (scale_run o st a)) b)).
Proof.
  induction a as [|c a IH]; intros st b; cbn [app scale_run].
  - cbn [fst snd app]. destruct (scale_run o st b); reflexivity.
  - destruct (stored_scale o st (sc_data c) (sc_ref c) (sc_gpi c)) as [st1 x]. rewrite IH.
    destruct (scale_run o st1 a) as [st2 xs]. reflexivity.
Qed.
Lemma scale_run_length o calls : forall st, List.length (snd (scale_run o st calls)) = List.length calls.
Proof.
  induction calls as [|c calls IH]; intros st; cbn; [reflexivity|].
  destruct (stored_scale o st (sc_data c) (sc_ref c) (sc_gpi c)) as [st1 x]. specialize (IH st1). destruct (scale_run o st1 calls). cbn in *. lia.
Qed.

Definition outcomes_at (g : Z) (calls : list scale_call) (outs : list (res columns)) : list (res columns) :=
  map snd (filter (fun co => sc_gpi (fst co) =? g) (combine calls outs)).
Lemma run_local o g calls : forall st1 st2, gp_get st1 g = gp_get st2 g ->
  outcomes_at g calls (snd (scale_run o st1 calls)) = snd (scale_run o st2 (filter (fun c => sc_gpi c =? g) calls)).
Proof.
  unfold outcomes_at. induction calls as [|c calls IH]; intros st1 st2 H; cbn; [reflexivity|].
  destruct (stored_scale o st1 (sc_data c) (sc_ref c) (sc_gpi c)) as [s1 x1] eqn:E1.
  assert (F1 : s1 = fst (stored_scale o st1 (sc_data c) (sc_ref c) (sc_gpi c))) by (rewrite E1; reflexivity).
  assert (X1 : x1 = snd (stored_scale o st1 (sc_data c) (sc_ref c) (sc_gpi c))) by (rewrite E1; reflexivity).
  destruct (Z.eqb_spec (sc_gpi c) g) as [G|G]; cbn [scale_run].
  - destruct (stored_scale o st2 (sc_data c) (sc_ref c) (sc_gpi c)) as [s2 x2] eqn:E2.
    assert (F2 : s2 = fst (stored_scale o st2 (sc_data c) (sc_ref c) (sc_gpi c))) by (rewrite E2; reflexivity).
    assert (X2 : x2 = snd (stored_scale o st2 (sc_data c) (sc_ref c) (sc_gpi c))) by (rewrite E2; reflexivity).
    specialize (IH s1 s2). rewrite F1 in IH at 1. rewrite F2 in IH at 1. rewrite !scale_store, H in IH. specialize (IH eq_refl).
    destruct (scale_run o s1 calls) as [t1 y1]. destruct (scale_run o s2 (filter _ calls)) as [t2 y2]. cbn [snd] in *.
    cbn [combine filter fst]. rewrite G, Z.eqb_refl. cbn [map snd]. f_equal; [|exact IH].
    rewrite X1, X2. apply scale_local. rewrite G. exact H.
  - specialize (IH s1 st2). rewrite F1 in IH at 1. rewrite scale_store, H in IH.
    assert (Q : match gp_get st2 g with Some p => Some p | None => if g =? sc_gpi c then match calc_parameters o (sc_data c) (sc_ref c) with Ok (e :: l) => Some (e :: l) | _ => None end else None end = gp_get st2 g).
    { destruct (gp_get st2 g); [reflexivity|]. destruct (Z.eqb_spec g (sc_gpi c)); [congruence|reflexivity]. }
    specialize (IH Q). destruct (scale_run o s1 calls) as [t1 y1]. cbn [snd] in *. cbn [combine filter fst].
    destruct (Z.eqb_spec (sc_gpi c) g); [congruence|]. exact IH.
Qed.

(* ---- calc_parameters *)
Lemma str_app_inv_tail (a b c : string) : (a ++ c)%string = (b ++ c)%string -> a = b.
Proof.
  intros H. assert (L : String.length a = String.length b).
  { assert (X : forall u v, String.length (u ++ v)%string = (String.length u + String.length v)%nat) by (induction u; intros; cbn; [|rewrite IHu]; reflexivity).
    assert (Y : String.length (a ++ c)%string = String.length (b ++ c)%string) by (rewrite H; reflexivity). rewrite !X in Y. lia. }
  revert b H L. induction a as [|x a IH]; intros [|y b] H L; try discriminate; [reflexivity|]. cbn in H. injection H as -> H. f_equal. apply IH; [exact H|]. cbn in L. lia.
Qed.
Lemma param_key_inj a b r : param_key a r = param_key b r -> a = b.
Proof. apply str_app_inv_tail. Qed.

Lemma seqR_inv {A B} (f : A -> res B) l : forall out, seqR (map f l) = Ok out -> Forall2 (fun a b => f a = Ok b) l out.
Proof.
  induction l as [|a l IH]; intros out H; cbn in H; [injection H as <-; constructor|].
  destruct (f a) as [b|e] eqn:E; [|discriminate]. cbn in H. destruct (seqR (map f l)) as [o|e]; [|discriminate]. cbn in H. injection H as <-.
  constructor; [exact E|]. apply IH. reflexivity.
Qed.
Lemma py_index_in {A} (l : list A) i a : py_index l i = Ok a -> In a l.
Proof.
  unfold py_index. destruct (_ && _); [|discriminate]. destruct (nth_error l _) as [x|] eqn:E; [|discriminate]. intros H. injection H as <-. exact (nth_error_In _ _ E).
Qed.
Lemma fold_set_get {V} (l : list (string * V)) : forall d k, NoDup (map fst l) ->
  str_get (fold_left (fun d e => dict_set String.eqb d (fst e) (snd e)) l d) k =
    match str_get l k with Some v => Some v | None => str_get d k end.
Proof.
  induction l as [|[a v] l IH]; intros d k N; cbn [fold_left]; [reflexivity|]. cbn [map fst] in N. apply NoDup_cons_iff in N as [N1 N2].
  rewrite IH by exact N2. cbn [fst snd]. rewrite str_get_set. unfold str_get at 3. cbn [find fst].
  destruct (String.eqb_spec a k); cbn [option_map snd].
  - subst. rewrite String.eqb_refl. unfold str_get. destruct (find (fun e : string * V => (fst e =? k)%string) l) as [e|] eqn:E; [|reflexivity].
    exfalso. apply N1. apply find_some in E as [E1 E2]. apply String.eqb_eq in E2. subst. apply in_map. exact E1.
  - destruct (String.eqb_spec k a); [congruence|]. reflexivity.
Qed.
Lemma str_get_in {V} (l : list (string * V)) k v : NoDup (map fst l) -> In (k, v) l -> str_get l k = Some v.
Proof.
  unfold str_get. induction l as [|[a w] l IH]; intros N I; [destruct I|]; destruct I as [E|H]; cbn.
  - injection E as -> ->. rewrite String.eqb_refl. reflexivity.
  - cbn in N. apply NoDup_cons_iff in N as [N1 N2]. destruct (String.eqb_spec a k); [subst; exfalso; apply N1; apply in_map_iff; exists (k, v); auto|]. apply IH; assumption.
Qed.

Lemma Forall2_In_l {A B} (R : A -> B -> Prop) l m : Forall2 R l m -> forall a, In a l -> exists b, In b m /\ R a b.
Proof. induction 1 as [|x y l m H F IH]; intros a I; [destruct I|]. destruct I as [->|I]; [exists y; split; [left; reflexivity|exact H]|]. destruct (IH a I) as (b & X & Y). exists b. split; [right|]; assumption. Qed.

Lemma calc_parameters_get o data ri ref p : NoDup (map fst data) -> py_index data ri = Ok ref -> calc_parameters o data ri = Ok p ->
  (forall c, In c data -> fst c <> fst ref ->
     exists t, str_get p (param_key (fst c) (fst ref)) = Some t /\ cdf_fit (matcher_opts o) (snd c) (snd ref) = Ok t) /\
  (forall n t, str_get p (param_key n (fst ref)) = Some t ->
     exists c, In c data /\ fst c = n /\ fst c <> fst ref /\ cdf_fit (matcher_opts o) (snd c) (snd ref) = Ok t).
Proof.
  intros N R H. unfold calc_parameters in H. rewrite R in H. cbn [bindR] in H.
  set (others := filter (fun c => negb (String.eqb (fst c) (fst ref))) data) in H.
  destruct (seqR _) as [l|e] eqn:E; [|discriminate]. cbn [bindR] in H. injection H as <-. apply seqR_inv in E.
  assert (NO : NoDup (map fst others)).
  { unfold others. clear -N. induction data as [|x l IH]; cbn; [constructor|]. cbn in N. apply NoDup_cons_iff in N as [N1 N2].
    destruct (negb _); cbn; [|apply IH; exact N2]. constructor; [|apply IH; exact N2]. intros X. apply N1. apply in_map_iff in X as (y & Y1 & Y2). apply filter_In in Y2 as [Y2 _].
    apply in_map_iff. exists y. auto. }
  assert (KL : map fst l = map (fun c => param_key (fst c) (fst ref)) others).
  { clear -E. induction E as [|c e os l H F IH]; cbn; [reflexivity|]. f_equal; [|exact IH]. destruct (cdf_fit _ (snd c) (snd ref)); [|discriminate]. cbn in H. injection H as <-. reflexivity. }
  assert (NL : NoDup (map fst l)).
  { rewrite KL. clear -NO. induction others as [|x os IH]; cbn; [constructor|]. cbn in NO. apply NoDup_cons_iff in NO as [N1 N2]. constructor; [|apply IH; exact N2].
    intros X. apply in_map_iff in X as (y & Y1 & Y2). apply param_key_inj in Y1. apply N1. rewrite <- Y1. apply in_map. exact Y2. }
  split.
  - intros c Hc Hn. destruct (Forall2_In_l _ _ _ E c) as (e & He & F).
    + apply filter_In. split; [exact Hc|]. destruct (String.eqb_spec (fst c) (fst ref)); [contradiction|reflexivity].
    + destruct (cdf_fit _ (snd c) (snd ref)) as [t|x] eqn:FT; [|discriminate]. cbn in F. injection F as <-. exists t. split; [|reflexivity].
      rewrite fold_set_get by exact NL. rewrite (str_get_in l _ t NL He). reflexivity.
  - intros n t Ht. rewrite fold_set_get in Ht by exact NL. destruct (str_get l _) as [t'|] eqn:Gl; [|discriminate]. injection Ht as ->.
    unfold str_get in Gl. destruct (find _ l) as [e|] eqn:Fi; [|discriminate]. cbn in Gl. injection Gl as <-. apply find_some in Fi as [Fi1 Fi2]. apply String.eqb_eq in Fi2.
    assert (X : exists c, In c others /\ mapR (fun t => (param_key (fst c) (fst ref), t)) (cdf_fit (matcher_opts o) (snd c) (snd ref)) = Ok e).
    { clear -E Fi1. induction E as [|c e' os l H F IH]; [contradiction|]. destruct Fi1 as [->|Fi1]; [exists c; split; [left; reflexivity|exact H]|].
      destruct (IH Fi1) as (c' & A & B). exists c'. split; [right|]; assumption. }
    destruct X as (c & C1 & C2). destruct (cdf_fit _ (snd c) (snd ref)) as [t|x] eqn:FT; [|discriminate]. cbn in C2. injection C2 as <-. cbn in Fi2.
    apply param_key_inj in Fi2. apply filter_In in C1 as [C1 C3]. exists c. split; [exact C1|]. split; [exact Fi2|]. split; [|exact FT].
    destruct (String.eqb_spec (fst c) (fst ref)); [discriminate|assumption].
Qed.

Lemma scale_columns_inv p data ri ref out : py_index data ri = Ok ref -> scale_columns p data ri = Ok out ->
  Forall2 (fun c d => fst d = fst c /\
    (fst c = fst ref /\ snd d = snd c \/
     fst c <> fst ref /\ exists t, str_get p (param_key (fst c) (fst ref)) = Some t /\ snd d = cdf_predict t (snd c))) data out.
Proof.
  intros R H. unfold scale_columns in H. rewrite R in H. cbn [bindR] in H. apply seqR_inv in H.
  clear R. induction H as [|c d l m X F IH]; constructor; [|exact IH].
  destruct (String.eqb_spec (fst c) (fst ref)) as [E|E]; [injection X as <-; auto|].
  destruct (str_get p _) as [t|] eqn:G; [|discriminate]. injection X as <-. split; [reflexivity|]. right. split; [exact E|]. exists t. auto.
Qed.
Lemma Forall2_weaken {A B} (P R : A -> B -> Prop) l m : (forall a b, P a b -> R a b) -> Forall2 P l m -> Forall2 R l m.
Proof. intros H. induction 1; constructor; auto. Qed.
