(* Lemmas about the dictionary of the extended collocation. *)
From Verif Require Import Base NamesModel GroupingModel MatchersModel TcolModel DfMetricsModel EcolModel EcolSpec.
From Coq Require Import Reals Qreals Lia Lra.
Import ListNotations.
Open Scope R_scope.

(* ---- the vector ---- *)
Lemma split_list {A} (a b l : list A) n : List.length a = n -> l = a ++ b -> firstn n l = a /\ skipn n l = b.
Proof.
  intros <- ->. split; [rewrite firstn_app, Nat.sub_diag, firstn_all, firstn_O, app_nil_r; reflexivity|].
  rewrite skipn_app, Nat.sub_diag, skipn_all. reflexivity.
Qed.
Lemma n_at_app a b i : (i < List.length a)%nat -> n_at (a ++ b) i = n_at a i.
Proof. intros H. unfold n_at. apply app_nth1, H. Qed.

Lemma append_all n base l acc :
  (forall ip, In ip l -> (2 * n + fst ip < List.length base)%nat /\ (n + fst (snd ip) < List.length base)%nat /\ (n + snd (snd ip) < List.length base)%nat) ->
  fold_left (append_corr n) l (base ++ acc) =
  base ++ acc ++ map (fun ip => n_corr (n_at base (2 * n + fst ip)) (n_at base (n + fst (snd ip))) (n_at base (n + snd (snd ip)))) l.
Proof.
  revert acc. induction l as [|ip l IH]; intros acc B; cbn [fold_left map]; [rewrite app_nil_r; reflexivity|].
  destruct (B ip (or_introl eq_refl)) as (B1 & B2 & B3). unfold append_corr at 2. rewrite !n_at_app by assumption.
  rewrite <- app_assoc, IH by (intros; apply B; right; assumption). rewrite <- app_assoc. reflexivity.
Qed.

Lemma arrange_parts n co (ae : bool) (xs xc xe xv : list (option R)) : List.length xs = n -> List.length xc = List.length co -> List.length xe = n -> List.length xv = List.length co ->
  columns_of n co ->
  let a l := if ae then map (omap Rabs) l else l in
  arrange n co ae (xs ++ xc ++ xe ++ xv) =
  a xs ++ a xe ++ map2 n_db (a xs) (a xe) ++ xv ++ map (fun pv => n_corr (snd pv) (nth (fst (fst pv)) xe None) (nth (snd (fst pv)) xe None)) (combine co xv).
Proof.
  intros LS LC LE LV PO a. unfold arrange. set (k := List.length co) in *.
  assert (D : delete_cross n k (xs ++ xc ++ xe ++ xv) = (xs ++ xe ++ xv) ++ []).
  { unfold delete_cross. rewrite (proj1 (split_list xs (xc ++ xe ++ xv) _ n LS eq_refl)).
    rewrite (proj2 (split_list (xs ++ xc) (xe ++ xv) _ (n + k)%nat ltac:(rewrite app_length; lia) (app_assoc _ _ _))). rewrite app_nil_r. reflexivity. }
  rewrite D, append_all; [|intros [i p] I; cbn [fst snd]; assert (I2 := in_combine_r _ _ _ _ I); apply in_combine_l, in_seq in I; destruct (PO p I2); rewrite !app_length; lia].
  set (cr := map _ (combine (seq 0 k) co)). cbn [app].
  assert (CR : cr = map (fun pv => n_corr (snd pv) (nth (fst (fst pv)) xe None) (nth (snd (fst pv)) xe None)) (combine co xv)).
  { unfold cr. assert (E : forall i, (i < k)%nat -> n_at (xs ++ xe ++ xv) (2 * n + i) = nth i xv None).
    { intros i Hi. unfold n_at. rewrite app_nth2 by lia. rewrite app_nth2 by lia. f_equal. lia. }
    assert (E2 : forall i, (i < n)%nat -> n_at (xs ++ xe ++ xv) (n + i) = nth i xe None).
    { intros i Hi. unfold n_at. rewrite app_nth2 by lia. rewrite app_nth1 by lia. f_equal. lia. }
    transitivity (map (fun ip : nat * (nat * nat) => n_corr (nth (fst ip) xv None) (nth (fst (snd ip)) xe None) (nth (snd (snd ip)) xe None)) (combine (seq 0 k) co)).
    { apply map_ext_in. intros [i p] I. cbn [fst snd]. assert (I2 := in_combine_r _ _ _ _ I). apply in_combine_l, in_seq in I. destruct (PO p I2). rewrite E, !E2 by lia. reflexivity. }
    clear - LV. unfold k. set (w := xv) at 1.
    assert (G : forall (l : list (nat * nat)) (v : list (option R)) m, List.length v = List.length l -> (forall i, (i < List.length l)%nat -> nth (m + i) w None = nth i v None) ->
      map (fun ip : nat * (nat * nat) => n_corr (nth (fst ip) w None) (nth (fst (snd ip)) xe None) (nth (snd (snd ip)) xe None)) (combine (seq m (List.length l)) l)
      = map (fun pv => n_corr (snd pv) (nth (fst (fst pv)) xe None) (nth (snd (fst pv)) xe None)) (combine l v)).
    { induction l as [|p l IH]; intros [|x v] m LV' H; cbn in LV'; try discriminate; [reflexivity|]. cbn [List.length seq combine map fst snd]. f_equal.
      - pose proof (H 0%nat ltac:(cbn; lia)) as H0. rewrite Nat.add_0_r in H0. cbn [nth] in H0. rewrite H0. reflexivity.
      - apply IH; [lia|]. intros i Hi. replace (S m + i)%nat with (m + S i)%nat by lia. apply (H (S i)). cbn. lia. }
    apply G; [exact LV|]. intros i Hi. reflexivity. }
  rewrite CR. set (c2 := map _ (combine co xv)).
  assert (A : absolute n ae (((xs ++ xe ++ xv)) ++ c2) = (a xs ++ a xe) ++ xv ++ c2).
  { unfold absolute, a. destruct ae; [|rewrite <- !app_assoc; reflexivity].
    assert (SP : (xs ++ xe ++ xv) ++ c2 = (xs ++ xe) ++ (xv ++ c2)) by (rewrite <- !app_assoc; reflexivity).
    destruct (split_list (xs ++ xe) (xv ++ c2) _ (2 * n)%nat ltac:(rewrite app_length; lia) SP) as [-> ->]. rewrite map_app. reflexivity. }
  rewrite A. assert (LA : List.length (a xs) = n /\ List.length (a xe) = n) by (unfold a; destruct ae; rewrite ?map_length; split; assumption). destruct LA as [LA1 LA2].
  unfold insert_snr. destruct (split_list (a xs ++ a xe) (xv ++ c2) _ (2 * n)%nat ltac:(rewrite app_length; lia) eq_refl) as [-> ->].
  destruct (split_list (a xs) (a xe ++ xv ++ c2) ((a xs ++ a xe) ++ xv ++ c2) n LA1 ltac:(rewrite <- !app_assoc; reflexivity)) as [-> ->].
  rewrite (proj1 (split_list (a xe) (xv ++ c2) _ n LA2 eq_refl)). rewrite <- !app_assoc. reflexivity.
Qed.

(* ---- the dictionary ---- *)
Lemma dict_get_set' {V} (d : list (string * V)) k v x : dict_get (dict_set String.eqb d k v) x = if String.eqb k x then Some v else dict_get d x.
Proof.
  unfold dict_get. induction d as [|[k' v'] d IH]; cbn; [destruct (String.eqb k x); reflexivity|].
  destruct (String.eqb_spec k' k) as [E|N]; cbn.
  - subst k'. destruct (String.eqb k x); reflexivity.
  - destruct (String.eqb_spec k' x) as [E|N']; cbn; [subst x|exact IH]. destruct (String.eqb_spec k k') as [E|_]; [congruence|reflexivity].
Qed.
Lemma fold_get {V} (l : list (string * V)) d x : ~ In x (map fst l) ->
  dict_get (fold_left (fun d kv => dict_set String.eqb d (fst kv) (snd kv)) l d) x = dict_get d x.
Proof.
  revert d. induction l as [|[k v] l IH]; intros d N; [reflexivity|]. cbn [fold_left map fst snd In] in *. rewrite IH by tauto. rewrite dict_get_set'.
  destruct (String.eqb_spec k x) as [E|_]; [exfalso; tauto|reflexivity].
Qed.
Lemma to_dict_last pre k v post : ~ In k (map fst post) -> dict_get (to_dict (pre ++ (k, v) :: post)) k = Some v.
Proof. intros N. unfold to_dict. rewrite fold_left_app. cbn [fold_left fst snd]. rewrite fold_get by exact N. rewrite dict_get_set', String.eqb_refl. reflexivity. Qed.
Lemma to_dict_none l k : dict_get (to_dict l) k <> None <-> In k (map fst l).
Proof.
  unfold to_dict. assert (G : forall d, dict_get (fold_left (fun d kv => dict_set String.eqb d (fst kv) (snd kv)) l d) k <> None <-> dict_get d k <> None \/ In k (map fst l)).
  { induction l as [|[a v] l IH]; intros d; cbn [fold_left map fst snd In]; [tauto|]. rewrite IH, dict_get_set'. destruct (String.eqb_spec a k) as [E|N]; [|tauto].
    split; [tauto|]. intros _. left. discriminate. }
  rewrite G. cbn. tauto.
Qed.
Lemma to_dict_in l k v : dict_get (to_dict l) k = Some v -> In (k, v) l.
Proof.
  unfold to_dict. assert (G : forall d, dict_get (fold_left (fun d kv => dict_set String.eqb d (fst kv) (snd kv)) l d) k = Some v -> dict_get d k = Some v \/ In (k, v) l).
  { induction l as [|[a w] l IH]; intros d; cbn [fold_left fst snd In]; [tauto|]. intros H. apply IH in H as [H|H]; [|tauto]. rewrite dict_get_set' in H.
    destruct (String.eqb_spec a k) as [E|N]; [|tauto]. right. left. congruence. }
  intros H. apply G in H as [H|H]; [discriminate H|exact H].
Qed.

Lemma combine_at {A B} (ks : list A) (vs : list B) i k v : List.length vs = List.length ks -> nth_error ks i = Some k -> nth_error vs i = Some v ->
  combine ks vs = combine (firstn i ks) (firstn i vs) ++ (k, v) :: combine (skipn (S i) ks) (skipn (S i) vs).
Proof.
  revert ks vs. induction i as [|i IH]; intros [|k' ks] [|v' vs] L HK HV; cbn in *; try discriminate; [congruence|]. f_equal. apply IH; [lia|exact HK|exact HV].
Qed.
Lemma map_fst_combine {A B} (l : list A) (m : list B) : List.length m = List.length l -> map fst (combine l m) = l.
Proof. revert m. induction l as [|x l IH]; intros [|y m] H; cbn in *; try discriminate; [reflexivity|]. f_equal. apply IH. lia. Qed.

(* one block of keys and values *)
Lemma block_get pre (ks : list string) (vs : list (option R)) post i k v : List.length vs = List.length ks ->
  nth_error ks i = Some k -> nth_error vs i = Some v -> (forall j, (i < j)%nat -> nth_error ks j <> Some k) -> ~ In k (map fst post) ->
  dict_get (to_dict (pre ++ combine ks vs ++ post)) k = Some v.
Proof.
  intros L HK HV LA NP. rewrite (combine_at ks vs i k v L HK HV). rewrite <- app_assoc. cbn [app]. rewrite app_assoc. apply to_dict_last.
  rewrite map_app, in_app_iff. intros [I|I]; [|contradiction].
  rewrite map_fst_combine in I by (rewrite !skipn_length; lia). apply In_nth_error in I as [j J]. apply (LA (S i + j)%nat ltac:(lia)).
  rewrite <- J. symmetry. clear. revert ks. generalize (S i) as m. induction m as [|m IH]; intros [|x ks]; cbn; try reflexivity; [destruct j; reflexivity|apply IH].
Qed.
