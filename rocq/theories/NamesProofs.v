(* Proofs about array_dropna and the enumeration of result names. *)
From Verif Require Import NamesSpec BaseProofs SortProofs.
From Coq Require Import Lia.

(* ------------------------------------------------------------ array_dropna *)

Lemma mask_select_seq {A} (m : list bool) (l : list A) d : List.length m = List.length l ->
  mask_select m l = map (fun i => nth i l d) (filter (fun i => nth i m false) (seq 0 (List.length l))).
Proof.
  revert l; induction m as [|b m IH]; intros [|a l] L; try discriminate; [reflexivity|].
  injection L as L. cbn [mask_select List.length seq filter]. change (nth 0 (b :: m) false) with b.
  assert (E : map (fun i => nth i (a :: l) d) (filter (fun i => nth i (b :: m) false) (seq 1 (List.length l))) =
              map (fun i => nth i l d) (filter (fun i => nth i m false) (seq 0 (List.length l)))).
  { rewrite <- seq_shift. generalize (seq 0 (List.length l)). intros s. induction s as [|i s IHs]; [reflexivity|].
    cbn [map filter nth] in *. destruct (nth i m false); cbn [map nth] in *; rewrite IHs; reflexivity. }
  destruct b; cbn [map]; rewrite E, IH by exact L; reflexivity.
Qed.

Lemma nth_map2_orb a b i : List.length a = List.length b -> nth i (map2 orb a b) false = nth i a false || nth i b false.
Proof. revert b i; induction a as [|x a IH]; intros [|y b] [|i] L; try discriminate; try reflexivity. cbn. apply IH. injection L; auto. Qed.
Lemma nth_map_in {A B} (f : A -> B) l i d e : (i < List.length l)%nat -> nth i (map f l) e = f (nth i l d).
Proof. intros H. rewrite (nth_indep _ e (f d)) by (rewrite map_length; exact H). apply map_nth. Qed.

Lemma dropna_select (a b x : list cell) : List.length a = List.length b -> List.length x = List.length a ->
  mask_select (map negb (map2 orb (map is_nan a) (map is_nan b))) x =
  keep_complete [a; b] (List.length a) x.
Proof.
  unfold cell in *. intros L Lx. unfold keep_complete.
  rewrite (mask_select_seq _ x None) by (rewrite map_length, map2_length; rewrite ?map_length; lia).
  f_equal. rewrite Lx. apply filter_ext_in. intros i Hi. apply in_seq in Hi.
  rewrite (nth_map_in negb _ i false) by (rewrite map2_length; rewrite ?map_length; lia).
  rewrite nth_map2_orb by (rewrite !map_length; exact L).
  rewrite (nth_map_in is_nan a i None), (nth_map_in is_nan b i None) by lia.
  unfold complete_at. cbn [forallb]. destruct (nth i a None), (nth i b None); reflexivity.
Qed.

Lemma array_dropna_two a b : List.length a = List.length b ->
  array_dropna [a; b] = Ok [keep_complete [a; b] (List.length a) a; keep_complete [a; b] (List.length a) b].
Proof.
  unfold cell in *. intros L. unfold array_dropna. cbn [map logical_or]. rewrite !map_length, L, Nat.eqb_refl. cbn [mapR map].
  rewrite !(dropna_select a b) by (unfold cell in *; congruence). unfold cell in *. rewrite ?L. reflexivity.
Qed.
(* with three arrays the third does not take part in the decision *)
Lemma array_dropna_three a b c : List.length a = List.length b -> List.length c = List.length a ->
  array_dropna [a; b; c] =
  Ok [keep_complete [a; b] (List.length a) a; keep_complete [a; b] (List.length a) b; keep_complete [a; b] (List.length a) c].
Proof.
  unfold cell in *. intros L Lc. unfold array_dropna. cbn [map logical_or]. rewrite !map_length, Lc, L, Nat.eqb_refl. cbn [mapR map andb].
  rewrite !(dropna_select a b) by (unfold cell in *; congruence). unfold cell in *. rewrite ?L. reflexivity.
Qed.
Lemma array_dropna_other arrs : (List.length arrs <> 2)%nat -> (List.length arrs <> 3)%nat -> array_dropna arrs = Err EType.
Proof. intros H2 H3. destruct arrs as [|a [|b [|c [|d r]]]]; cbn in *; try lia; reflexivity. Qed.

(* ------------------------------------------------------------ combinations *)

Inductive sublist {A} : list A -> list A -> Prop :=
| sub_nil l : sublist [] l
| sub_take x k l : sublist k l -> sublist (x :: k) (x :: l)
| sub_skip x k l : sublist k l -> sublist k (x :: l).

Lemma combinations_in {A} k (l c : list A) : In c (combinations k l) <-> sublist c l /\ List.length c = k.
Proof.
  revert k c; induction l as [|x l IH]; intros k c.
  - destruct k; cbn; split.
    + intros [<-|[]]. split; [constructor|reflexivity].
    + intros [S L]. destruct c; [left; reflexivity|discriminate].
    + intros [].
    + intros [S L]. inversion S; subst. discriminate.
  - destruct k.
    + cbn. split; [intros [<-|[]]; split; [constructor|reflexivity]|].
      intros [_ L]. destruct c; [left; reflexivity|discriminate].
    + cbn [combinations]. rewrite in_app_iff, in_map_iff. split.
      * intros [(c' & <- & H)|H].
        -- apply IH in H as [S L]. split; [constructor; exact S|cbn; congruence].
        -- apply IH in H as [S L]. split; [apply sub_skip; exact S|exact L].
      * intros [S L]. inversion S; subst; [discriminate| |].
        -- left. exists k0. split; [reflexivity|]. apply IH. split; [assumption|]. cbn in L; congruence.
        -- right. apply IH. split; assumption.
Qed.

Lemma sublist_in {A} (k l : list A) x : sublist k l -> In x k -> In x l.
Proof. induction 1; intros Hx; [contradiction| |right; auto]. destruct Hx as [<-|Hx]; [left; reflexivity|right; auto]. Qed.

Lemma nodup_app {A} (l m : list A) : NoDup l -> NoDup m -> (forall x, In x l -> ~ In x m) -> NoDup (l ++ m).
Proof.
  induction 1 as [|x l N1 N2 IH]; intros Hm D; [exact Hm|]. cbn. constructor.
  - intros H. apply in_app_or in H as [H|H]; [contradiction|]. apply (D x); [left; reflexivity|exact H].
  - apply IH; [exact Hm|]. intros y Hy. apply D. right; exact Hy.
Qed.
Lemma nodup_map_inj {A B} (f : A -> B) l : (forall x y, In x l -> In y l -> f x = f y -> x = y) -> NoDup l -> NoDup (map f l).
Proof.
  intros I. induction 1 as [|x l N1 N2 IH]; cbn; constructor.
  - intros H. apply in_map_iff in H as (y & E & Hy). assert (y = x) by (apply I; [right; exact Hy|left; reflexivity|exact E]). subst. contradiction.
  - apply IH. intros; apply I; try (right; assumption); assumption.
Qed.

Lemma combinations_nodup {A} k (l : list A) : NoDup l -> NoDup (combinations k l).
Proof.
  revert k; induction l as [|x l IH]; intros k N; destruct k; cbn; try (repeat constructor; cbn; tauto).
  inversion N as [|? ? N1 N2]; subst. apply nodup_app; [apply nodup_map_inj; [intros; congruence|apply IH; assumption]|apply IH; assumption|].
  intros c H1 H2. apply in_map_iff in H1 as (c' & <- & H1). apply (combinations_in (S k)) in H2 as [S _].
  apply N1. eapply sublist_in; [exact S|left; reflexivity].
Qed.

(* --------------------------------------------------------- flatten and chunks *)

Fixpoint interleave (c : list dscol) : list string :=
  match c with [] => [] | p :: r => fst p :: snd p :: interleave r end.

Lemma flatten_combo (rc : dscol) (p : list dscol) : flatten (Node [nest_pair rc; Node (map nest_pair p)]) = interleave (rc :: p).
Proof.
  cbn. do 2 f_equal. rewrite app_nil_r. induction p as [|q p IH]; [reflexivity|]. cbn. rewrite IH. reflexivity.
Qed.
Lemma flatten_all l : flatten (Node (map (fun c : dscol * list dscol => Node [nest_pair (fst c); Node (map nest_pair (snd c))]) l)) =
  flat_map (fun c => interleave (fst c :: snd c)) l.
Proof.
  change (flat_map flatten (map (fun c : dscol * list dscol => Node [nest_pair (fst c); Node (map nest_pair (snd c))]) l) =
  flat_map (fun c => interleave (fst c :: snd c)) l).
  induction l as [|c l IH]; [reflexivity|]. cbn [map flat_map]. rewrite IH, flatten_combo. reflexivity.
Qed.
Lemma interleave_length c : List.length (interleave c) = (List.length c * 2)%nat.
Proof. induction c as [|p c IH]; cbn; lia. Qed.
Lemma evens_interleave c : evens (interleave c) = map fst c.
Proof. induction c as [|p c IH]; [reflexivity|]. cbn. rewrite IH. reflexivity. Qed.
Lemma odds_interleave c : odds (interleave c) = map snd c.
Proof.
  unfold odds. destruct c as [|p c]; [reflexivity|]. cbn [interleave tl map].
  revert p; induction c as [|q c IH]; intros p; [reflexivity|]. cbn [interleave map].
  change (snd p :: evens (snd q :: interleave c) = snd p :: snd q :: map snd c). rewrite IH. reflexivity.
Qed.
Lemma zip_back (c : list dscol) : combine (map fst c) (map snd c) = c.
Proof. induction c as [|[a b] c IH]; cbn; [reflexivity|f_equal; exact IH]. Qed.

Lemma chunk_fuel_flat {A} (ls : list (list A)) k fuel : (0 < k)%nat -> (forall l, In l ls -> List.length l = k) ->
  (List.length (List.concat ls) <= fuel)%nat -> chunk_fuel fuel k (List.concat ls) = ls.
Proof.
  intros K. revert fuel; induction ls as [|l ls IH]; intros fuel H F.
  - destruct fuel; reflexivity.
  - cbn [List.concat] in *. rewrite app_length, (H l (or_introl eq_refl)) in F. destruct fuel as [|fuel]; [lia|].
    assert (Ne : l ++ List.concat ls <> []) by (destruct l; [pose proof (H [] (or_introl eq_refl)) as E; cbn in E; lia|discriminate]).
    cbn [chunk_fuel]. destruct (l ++ List.concat ls) as [|a r] eqn:E; [congruence|]. rewrite <- E.
    replace (firstn k (l ++ List.concat ls)) with l by (rewrite <- (H l (or_introl eq_refl)); symmetry; apply firstn_app_len).
    replace (skipn k (l ++ List.concat ls)) with (List.concat ls) by (rewrite <- (H l (or_introl eq_refl)); symmetry; apply skipn_app_len). f_equal.
    apply IH; [intros; apply H; right; assumption|lia].
Qed.
Lemma chunks_flat {A} (ls : list (list A)) k : (0 < k)%nat -> (forall l, In l ls -> List.length l = k) -> chunks k (List.concat ls) = ls.
Proof. intros K H. apply chunk_fuel_flat; [exact K|exact H|lia]. Qed.

Lemma str_nub_in l x : In x (str_nub l) <-> In x l.
Proof.
  induction l as [|y l IH]; cbn; [tauto|]. destruct (existsb (String.eqb y) l) eqn:E.
  - rewrite IH. apply existsb_exists in E as (z & Hz & Ez). apply String.eqb_eq in Ez. subst z.
    split; [tauto|]. intros [<-|H]; assumption.
  - cbn. rewrite IH. tauto.
Qed.
Lemma str_nub_nodup l : List.length (str_nub l) = List.length l <-> NoDup l.
Proof.
  assert (Le : forall l, (List.length (str_nub l) <= List.length l)%nat).
  { induction l0 as [|y l0 IH]; cbn; [lia|]. destruct (existsb (String.eqb y) l0); cbn; lia. }
  induction l as [|y l IH]; cbn; [split; [constructor|reflexivity]|].
  destruct (existsb (String.eqb y) l) eqn:E.
  - split; intros H.
    + specialize (Le l). lia.
    + inversion H; subst. apply existsb_exists in E as (z & Hz & Ez). apply String.eqb_eq in Ez. subst z. contradiction.
  - cbn. split; intros H.
    + constructor; [|apply IH; lia]. intros Hy. rewrite (proj2 (existsb_exists _ _)) in E; [discriminate|].
      exists y. split; [exact Hy|apply String.eqb_refl].
    + inversion H; subst. f_equal. apply IH. assumption.
Qed.

(* the enumeration without the flattening detour *)
Definition sort_combo := s_sort pair_leb.
Definition other_cols (d : ds_dict) (refkey : string) : list dscol :=
  flat_map (fun o => map (fun c => (o, c)) (match columns_of d o with Some cs => cs | None => [] end))
           (s_sort str_leb (filter (fun k => negb (String.eqb k refkey)) (map fst d))).
Definition raw_combos (d : ds_dict) (refkey : string) (refcols : list string) (n' : nat) : list (list dscol) :=
  map (fun c => fst c :: snd c) (product (map (fun c => (refkey, c)) refcols) (combinations n' (other_cols d refkey))).

Lemma product_in {A B} (l : list A) (m : list B) a b : In (a, b) (product l m) <-> In a l /\ In b m.
Proof.
  unfold product. rewrite in_flat_map. split.
  - intros (x & Hx & H). apply in_map_iff in H as (y & E & Hy). injection E as -> ->. auto.
  - intros [Ha Hb]. exists a. split; [exact Ha|]. apply in_map_iff. exists b. auto.
Qed.

Lemma flat_map_concat_map' {A B} (f : A -> list B) l : flat_map f l = List.concat (map f l).
Proof. induction l as [|a l IH]; cbn; [reflexivity|]. rewrite IH. reflexivity. Qed.

Lemma get_result_names_eq d refkey refcols n' : columns_of d refkey = Some refcols ->
  get_result_names d refkey (S n') =
  Ok (map sort_combo (filter (fun c => Nat.eqb (List.length (str_nub (map fst c))) (S n')) (raw_combos d refkey refcols n'))).
Proof.
  intros E. unfold get_result_names. rewrite E. cbv zeta. fold (other_cols d refkey).
  rewrite flatten_all. f_equal. unfold raw_combos.
  set (P := product (map (fun c : string => (refkey, c)) refcols) (combinations n' (other_cols d refkey))).
  assert (Hl : forall c, In c P -> List.length (snd c) = n').
  { intros [rc p] H. apply product_in in H as [_ H]. apply combinations_in in H as [_ H]. exact H. }
  rewrite (flat_map_concat_map' (fun c => interleave (fst c :: snd c)) P). rewrite (chunks_flat (map (fun c => interleave (fst c :: snd c)) P)).
  - clear - Hl. induction P as [|c P IH]; [reflexivity|].
    cbn [map flat_map filter]. rewrite IH by (intros; apply Hl; right; assumption).
    rewrite evens_interleave, odds_interleave, zip_back.
    cbn [map]. destruct (Nat.eqb (List.length (str_nub (fst (fst c) :: map fst (snd c)))) (S n')); reflexivity.
  - lia.
  - intros l Hl'. apply in_map_iff in Hl' as (c & <- & Hc). rewrite interleave_length. cbn [List.length]. rewrite (Hl c Hc). reflexivity.
Qed.

(* ------------------------------------------------------------- characterisation *)

Lemma columns_of_in d k cs : NoDup (map fst d) -> (columns_of d k = Some cs <-> In (k, cs) d).
Proof.
  unfold columns_of. induction d as [|[a v] d IH]; cbn; intros N; [split; [discriminate|tauto]|].
  inversion N as [|? ? N1 N2]; subst. destruct (String.eqb_spec a k) as [->|Ne]; cbn.
  - split; [intros E; injection E as ->; left; reflexivity|]. intros [E|H]; [congruence|].
    exfalso. apply N1. apply (in_map fst) in H. exact H.
  - rewrite IH by exact N2. split; [tauto|]. intros [E|H]; [congruence|exact H].
Qed.

Lemma str_sorted_strict l : NoDup l -> StronglySorted str_lt (s_sort str_leb l).
Proof.
  intros N. pose proof (s_sort_sorted str_leb str_leb_total str_leb_trans l) as S.
  assert (N' : NoDup (s_sort str_leb l)) by (eapply Permutation_NoDup; [symmetry; apply s_sort_perm|exact N]).
  induction S as [|x m S IH F]; constructor; inversion N'; subst; [apply IH; assumption|].
  rewrite Forall_forall in *. intros y Hy. split; [apply F, Hy|]. intros ->. contradiction.
Qed.

Lemma other_cols_in d refkey ds col : NoDup (map fst d) ->
  In (ds, col) (other_cols d refkey) <-> ds <> refkey /\ exists cols, In (ds, cols) d /\ In col cols.
Proof.
  intros N. unfold other_cols. rewrite in_flat_map. split.
  - intros (o & Ho & H). apply in_map_iff in H as (c & E & Hc). injection E as -> ->.
    apply s_sort_in in Ho. apply filter_In in Ho as [Ho Hr]. apply negb_true_iff, String.eqb_neq in Hr.
    split; [exact Hr|]. destruct (columns_of d ds) as [cs|] eqn:E; [|contradiction].
    exists cs. split; [apply columns_of_in; assumption|exact Hc].
  - intros (Hr & cols & Hd & Hc). exists ds. split.
    + apply s_sort_in, filter_In. split; [apply (in_map fst) in Hd; exact Hd|]. apply negb_true_iff, String.eqb_neq; exact Hr.
    + apply (columns_of_in d ds cols N) in Hd. rewrite Hd. apply in_map. exact Hc.
Qed.

(* a list that is strictly increasing in the dataset, all of whose entries occur, is a sublist *)
Lemma sublist_app_r {A} (k l m : list A) : sublist k m -> sublist k (l ++ m).
Proof. intros H. induction l; [exact H|]. cbn. apply sub_skip. assumption. Qed.
Lemma sublist_cons_app {A} (x : A) k l m : In x l -> sublist k m -> sublist (x :: k) (l ++ m).
Proof.
  intros H S. induction l as [|y l IH]; [contradiction|]. destruct H as [->|H].
  - cbn. apply sub_take, sublist_app_r. exact S.
  - cbn. apply sub_skip. apply IH. exact H.
Qed.

Lemma blocks_sublist (f : string -> list string) (names : list string) (p : list dscol) :
  StronglySorted str_lt names -> StronglySorted str_lt (map fst p) ->
  (forall ds col, In (ds, col) p -> In ds names /\ In col (f ds)) ->
  sublist p (flat_map (fun o => map (fun c => (o, c)) (f o)) names).
Proof.
  intros S. revert p. induction S as [|x names S IH F]; intros p Sp H.
  - destruct p as [|[ds col] p]; [constructor|]. destruct (H ds col (or_introl eq_refl)) as [[] _].
  - rewrite Forall_forall in F. cbn [flat_map]. destruct p as [|[ds col] p]; [constructor|].
    destruct (H ds col (or_introl eq_refl)) as [[<-|Hds] Hc].
    + apply sublist_cons_app; [apply in_map; exact Hc|]. cbn in Sp. inversion Sp as [|? ? Sp' Fp]; subst.
      apply IH; [exact Sp'|]. intros ds' col' Hin. destruct (H ds' col' (or_intror Hin)) as [[<-|Hd] Hc']; [|auto].
      exfalso. rewrite Forall_forall in Fp. apply (in_map fst) in Hin. apply Fp in Hin. exact (str_lt_irrefl _ Hin).
    + apply sublist_app_r. apply IH; [exact Sp|]. intros ds' col' Hin. destruct (H ds' col' Hin) as [[<-|Hd] Hc']; [|auto].
      exfalso. assert (Hlt : str_lt x ds) by (apply F; exact Hds). cbn in Sp. inversion Sp as [|? ? Sp' Fp]; subst.
      destruct Hin as [E|Hin]; [injection E as -> _; exact (str_lt_irrefl _ Hlt)|].
      rewrite Forall_forall in Fp. apply (in_map fst) in Hin. apply Fp in Hin.
      exact (str_lt_irrefl _ (str_lt_trans _ _ _ Hlt Hin)).
Qed.

(* sublists of the other columns are sorted by dataset; strictly if the datasets differ *)
Lemma other_cols_sorted d refkey : NoDup (map fst d) ->
  StronglySorted (fun a b : dscol => str_leb (fst a) (fst b) = true) (other_cols d refkey).
Proof.
  intros N. unfold other_cols.
  assert (S : StronglySorted str_lt (s_sort str_leb (filter (fun k => negb (String.eqb k refkey)) (map fst d))))
    by (apply str_sorted_strict, NoDup_filter; exact N).
  induction S as [|x names S IH F]; [constructor|]. cbn [flat_map]. apply SSorted_app; [|exact IH|].
  - generalize (match columns_of d x with Some cs => cs | None => [] end). intros cs.
    induction cs as [|c cs IHc]; cbn; constructor; [exact IHc|]. apply Forall_forall. intros p Hp.
    apply in_map_iff in Hp as (? & <- & _). cbn. apply str_leb_refl.
  - intros p q Hp Hq. apply in_map_iff in Hp as (? & <- & _). apply in_flat_map in Hq as (y & Hy & Hq).
    apply in_map_iff in Hq as (? & <- & _). cbn. rewrite Forall_forall in F. apply F in Hy. apply Hy.
Qed.
Lemma sublist_sorted {A} (R : A -> A -> Prop) k l : sublist k l -> StronglySorted R l -> StronglySorted R k.
Proof.
  induction 1 as [l|x k l H IH|x k l H IH]; intros S; [constructor| |].
  - inversion S; subst. constructor; [apply IH; assumption|]. rewrite Forall_forall in *. intros y Hy. eapply H3, sublist_in; eassumption.
  - inversion S; subst. apply IH; assumption.
Qed.
Lemma sorted_nodup_strict (c : list dscol) : StronglySorted (fun a b : dscol => str_leb (fst a) (fst b) = true) c ->
  NoDup (map fst c) -> StronglySorted str_lt (map fst c).
Proof.
  induction 1 as [|x c S IH F]; cbn; intros N; constructor; inversion N; subst; [apply IH; assumption|].
  rewrite Forall_forall in *. intros y Hy. apply in_map_iff in Hy as (z & <- & Hz). split; [apply F, Hz|].
  intros E. apply H1. rewrite E. apply in_map, Hz.
Qed.
Lemma strict_nodup l : StronglySorted str_lt l -> NoDup l.
Proof.
  induction 1 as [|x l S IH F]; constructor; [|exact IH]. intros H. rewrite Forall_forall in F.
  exact (str_lt_irrefl _ (F x H)).
Qed.
Lemma strict_pair_sorted (c : list dscol) : StronglySorted str_lt (map fst c) -> StronglySorted (fun a b => pair_leb a b = true) c.
Proof.
  induction c as [|x c IH]; cbn; intros S; [constructor|]. inversion S as [|? ? S1 F]; subst. constructor; [apply IH, S1|].
  rewrite Forall_forall in *. intros y Hy. apply pair_leb_iff. left. apply F, in_map, Hy.
Qed.
Lemma sort_combo_sorted c : StronglySorted (fun a b => pair_leb a b = true) (sort_combo c).
Proof. apply s_sort_sorted; [apply pair_leb_total|apply pair_leb_trans]. Qed.
Lemma sort_combo_strict c : NoDup (map fst c) -> StronglySorted str_lt (map fst (sort_combo c)).
Proof.
  intros N. apply sorted_nodup_strict.
  - pose proof (sort_combo_sorted c) as S. induction S as [|x m S IH F]; constructor; [exact IH|].
    rewrite Forall_forall in *. intros y Hy. specialize (F y Hy). apply pair_leb_iff in F as [[F _]|[E _]]; [exact F|].
    rewrite E. apply str_leb_refl.
  - eapply Permutation_NoDup; [|exact N]. apply Permutation_map. symmetry. apply s_sort_perm.
Qed.

Lemma names_spec d refkey n : wf_dict d -> (1 <= n)%nat -> In refkey (map fst d) ->
  exists out, get_result_names d refkey n = Ok out /\ NoDup out /\
    forall c, In c out <-> selection d n c /\ In refkey (map fst c).
Proof.
  intros [Nd Nc] Hn Hr. destruct n as [|n']; [lia|].
  assert (Er : exists rc, columns_of d refkey = Some rc).
  { apply in_map_iff in Hr as ([k cs] & <- & H). exists cs. apply columns_of_in; [exact Nd|exact H]. }
  destruct Er as [refcols Er].
  assert (Hrc : In (refkey, refcols) d) by (apply columns_of_in; assumption).
  set (fil := filter (fun c : list dscol => Nat.eqb (List.length (str_nub (map fst c))) (S n')) (raw_combos d refkey refcols n')).
  exists (map sort_combo fil). split; [apply get_result_names_eq; exact Er|].
  (* what the raw combinations look like *)
  assert (Raw : forall c, In c fil <-> exists rcol p, c = (refkey, rcol) :: p /\ In rcol refcols /\
            In p (combinations n' (other_cols d refkey)) /\ NoDup (map fst c)).
  { intros c. unfold fil. rewrite filter_In. unfold raw_combos. rewrite in_map_iff. split.
    - intros [([a p] & <- & H) Hlen]. apply product_in in H as [Ha Hp]. apply in_map_iff in Ha as (rcol & <- & Hrcol).
      cbn [fst snd]. exists rcol, p. split; [reflexivity|]. split; [exact Hrcol|]. split; [exact Hp|].
      apply Nat.eqb_eq in Hlen. apply str_nub_nodup. rewrite map_length. apply combinations_in in Hp as [_ Lp].
      cbn [fst snd] in *. cbn [List.length]. rewrite Lp. exact Hlen.
    - intros (rcol & p & -> & Hrcol & Hp & Nn). split.
      + exists ((refkey, rcol), p). split; [reflexivity|]. apply product_in. split; [|exact Hp].
        apply (in_map (fun c => (refkey, c))). exact Hrcol.
      + apply Nat.eqb_eq. apply str_nub_nodup in Nn. rewrite Nn, map_length. cbn.
        apply combinations_in in Hp as [_ Lp]. congruence. }
  assert (PSort : forall p, In p (combinations n' (other_cols d refkey)) -> NoDup (map fst p) -> StronglySorted str_lt (map fst p)).
  { intros p Hp Np. apply sorted_nodup_strict; [|exact Np]. apply combinations_in in Hp as [Sp _].
    eapply sublist_sorted; [exact Sp|apply other_cols_sorted, Nd]. }
  split.
  - (* no duplicates *)
    apply nodup_map_inj.
    + intros c1 c2 H1 H2 E. apply Raw in H1 as (r1 & p1 & -> & R1 & P1 & N1). apply Raw in H2 as (r2 & p2 & -> & R2 & P2 & N2).
      assert (Pm : Permutation ((refkey, r1) :: p1) ((refkey, r2) :: p2)).
      { rewrite <- (s_sort_perm pair_leb ((refkey, r1) :: p1)), <- (s_sort_perm pair_leb ((refkey, r2) :: p2)).
        unfold sort_combo in E. rewrite E. reflexivity. }
      assert (r1 = r2).
      { assert (Hin : In (refkey, r1) ((refkey, r2) :: p2)) by (eapply Permutation_in; [exact Pm|left; reflexivity]).
        destruct Hin as [E1|Hin]; [congruence|]. exfalso. cbn in N2. inversion N2; subst. apply H1.
        apply (in_map fst) in Hin. exact Hin. }
      subst r2. f_equal. apply Permutation_cons_inv in Pm. cbn in N1, N2. inversion N1; inversion N2; subst.
      apply (sorted_perm_eq pair_leb pair_leb_antisym); [apply strict_pair_sorted, PSort; assumption..|exact Pm].
    + unfold fil. apply NoDup_filter. unfold raw_combos. apply nodup_map_inj.
      * intros [a p] [b q] _ _ E. cbn in E. congruence.
      * unfold product. assert (NR : NoDup (map (fun c => (refkey, c)) refcols)) by (apply nodup_map_inj; [intros; congruence|apply (Nc refkey); exact Hrc]).
        assert (NC : NoDup (combinations n' (other_cols d refkey))).
        { apply combinations_nodup. unfold other_cols.
          assert (NS : NoDup (s_sort str_leb (filter (fun k => negb (String.eqb k refkey)) (map fst d))))
            by (eapply Permutation_NoDup; [symmetry; apply s_sort_perm|apply NoDup_filter; exact Nd]).
          induction NS as [|x names N1 N2 IH]; cbn [flat_map]; [constructor|]. apply nodup_app; [|exact IH|].
          - apply nodup_map_inj; [intros; congruence|]. destruct (columns_of d x) as [cs|] eqn:Ex; [|constructor].
            apply (Nc x). apply columns_of_in; assumption.
          - intros [a b] H1 H2. apply in_map_iff in H1 as (? & E1 & _). injection E1 as <- _.
            apply in_flat_map in H2 as (y & Hy & H2). apply in_map_iff in H2 as (? & E2 & _). injection E2 as -> _. contradiction. }
        induction NR as [|x l N1 N2 IH]; cbn [flat_map]; [constructor|]. apply nodup_app; [|exact IH|].
        -- apply nodup_map_inj; [intros; congruence|exact NC].
        -- intros [a b] H1 H2. apply in_map_iff in H1 as (? & E1 & _). injection E1 as <- _.
           apply in_flat_map in H2 as (y & Hy & H2). apply in_map_iff in H2 as (? & E2 & _). injection E2 as -> _. contradiction.
  - (* membership *)
    intros c. rewrite in_map_iff. split.
    + intros (c0 & <- & H). apply Raw in H as (rcol & p & -> & Hrcol & Hp & Nn).
      assert (Hin : forall x, In x (sort_combo ((refkey, rcol) :: p)) <-> In x ((refkey, rcol) :: p)) by (intros; apply s_sort_in).
      split; [split; [|split]|].
      * unfold sort_combo. rewrite s_sort_length. cbn. apply combinations_in in Hp as [_ Lp]. congruence.
      * apply sort_combo_strict. exact Nn.
      * intros ds col H. apply Hin in H as [E|H]; [injection E as <- <-; exists refcols; auto|].
        apply combinations_in in Hp as [Sp _]. apply (sublist_in _ _ _ Sp) in H. apply other_cols_in in H as [_ H]; [exact H|exact Nd].
      * apply in_map_iff. exists (refkey, rcol). split; [reflexivity|]. apply Hin. left; reflexivity.
    + intros [(Lc & Sc & Hc) Hrk]. apply in_map_iff in Hrk as ([k rcol] & Ek & Hrin). cbn in Ek. subst k.
      apply in_split in Hrin as (l1 & l2 & Ec).
      pose proof (strict_nodup _ Sc) as Ncc.
      assert (Np : NoDup (map fst ((refkey, rcol) :: l1 ++ l2))).
      { eapply Permutation_NoDup; [|exact Ncc]. rewrite Ec. apply Permutation_map. symmetry. apply Permutation_middle. }
      exists ((refkey, rcol) :: l1 ++ l2). split.
      * unfold sort_combo. rewrite (s_sort_perm_eq pair_leb pair_leb_total pair_leb_trans pair_leb_antisym _ c).
        -- apply s_sort_id; [apply pair_leb_total|apply pair_leb_trans|apply pair_leb_antisym|apply strict_pair_sorted, Sc].
        -- rewrite Ec. apply Permutation_middle.
      * apply Raw. exists rcol, (l1 ++ l2). split; [reflexivity|].
        split.
        { destruct (Hc refkey rcol) as (cols & Hd & Hcol); [rewrite Ec; apply in_or_app; right; left; reflexivity|].
          assert (cols = refcols); [|congruence]. apply (columns_of_in d refkey) in Hd; [|exact Nd]. congruence. }
        split; [|exact Np].
        apply combinations_in. split.
        -- unfold other_cols. apply blocks_sublist.
           ++ apply str_sorted_strict, NoDup_filter. exact Nd.
           ++ rewrite Ec, map_app in Sc. cbn in Sc. rewrite map_app.
              apply SSorted_app_inv in Sc as (S1 & S2 & S3). inversion S2; subst. apply SSorted_app; try assumption.
              intros a b Ha Hb. apply S3; [exact Ha|right; exact Hb].
           ++ intros ds col Hin. assert (Hin' : In (ds, col) c) by (rewrite Ec; apply in_app_or in Hin as [H|H]; apply in_or_app; [left|right; right]; exact H).
              destruct (Hc ds col Hin') as (cols & Hd & Hcol). split.
              ** apply s_sort_in, filter_In. split; [apply (in_map fst) in Hd; exact Hd|].
                 apply negb_true_iff, String.eqb_neq. intros ->. cbn in Np. inversion Np; subst.
                 apply H1. apply (in_map fst) in Hin. exact Hin.
              ** apply (columns_of_in d ds cols Nd) in Hd. rewrite Hd. exact Hcol.
        -- rewrite Ec, app_length in Lc. cbn in Lc. rewrite app_length. lia.
Qed.

Lemma names_unknown d refkey n : ~ In refkey (map fst d) -> get_result_names d refkey n = Err EKey.
Proof.
  intros H. unfold get_result_names. destruct (columns_of d refkey) as [cs|] eqn:E; [|reflexivity].
  exfalso. apply H. unfold columns_of in E. destruct (find _ d) as [[k v]|] eqn:F; [|discriminate].
  apply find_some in F as [F1 F2]. cbn in F2. apply String.eqb_eq in F2. subst k. apply (in_map fst) in F1. exact F1.
Qed.

(* --------------------------------------------------------- all combinations *)

Lemma sorted_set_spec l : StronglySorted (fun a b => combo_leb a b = true) (sorted_set l) /\ NoDup (sorted_set l) /\
  forall c, In c (sorted_set l) <-> In c l.
Proof.
  induction l as [|x l (S & N & I)]; [cbn; repeat split; try constructor; tauto|].
  change (sorted_set (x :: l)) with (if existsb (combo_eqb x) (sorted_set l) then sorted_set l else s_insert combo_leb x (sorted_set l)).
  destruct (existsb (combo_eqb x) (sorted_set l)) eqn:E; cbn [In].
  - split; [exact S|]. split; [exact N|]. intros c. rewrite I.
    apply existsb_exists in E as (y & Hy & Ey). apply combo_eqb_spec in Ey. subst y. apply I in Hy.
    split; [tauto|]. intros [<-|H]; assumption.
  - assert (Hx : ~ In x (sorted_set l)).
    { intros H. rewrite (proj2 (existsb_exists _ _)) in E; [discriminate|]. exists x. split; [exact H|apply combo_eqb_spec; reflexivity]. }
    split; [apply s_insert_sorted; [apply combo_leb_total|apply combo_leb_trans|exact S]|].
    pose proof (s_insert_perm combo_leb x (sorted_set l)) as P.
    split; [eapply Permutation_NoDup; [symmetry; exact P|constructor; assumption]|].
    intros c. rewrite <- I. split; [intros H; apply (Permutation_in _ P) in H; exact H|].
    intros H. apply (Permutation_in (l := x :: sorted_set l)); [symmetry; exact P|exact H].
Qed.

Lemma combinations_spec d n : wf_dict d -> (1 <= n)%nat ->
  exists out, get_result_combinations d n = Ok out /\
    StronglySorted (fun a b => combo_leb a b = true) out /\ NoDup out /\
    forall c, In c out <-> selection d n c.
Proof.
  intros W Hn. unfold get_result_combinations.
  assert (G : forall ks, (forall k, In k ks -> In k (map fst d)) ->
    exists ls, seqR (map (fun k => get_result_names d k n) ks) = Ok ls /\
      forall c, In c (List.concat ls) <-> exists k, In k ks /\ selection d n c /\ In k (map fst c)).
  { induction ks as [|k ks IH]; intros H.
    - exists []. split; [reflexivity|]. intros c. cbn. split; [tauto|]. intros (k & [] & _).
    - destruct IH as (ls & E & I); [intros; apply H; right; assumption|].
      destruct (names_spec d k n W Hn (H k (or_introl eq_refl))) as (out & Eo & _ & Io).
      exists (out :: ls). cbn [map seqR]. rewrite Eo. cbn [bindR]. rewrite E. split; [reflexivity|].
      intros c. cbn [List.concat]. rewrite in_app_iff, Io, I. split.
      + intros [H1|(k' & Hk & H1)]; [exists k; split; [left; reflexivity|exact H1]|exists k'; split; [right; exact Hk|exact H1]].
      + intros (k' & [<-|Hk] & H1); [left; exact H1|right; exists k'; auto]. }
  destruct (G (map fst d) (fun k H => H)) as (ls & E & I). rewrite E. cbn [mapR].
  exists (sorted_set (List.concat ls)). split; [reflexivity|].
  destruct (sorted_set_spec (List.concat ls)) as (S & N & J). split; [exact S|]. split; [exact N|].
  intros c. rewrite J, I. split; [intros (k & _ & H & _); exact H|].
  intros H. destruct H as (L & St & Hc). destruct c as [|[ds col] c]; [cbn in L; lia|].
  exists ds. split; [|split; [split; [exact L|split; [exact St|exact Hc]]|left; reflexivity]].
  destruct (Hc ds col (or_introl eq_refl)) as (cols & Hd & _). apply (in_map fst) in Hd. exact Hd.
Qed.
