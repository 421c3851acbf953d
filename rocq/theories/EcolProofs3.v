(* The rows that are used, and results that are not finite. *)
From Verif Require Import Base NamesModel GroupingModel MatchersModel RStats RStatsProofs TcolModel TcolSpec DfMetricsModel EcolModel EcolSpec EcolProofs EcolProofs2.
From Coq Require Import Reals Qreals Lia Lra.
Import ListNotations.
Open Scope R_scope.

(* ---- rows ---- *)
Lemma nrows_hd f : nrows f = List.length (snd (hd (""%string, []) f)).
Proof. destruct f; reflexivity. Qed.
Lemma mask_select_nth {A} (p : nat -> bool) (dflt : A) l m : 
  mask_select (map p (seq m (List.length l))) l = map (fun t => nth (t - m) l dflt) (filter p (seq m (List.length l))).
Proof.
  revert m. induction l as [|x l IH]; intros m; [reflexivity|]. cbn [List.length seq map mask_select filter].
  assert (E : map (fun t => nth (t - m) (x :: l) dflt) (filter p (seq (S m) (List.length l))) = map (fun t => nth (t - S m) l dflt) (filter p (seq (S m) (List.length l)))).
  { apply map_ext_in. intros t I. apply filter_In in I as [I _]. apply in_seq in I. replace (t - m)%nat with (S (t - S m)) by lia. reflexivity. }
  destruct (p m); cbn [map]; rewrite IH, <- E; [|reflexivity]. rewrite Nat.sub_diag. reflexivity.
Qed.
Definition kept (f : frame) : list nat := filter (complete_row f) (seq 0 (nrows f)).
Lemma complete_cells f t : complete_row f t = forallb notna (cells f t).
Proof. unfold complete_row, cells. induction f as [|c f IH]; [reflexivity|]. cbn. f_equal. exact IH. Qed.
Lemma complete_kept f : complete_rows f = map (cells f) (kept f).
Proof.
  unfold complete_rows, kept. rewrite <- nrows_hd. induction (seq 0 (nrows f)) as [|t l IH]; [reflexivity|]. cbn [map filter]. rewrite complete_cells.
  destruct (forallb notna (cells f t)); cbn [map]; rewrite IH; reflexivity.
Qed.
Lemma dropna_kept f : rectangular f -> dropna f = map (fun c => (fst c, map (fun t => nth t (snd c) None) (kept f))) f.
Proof.
  intros RE. unfold dropna. apply map_ext_in. intros c I. f_equal. unfold kept. rewrite nrows_hd, <- (RE c I), (@mask_select_nth cell (complete_row f) None). apply map_ext. intros t. rewrite Nat.sub_0_r. reflexivity.
Qed.
Lemma frame_nth (f : frame) : f = map (fun j => nth j f (""%string, [])) (seq 0 (List.length f)).
Proof. induction f as [|c f IH]; [reflexivity|]. cbn [List.length seq map nth]. f_equal. rewrite <- seq_shift, map_map. exact IH. Qed.
Lemma cells_nth f t j : (j < List.length f)%nat -> nth j (cells f t) None = nth t (snd (nth j f (""%string, []))) None.
Proof.
  intros H. unfold cells. set (g := fun c : string * list cell => nth t (snd c) None). rewrite (nth_indep _ None (g (""%string, []))) by (rewrite map_length; exact H). rewrite map_nth. reflexivity.
Qed.
Lemma dropna_rows f : rectangular f ->
  dropna f = map (fun j => (nth j (map fst f) ""%string, map (fun r => nth j r None) (complete_rows f))) (seq 0 (List.length f)).
Proof.
  intros RE. rewrite dropna_kept by exact RE. rewrite complete_kept.
  transitivity (map (fun c => (fst c, map (fun t => nth t (snd c) None) (kept f))) (map (fun j => nth j f (""%string, [])) (seq 0 (List.length f)))); [rewrite <- frame_nth; reflexivity|].
  rewrite map_map. apply map_ext_in. intros j I. apply in_seq in I. f_equal.
  - rewrite (nth_indep _ ""%string (fst (""%string, @nil cell))) by (rewrite map_length; lia). rewrite map_nth. reflexivity.
  - rewrite map_map. apply map_ext. intros t. rewrite cells_nth by lia. reflexivity.
Qed.
Lemma dropna_names f : map fst (dropna f) = map fst f.
Proof. unfold dropna. rewrite map_map. reflexivity. Qed.
Lemma dropna_nrows f : rectangular f -> f <> [] -> nrows (dropna f) = List.length (complete_rows f).
Proof.
  intros RE NE. rewrite dropna_rows by exact RE. destruct f as [|c f]; [congruence|]. cbn [List.length seq map nrows snd]. apply map_length.
Qed.
Lemma dropna_full f : rectangular f -> (forall c x, In c f -> In x (snd c) -> notna x = true) -> dropna f = f.
Proof.
  intros RE FU. rewrite dropna_kept by exact RE.
  assert (K : kept f = seq 0 (nrows f)).
  { unfold kept. assert (G : forall l, (forall t, In t l -> (t < nrows f)%nat) -> filter (complete_row f) l = l).
    { induction l as [|t l IH]; intros H; [reflexivity|]. cbn. assert (E : complete_row f t = true).
      { apply forallb_forall. intros c I. apply (FU c _ I). pose proof (H t (or_introl eq_refl)) as L. rewrite nrows_hd, <- (RE c I) in L. exact (nth_In (snd c) None L). }
      rewrite E, IH by (intros; apply H; right; assumption). reflexivity. }
    apply G. intros t I. apply in_seq in I. lia. }
  rewrite K. rewrite <- (map_id f) at 2. apply map_ext_in. intros [s l] I. cbn [fst snd]. f_equal. rewrite nrows_hd, <- (RE _ I). cbn [snd].
  clear. induction l as [|x l IH]; [reflexivity|]. cbn [List.length seq map nth]. f_equal. rewrite <- seq_shift, map_map. exact IH.
Qed.
Lemma dropna_complete f : rectangular f -> rectangular (dropna f) /\ (forall c x, In c (dropna f) -> In x (snd c) -> notna x = true).
Proof.
  intros RE. rewrite dropna_kept by exact RE. split.
  - intros c I. apply in_map_iff in I as (c' & <- & I). cbn [snd]. rewrite map_length. destruct f as [|c0 f]; [destruct I|]. cbn [map hd snd]. rewrite map_length. reflexivity.
  - intros c x I X. apply in_map_iff in I as (c' & <- & I). cbn [snd] in X. apply in_map_iff in X as (t & <- & T). unfold kept in T. apply filter_In in T as [_ T].
    unfold complete_row in T. rewrite forallb_forall in T. apply (T c' I).
Qed.

(* ---- nothing finite ---- *)
Lemma map_none k : map (omap Rabs) (repeat None k) = repeat None k.
Proof. induction k as [|k IH]; [reflexivity|]. cbn. f_equal. exact IH. Qed.
Lemma arrange_none n co ae : columns_of n co -> forall v, In v (arrange n co ae (repeat None (2 * (n + List.length co)))) -> v = None.
Proof.
  intros PO v. assert (RE : forall a b, repeat (@None R) (a + b) = repeat None a ++ repeat None b) by (intros a b; apply repeat_app).
  replace (2 * (n + List.length co))%nat with (n + (List.length co + (n + List.length co)))%nat by lia. rewrite !RE.
  rewrite arrange_parts by (try apply repeat_length; exact PO). cbn zeta.
  assert (AB : (if ae then map (omap Rabs) (repeat None n) else repeat None n) = repeat None n) by (destruct ae; [apply map_none|reflexivity]). rewrite AB.
  rewrite !in_app_iff. intros [I|[I|[I|[I|I]]]]; try (apply repeat_spec in I; exact I).
  - assert (G : forall k m, In v (map2 n_db (repeat None k) (repeat None m)) -> v = None).
    { induction k as [|k IH]; intros [|m] H; cbn in H; try contradiction. destruct H as [H|H]; [symmetry; exact H|apply (IH _ H)]. }
    apply (G _ _ I).
  - apply in_map_iff in I as ([p w] & E & I). apply in_combine_r in I. apply repeat_spec in I. cbn [fst snd] in E. subst w. symmetry. exact E.
Qed.
Lemma seqR_map_pairs cols correlated co : seqR (map (pair_of cols) correlated) = Ok co -> columns_of (List.length cols) co /\ List.length co = List.length correlated.
Proof.
  revert co. induction correlated as [|p l IH]; intros co E; cbn [map seqR] in E.
  - injection E as <-. split; [intros q []|reflexivity].
  - unfold pair_of at 1, known in E. destruct (position cols (fst p)) as [a|] eqn:E1; [|discriminate]. cbn [bindR] in E. destruct (position cols (snd p)) as [b|] eqn:E2; [|discriminate]. cbn [bindR] in E.
    destruct (seqR (map (pair_of cols) l)) as [co'|] eqn:E3; [|discriminate]. cbn [bindR] in E. injection E as <-. destruct (IH co' eq_refl) as [P L]. split; [|cbn; lia].
    intros q [<-|I]; [|apply P, I]. cbn [fst snd]. split; [apply (position_lt _ _ _ E1)|apply (position_lt _ _ _ E2)].
Qed.
Lemma dict_none cols correlated (vs : list (option R)) k w : (forall v, In v vs -> v = None) -> dict_get (to_dict (combine (tags cols correlated) vs)) k = Some w -> w = None.
Proof. intros H E. apply to_dict_in in E. apply in_combine_r in E. apply H, E. Qed.
Lemma cov_none_lemma lstsq cols correlated ec ae d : ecol_cov lstsq cols None correlated ec ae = Ok d -> forall k v, dict_get d k = Some v -> v = None.
Proof.
  unfold ecol_cov. destruct (match ec with None => Ok None | Some _ => _ end) as [ec'|]; [|discriminate]. cbn [bindR].
  destruct (seqR (map (pair_of cols) correlated)) as [co|] eqn:E; [|discriminate]. cbn [bindR]. destruct (seqR_map_pairs _ _ _ E) as [PO _]. unfold solution. cbn zeta.
  destruct (lstsq _ _ _) as [x|]; [|discriminate]. cbn [bindR]. intros E2. assert (E3 : d = to_dict (combine (tags cols correlated) (arrange (List.length cols) co ae (repeat None (2 * (List.length cols + List.length co)))))) by congruence.
  intros k v G. rewrite E3 in G. apply (dict_none _ _ _ _ _ (arrange_none (List.length cols) co ae PO) G).
Qed.
Lemma zero_none_lemma lstsq cols C ae d : existsb zerob (divisors (List.length cols) C []) = true -> ecol_cov lstsq cols (Some C) [] None ae = Ok d -> forall k v, dict_get d k = Some v -> v = None.
Proof.
  intros Z. unfold ecol_cov. cbn [bindR map seqR]. unfold solution. cbn zeta. cbn [subtract]. rewrite Z. destruct (lstsq _ _ _) as [x|]; [|discriminate]. cbn [bindR]. intros E2.
  assert (E3 : d = to_dict (combine (tags cols []) (arrange (List.length cols) [] ae (repeat None (2 * (List.length cols + List.length (@nil (nat * nat)))))))) by congruence.
  intros k v G. rewrite E3 in G. apply (dict_none _ _ _ _ _ (arrange_none (List.length cols) [] ae (fun p (I : In p []) => match I with end)) G).
Qed.
Lemma comb2_pair l a b : In a l -> In b l -> a <> b -> In (a, b) (comb2 l) \/ In (b, a) (comb2 l).
Proof.
  induction l as [|x l IH]; intros A B N; [destruct A|]. cbn [comb2]. rewrite !in_app_iff. destruct A as [->|A], B as [->|B].
  - congruence.
  - left. left. apply in_map_iff. exists b. split; [reflexivity|exact B].
  - right. left. apply in_map_iff. exists a. split; [reflexivity|exact A].
  - destruct (IH A B N); tauto.
Qed.
Lemma zero_divisor n (C : matrix) a b : (3 <= n)%nat -> (a < n)%nat -> (b < n)%nat -> a <> b -> C a b = 0 -> C b a = 0 -> existsb zerob (divisors n C []) = true.
Proof.
  intros N A B NE Z1 Z2. assert (X : exists c, (c < n)%nat /\ c <> a /\ c <> b).
  { destruct (Nat.eq_dec a 0), (Nat.eq_dec b 0); subst; try lia.
    - destruct (Nat.eq_dec b 1); [exists 2%nat|exists 1%nat]; lia.
    - destruct (Nat.eq_dec a 1); [exists 2%nat|exists 1%nat]; lia.
    - exists 0%nat. lia. }
  destruct X as (c & Hc & Na & Nb). apply existsb_exists. exists 0. split; [|unfold zerob; destruct (Req_EM_T 0 0); [reflexivity|congruence]].
  unfold divisors. apply in_or_app. left. apply in_flat_map. exists c. split; [apply in_seq; lia|]. apply in_map_iff.
  assert (O : forall k, (k < n)%nat -> c <> k -> In k (filter (fun k => negb (Nat.eqb k c)) (seq 0 n))).
  { intros k L M. apply filter_In. split; [apply in_seq; lia|]. apply Bool.negb_true_iff, Nat.eqb_neq. congruence. }
  destruct (comb2_pair _ a b (O a A Na) (O b B Nb) NE) as [I|I].
  - exists (a, b). split; [exact Z1|]. apply filter_In. split; [exact I|reflexivity].
  - exists (b, a). split; [exact Z2|]. apply filter_In. split; [exact I|reflexivity].
Qed.
Lemma cov1_sym r j k : cov1 r j k = cov1 r k j.
Proof. unfold cov1. f_equal. f_equal. apply map_ext. intros x. ring. Qed.
Lemma cov1_const r j k v : (forall x, In x r -> x k = v) -> r <> [] -> cov1 r j k = 0.
Proof.
  intros H NE. unfold cov1. assert (M : rmean (map (fun x => x k) r) = v).
  { unfold rmean. assert (S : rsum (map (fun x => x k) r) = v * rlen (map (fun x => x k) r)).
    { clear NE. induction r as [|x r IH]; [unfold rlen; cbn; ring|]. cbn [map rsum]. rewrite H by (left; reflexivity). rewrite IH by (intros; apply H; right; assumption). unfold rlen. cbn [List.length]. rewrite S_INR. ring. }
    rewrite S. field. unfold rlen. apply not_0_INR. rewrite map_length. destruct r; [congruence|discriminate]. }
  rewrite M. assert (Z : rsum (map (fun x => (x j - rmean (map (fun x0 => x0 j) r)) * (x k - v)) r) = 0).
  { generalize (rmean (map (fun x0 => x0 j) r)) as m. intros m. clear M NE. induction r as [|x r IH]; [reflexivity|]. cbn [map rsum]. rewrite IH by (intros; apply H; right; assumption). rewrite H by (left; reflexivity). ring. }
  rewrite Z. unfold Rdiv. ring.
Qed.
