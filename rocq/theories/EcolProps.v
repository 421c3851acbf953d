(* C110: the extended collocation of a data frame: names, rows and the order of the columns. *)
From Coq Require Import Reals Qreals Lia Lra Permutation.
From Verif Require Import Base NamesModel GroupingModel MatchersModel RStats RStatsProofs TcolModel TcolSpec TcolProofs TcolProofs2 TcolProps TightProps5 DfMetricsModel EcolModel EcolSpec EcolProofs EcolProofs2 EcolProofs3 EcolProofs4 EcolProofs5 EcolProofs6 EcolProofs7.
Import ListNotations.
Open Scope R_scope.

(* every entry is found under the name of its column or pair, unless that name is taken twice *)
Theorem C110_entries lstsq cols C co ec ae r : NoDup cols -> columns_of (List.length cols) co -> known_of (List.length cols) ec ->
  (forall i j, (i < List.length cols)%nat -> (j < List.length cols)%nat -> i <> j -> subtract C ec i j <> 0) ->
  ecol_from_cov lstsq (List.length cols) C co ec ae = Ok r ->
  exists d, ecol_cov lstsq cols (Some C) (named cols co) (named_known cols ec) ae = Ok d /\
    (forall k, dict_get d k <> None <->
       (exists c, In c cols /\ (k = "sig_" ++ c \/ k = "err_" ++ c \/ k = "snr_" ++ c)%string) \/ (exists p, In p (named cols co) /\ (k = cov_key p \/ k = corr_key p))) /\
    (forall i, (i < List.length cols)%nat ->
       dict_get d ("sig_" ++ name cols i)%string = Some (Some (nth i (e_sig r) 0)) /\
       dict_get d ("snr_" ++ name cols i)%string = Some (nth i (e_snr r) None) /\
       (own_key (name cols i) (named cols co) -> dict_get d ("err_" ++ name cols i)%string = Some (Some (nth i (e_err r) 0)))) /\
    (forall k p, nth_error (named cols co) k = Some p -> own_pair (named cols co) k ->
       dict_get d (cov_key p) = Some (Some (nth k (e_cov r) 0)) /\ dict_get d (corr_key p) = Some (nth k (e_corr r) None)).
Proof.
  intros ND PO KN NZ ER. destruct (entries_lemma lstsq cols C co ec ae r ND PO KN (no_zero _ _ _ PO NZ) ER) as (d & E & K & I & P). exists d. split; [exact E|]. split; [|split; [exact I|]].
  - intros k. rewrite K. unfold tags. rewrite !in_app_iff, !in_map_iff. split.
    + intros [(c & H & J)|[(c & H & J)|[(c & H & J)|[(p & H & J)|(p & H & J)]]]].
      * left. exists c. split; [exact J|]. left. symmetry. exact H.
      * left. exists c. split; [exact J|]. right. left. symmetry. exact H.
      * left. exists c. split; [exact J|]. right. right. symmetry. exact H.
      * right. exists p. split; [exact J|]. left. symmetry. exact H.
      * right. exists p. split; [exact J|]. right. symmetry. exact H.
    + intros [(c & J & [-> |[-> | ->]])|(p & J & [-> | ->])].
      * left. exists c. split; [reflexivity|exact J].
      * right. left. exists c. split; [reflexivity|exact J].
      * right. right. left. exists c. split; [reflexivity|exact J].
      * right. right. right. left. exists p. split; [reflexivity|exact J].
      * right. right. right. right. exists p. split; [reflexivity|exact J].
  - intros k p H OW. apply P; [exact H|]. intros j q L HQ. apply (OW j q p H HQ). lia.
Qed.

Example C110_ex_entries : let cols := ["a"; "b"; "c"; "d"]%string in NoDup cols /\ columns_of 4 [(0, 1)]%nat /\
  (forall i j, (i < 4)%nat -> (j < 4)%nat -> i <> j -> subtract C4 (Some (2%nat, 3%nat, 1)) i j <> 0) /\
  own_key "c" (named cols [(0, 1)]%nat) /\ own_pair (named cols [(0, 1)]%nat) 0 /\
  exists lstsq r, least_squares lstsq /\ ecol_from_cov lstsq 4 C4 [(0, 1)]%nat (Some (2%nat, 3%nat, 1)) false = Ok r.
Proof.
  cbn zeta. split; [repeat constructor; cbn; intuition discriminate|]. split; [intros p [<-|[]]; cbn; lia|]. split; [|split; [|split]].
  - intros i j Hi Hj N. destruct i as [|[|[|[|i]]]], j as [|[|[|[|j]]]]; try lia; unfold C4, b4, eps4; cbn; lra.
  - intros p [<-|[]]. split; discriminate.
  - intros [|[|j]] q p H1 H2 N; [congruence|discriminate|discriminate].
  - destruct solver_exists as (lstsq & LS). destruct C4_model as (_ & _ & ID). destruct (ecol_value lstsq LS 4 C4 [(0, 1)]%nat (Some (2%nat, 3%nat, 1)) false (identifiable_estimable _ _ ID)) as (r & E & _).
    exists lstsq, r. split; [exact LS|exact E].
Qed.

(* a frame whose complete rows follow the error model: the entries are the signal and error variances of the
   columns and the error covariances and correlations of the listed pairs *)
Theorem C110_recovers lstsq f s b e eps co ae : least_squares lstsq -> rectangular f -> NoDup (map fst f) -> f <> [] -> (2 <= List.length (complete_rows f))%nat ->
  correlated_error_model (List.length f) (cov1 (map row_of (complete_rows f))) s b e eps co -> 0 < s ->
  (forall i, (i < List.length f)%nat -> b i <> 0 /\ 0 < e i) -> identifiable (List.length f) co ->
  let cols := map fst f in
  exists d, fst (ecol lstsq f (named cols co) None ae) = Ok d /\
    (forall i, (i < List.length f)%nat ->
       dict_get d ("sig_" ++ name cols i)%string = Some (Some (b i * b i * s)) /\
       dict_get d ("snr_" ++ name cols i)%string = Some (Some (dB (b i * b i * s / e i))) /\
       (own_key (name cols i) (named cols co) -> dict_get d ("err_" ++ name cols i)%string = Some (Some (e i)))) /\
    (forall k x y, nth_error co k = Some (x, y) -> own_pair (named cols co) k ->
       dict_get d (cov_key (name cols x, name cols y)) = Some (Some (eps x y)) /\
       dict_get d (corr_key (name cols x, name cols y)) = Some (Some (eps x y / (sqrt (e x) * sqrt (e y))))).
Proof.
  intros LS RE ND NE TWO EM S0 BE ID cols. unfold ecol. cbn zeta. cbn [fst]. rewrite dropna_names. fold cols.
  assert (EM' : correlated_error_model (List.length f) (cov1 (rows (dropna f))) s b e eps co).
  { destruct EM as (E1 & E2 & E3). split; [|split; [|exact E3]].
    - intros i Hi. rewrite cov_complete by assumption. apply E1, Hi.
    - intros i j Hi Hj N. rewrite cov_complete by assumption. apply E2; assumption. }
  rewrite many_rows by (rewrite dropna_nrows by assumption; exact TWO).
  assert (LF : List.length cols = List.length f) by apply map_length.
  assert (PO : columns_of (List.length f) co) by (intros p I; destruct ID as [_ ID]; destruct (ID p I) as (H1 & H2 & _); split; assumption).
  destruct (C64_recovers lstsq (List.length f) (cov1 (rows (dropna f))) s b e eps co ae LS EM' S0 BE ID) as (r & ER & ES & EE & EC & EN).
  destruct (C64_correlation lstsq (List.length f) (cov1 (rows (dropna f))) s b e eps co ae LS EM' S0 BE ID) as (r2 & ER2 & EK). assert (r2 = r) by congruence. subst r2.
  rewrite <- LF in PO, ER. assert (Z : existsb zerob (divisors (List.length cols) (subtract (cov1 (rows (dropna f))) None) co) = false) by (rewrite LF; apply (model_divisors _ _ s b e eps); assumption).
  destruct (entries_lemma lstsq cols _ co None ae r ND PO Logic.I Z ER) as (d & E & _ & I & P). exists d. split; [exact E|]. split.
  - intros i Hi. rewrite <- LF in Hi. destruct (I i Hi) as (I1 & I2 & I3). rewrite LF in Hi. rewrite ES in I1. rewrite EN in I2. rewrite EE in I3.
    rewrite nth_seq_map in I1 by exact Hi. rewrite nth_seq_map in I2 by exact Hi. rewrite nth_seq_map in I3 by exact Hi. split; [exact I1|]. split; [exact I2|exact I3].
  - intros k x y H OW. assert (HN : nth_error (named cols co) k = Some (name cols x, name cols y)) by (unfold named; rewrite nth_error_map', H; reflexivity).
    destruct (P k _ HN) as [P1 P2]; [intros j q L HQ; apply (OW j q _ HN HQ); lia|]. rewrite P1, P2, EC, EK.
    assert (NM : forall (A : Type) (g : nat * nat -> A) dd, nth k (map g co) dd = g (x, y)) by (intros A g dd; apply nth_error_nth; rewrite nth_error_map', H; reflexivity).
    rewrite !NM. cbn [fst snd]. split; reflexivity.
Qed.
(* nine rows, the third one incomplete *)
Definition f9 : frame := [
  ("a", [Some 2; Some 2; None; Some 0; Some 0; Some 0; Some 0; Some (-2); Some (-2)]%Q);
  ("b", [Some 3; Some 1; Some 7; Some 3; Some 1; Some (-1); Some (-3); Some (-1); Some (-3)]%Q);
  ("c", [Some 2; Some (-4); Some 5; Some (-4); Some 2; Some (-2); Some 4; Some 4; Some (-2)]%Q)]%string.
Definition complete9 : list (list cell) :=
  [[Some 2; Some 3; Some 2]; [Some 2; Some 1; Some (-4)]; [Some 0; Some 3; Some (-4)]; [Some 0; Some 1; Some 2];
   [Some 0; Some (-1); Some (-2)]; [Some 0; Some (-3); Some 4]; [Some (-2); Some (-1); Some 4]; [Some (-2); Some (-3); Some (-2)]]%Q.
Example f9_complete : rectangular f9 /\ complete_rows f9 = complete9 /\ NoDup (map fst f9).
Proof.
  split; [intros c [<-|[<-|[<-|[]]]]; reflexivity|]. split; [reflexivity|]. cbn. repeat constructor; cbn; intuition discriminate.
Qed.
Example f9_model : correlated_error_model 3 (cov1 (map row_of (complete_rows f9))) (8 / 7) gains3 errors3 (fun _ _ => 0) [] /\
  (forall i, (i < 3)%nat -> gains3 i <> 0 /\ 0 < errors3 i) /\ identifiable 3 [].
Proof.
  rewrite (proj1 (proj2 f9_complete)). assert (L : forall i, (i < 3)%nat -> i = 0%nat \/ i = 1%nat \/ i = 2%nat) by (intros; lia).
  split; [split; [|split]|split].
  - intros i Hi. destruct (L i Hi) as [->|[->| ->]]; unfold cov1, rmean, rlen, complete9, row_of, gains3, errors3, Q2R; cbn; field.
  - intros i j Hi Hj NE. destruct (L i Hi) as [->|[->| ->]], (L j Hj) as [->|[->| ->]]; try (exfalso; apply NE; reflexivity);
      unfold cov1, rmean, rlen, complete9, row_of, gains3, errors3, Q2R; cbn; field.
  - reflexivity.
  - intros i Hi. destruct (L i Hi) as [->|[->| ->]]; unfold gains3, errors3; cbn; lra.
  - apply identifiable_nil. lia.
Qed.
Example C110_ex_recovers : exists lstsq d, least_squares lstsq /\ fst (ecol lstsq f9 [] None true) = Ok d /\
  dict_get d "sig_b"%string = Some (Some (32 / 7)) /\ dict_get d "err_c"%string = Some (Some (72 / 7)).
Proof.
  destruct solver_exists as (lstsq & LS). destruct f9_complete as (RE & CO & ND). destruct f9_model as (EM & BE & ID).
  assert (TWO : (2 <= List.length (complete_rows f9))%nat) by (rewrite CO; cbn; lia).
  destruct (C110_recovers lstsq f9 (8 / 7) gains3 errors3 (fun _ _ => 0) [] true LS RE ND ltac:(discriminate) TWO EM ltac:(lra) BE ID) as (d & E & I & _).
  exists lstsq, d. split; [exact LS|]. split; [exact E|]. split.
  - destruct (I 1%nat ltac:(cbn; lia)) as (I1 & _). cbn [map fst f9 name nth append] in I1. rewrite I1. unfold gains3. f_equal. f_equal. field.
  - destruct (I 2%nat ltac:(cbn; lia)) as (_ & _ & I3). cbn [map fst f9 name nth append] in I3. rewrite I3 by (intros p []). reflexivity.
Qed.

(* what fails: a column may be called like the entry of a pair; its error variance is lost *)
Definition cols5 : list string := ["a"; "b"; "c"; "d"; "cov_a_b"]%string.
Lemma C5_model : correlated_error_model 5 C4 2 b4 e4 eps4 [(0, 1)]%nat /\ (forall i, (i < 5)%nat -> b4 i <> 0 /\ 0 < e4 i) /\ identifiable 5 [(0, 1)]%nat.
Proof.
  assert (U : forall a b, (2 <= a)%nat \/ (2 <= b)%nat -> uncorrelated [(0, 1)]%nat a b) by (intros a b H; split; intros [E|[]]; injection E; lia).
  split; [split; [|split]|split; [|split]].
  - intros i _. unfold C4. rewrite Nat.eqb_refl. reflexivity.
  - intros i j _ _ N. unfold C4. apply Nat.eqb_neq in N. rewrite N. reflexivity.
  - apply C4_model.
  - intros i _. unfold b4, e4. split; [destruct i as [|[|[|i]]]; lra|pose proof (pos_INR i); lra].
  - intros c Hc. destruct c as [|[|[|c]]]; [exists 2%nat, 3%nat|exists 2%nat, 3%nat|exists 0%nat, 3%nat|exists 0%nat, 2%nat]; repeat (split; [first [lia|apply U; lia]|]); apply U; lia.
  - intros p [<-|[]]. cbn [fst snd]. repeat (split; [lia|]). exists 2%nat, 3%nat. repeat (split; [first [lia|apply U; lia]|]); apply U; lia.
Qed.
Theorem C110_column_name_refuted : forall lstsq, least_squares lstsq -> exists cols C s b e eps co d, NoDup cols /\
  correlated_error_model (List.length cols) C s b e eps co /\ 0 < s /\ (forall i, (i < List.length cols)%nat -> b i <> 0 /\ 0 < e i) /\ identifiable (List.length cols) co /\
  ecol_cov lstsq cols (Some C) (named cols co) None false = Ok d /\
  exists i, (i < List.length cols)%nat /\ dict_get d ("err_" ++ name cols i)%string <> Some (Some (e i)).
Proof.
  intros lstsq LS. destruct C5_model as (EM & BE & ID). exists cols5, C4, 2, b4, e4, eps4, [(0, 1)]%nat.
  destruct (C64_recovers lstsq 5 C4 2 b4 e4 eps4 [(0, 1)]%nat false LS EM ltac:(lra) BE ID) as (r & ER & _ & _ & EC & _).
  assert (ND : NoDup cols5) by (repeat constructor; cbn; intuition discriminate).
  assert (PO : columns_of (List.length cols5) [(0, 1)]%nat) by (intros p [<-|[]]; cbn; lia).
  destruct (entries_lemma lstsq cols5 C4 [(0, 1)]%nat None false r ND PO Logic.I (model_divisors _ _ _ _ _ _ _ EM ltac:(lra) BE) ER) as (d & E & _ & _ & P). exists d.
  split; [exact ND|]. split; [exact EM|]. split; [lra|]. split; [exact BE|]. split; [exact ID|]. split; [exact E|]. exists 4%nat. split; [cbn; lia|].
  destruct (P 0%nat ("a", "b")%string eq_refl) as [P1 _]; [intros [|[|j]] q L H; [lia|discriminate|discriminate]|].
  change ("err_" ++ name cols5 4)%string with (cov_key ("a", "b")%string). rewrite P1, EC. cbn [map nth fst snd]. unfold eps4. cbn [Nat.eqb andb orb].
  unfold e4. cbn [INR]. intros X. assert (Y : 1 / 2 = 1 + 1 + 1 + 1 + 1) by congruence. lra.
Qed.

(* what fails: two pairs may be joined to the same name; one of their error covariances is lost *)
Definition cols6 : list string := ["a_b"; "c"; "a"; "b_c"; "d"; "e"]%string.
Definition co6 : list (nat * nat) := [(0, 1); (2, 3)]%nat.
Definition eps6 : nat -> nat -> R := fun i j =>
  if orb (andb (Nat.eqb i 0) (Nat.eqb j 1)) (andb (Nat.eqb i 1) (Nat.eqb j 0)) then 1 / 2 else
  if orb (andb (Nat.eqb i 2) (Nat.eqb j 3)) (andb (Nat.eqb i 3) (Nat.eqb j 2)) then 1 / 4 else 0.
Definition C6 : matrix := fun i j => if Nat.eqb i j then b4 i * b4 i * 2 + e4 i else b4 i * b4 j * 2 + eps6 i j.
Lemma C6_model : correlated_error_model 6 C6 2 b4 e4 eps6 co6 /\ (forall i, (i < 6)%nat -> b4 i <> 0 /\ 0 < e4 i) /\ identifiable 6 co6.
Proof.
  assert (U : forall a b, ((2 <= a /\ (a <> 2 /\ a <> 3 \/ b <> 2 /\ b <> 3)) \/ (2 <= b /\ (a <> 2 /\ a <> 3 \/ b <> 2 /\ b <> 3)))%nat -> uncorrelated co6 a b)
    by (intros a b H; split; intros [E|[E|[]]]; injection E; lia).
  split; [split; [|split]|split; [|split]].
  - intros i _. unfold C6. rewrite Nat.eqb_refl. reflexivity.
  - intros i j _ _ N. unfold C6. apply Nat.eqb_neq in N. rewrite N. reflexivity.
  - intros i j N1 N2. unfold eps6. cbn in N1, N2.
    destruct (Nat.eqb_spec i 0), (Nat.eqb_spec j 1), (Nat.eqb_spec i 1), (Nat.eqb_spec j 0), (Nat.eqb_spec i 2), (Nat.eqb_spec j 3), (Nat.eqb_spec i 3), (Nat.eqb_spec j 2); subst; cbn; try reflexivity; try discriminate; exfalso; tauto.
  - intros i _. unfold b4, e4. split; [destruct i as [|[|[|i]]]; lra|pose proof (pos_INR i); lra].
  - intros c Hc. destruct c as [|[|[|[|c]]]]; [exists 2%nat, 4%nat|exists 2%nat, 4%nat|exists 0%nat, 4%nat|exists 0%nat, 4%nat|exists 0%nat, 2%nat]; repeat (split; [first [lia|apply U; lia]|]); apply U; lia.
  - intros p [<-|[<-|[]]]; cbn [fst snd]; repeat (split; [lia|]); [exists 2%nat, 4%nat|exists 0%nat, 4%nat]; repeat (split; [first [lia|apply U; lia]|]); apply U; lia.
Qed.
Theorem C110_pair_names_refuted : forall lstsq, least_squares lstsq -> exists cols C s b e eps co d, NoDup cols /\
  correlated_error_model (List.length cols) C s b e eps co /\ 0 < s /\ (forall i, (i < List.length cols)%nat -> b i <> 0 /\ 0 < e i) /\ identifiable (List.length cols) co /\
  ecol_cov lstsq cols (Some C) (named cols co) None false = Ok d /\
  exists x y, In (x, y) co /\ dict_get d (cov_key (name cols x, name cols y)) <> Some (Some (eps x y)).
Proof.
  intros lstsq LS. destruct C6_model as (EM & BE & ID). exists cols6, C6, 2, b4, e4, eps6, co6.
  destruct (C64_recovers lstsq 6 C6 2 b4 e4 eps6 co6 false LS EM ltac:(lra) BE ID) as (r & ER & _ & _ & EC & _).
  assert (ND : NoDup cols6) by (repeat constructor; cbn; intuition discriminate).
  assert (PO : columns_of (List.length cols6) co6) by (intros p [<-|[<-|[]]]; cbn; lia).
  destruct (entries_lemma lstsq cols6 C6 co6 None false r ND PO Logic.I (model_divisors _ _ _ _ _ _ _ EM ltac:(lra) BE) ER) as (d & E & _ & _ & P). exists d.
  split; [exact ND|]. split; [exact EM|]. split; [lra|]. split; [exact BE|]. split; [exact ID|]. split; [exact E|]. exists 0%nat, 1%nat. split; [left; reflexivity|].
  destruct (P 1%nat ("a", "b_c")%string eq_refl) as [P1 _]; [intros [|[|[|j]]] q L H; [lia|lia|discriminate|discriminate]|].
  change (cov_key (name cols6 0, name cols6 1)) with (cov_key ("a", "b_c")%string). rewrite P1, EC. cbn [co6 map nth fst snd]. unfold eps6. cbn [Nat.eqb andb orb].
  intros X. assert (Y : 1 / 4 = 1 / 2) by congruence. lra.
Qed.

(* only the complete rows count: frames with the same names and the same complete rows give the same *)
Theorem C110_complete_rows lstsq f g correlated ec ae : rectangular f -> rectangular g -> map fst f = map fst g -> complete_rows f = complete_rows g ->
  ecol lstsq f correlated ec ae = ecol lstsq g correlated ec ae.
Proof. intros RF RG N C. unfold ecol. rewrite (frame_of_rows f g RF RG N C). reflexivity. Qed.
Definition f8 : frame := [
  ("a", [Some 2; Some 2; Some 0; Some 0; Some 0; Some 0; Some (-2); Some (-2)]%Q);
  ("b", [Some 3; Some 1; Some 3; Some 1; Some (-1); Some (-3); Some (-1); Some (-3)]%Q);
  ("c", [Some 2; Some (-4); Some (-4); Some 2; Some (-2); Some 4; Some 4; Some (-2)]%Q)]%string.
Example C110_ex_complete_rows : rectangular f8 /\ map fst f9 = map fst f8 /\ complete_rows f9 = complete_rows f8 /\ f9 <> f8.
Proof. split; [intros c [<-|[<-|[<-|[]]]]; reflexivity|]. split; [reflexivity|]. split; [reflexivity|discriminate]. Qed.

(* the caller's frame afterwards: the incomplete rows are gone *)
Theorem C110_frame_afterwards lstsq f correlated ec ae : rectangular f -> let g := snd (ecol lstsq f correlated ec ae) in
  rectangular g /\ map fst g = map fst f /\ complete_rows g = complete_rows f /\ (forall c x, In c g -> In x (snd c) -> notna x = true) /\
  g = map (fun j => (nth j (map fst f) ""%string, map (fun r => nth j r None) (complete_rows f))) (seq 0 (List.length f)).
Proof.
  intros RE. cbn [ecol snd]. destruct (dropna_complete f RE) as [A B]. split; [exact A|]. split; [apply dropna_names|]. split; [|split; [exact B|apply dropna_rows, RE]].
  pose proof (dropna_rows (dropna f) A) as E. rewrite dropna_twice in E by exact RE. rewrite !complete_kept. unfold kept.
  destruct f as [|c0 f0] eqn:F; [reflexivity|]. rewrite <- F in *. assert (NE : f <> []) by (rewrite F; discriminate). clear F.
  assert (K2 : filter (complete_row (dropna f)) (seq 0 (nrows (dropna f))) = seq 0 (nrows (dropna f))).
  { assert (G : forall l, (forall t, In t l -> (t < nrows (dropna f))%nat) -> filter (complete_row (dropna f)) l = l).
    { induction l as [|t l IH]; intros H; [reflexivity|]. cbn [filter]. assert (X : complete_row (dropna f) t = true).
      { apply forallb_forall. intros c I. apply (B c _ I). pose proof (H t (or_introl eq_refl)) as L. rewrite nrows_hd, <- (A c I) in L. exact (nth_In (snd c) None L). }
      rewrite X, IH by (intros; apply H; right; assumption). reflexivity. }
    apply G. intros t I. apply in_seq in I. lia. }
  rewrite K2. fold (kept f). rewrite nrows_kept by assumption. rewrite <- (map_seq_nth (kept f) 0%nat) at 2. rewrite map_map. apply map_ext_in. intros t I. apply in_seq in I.
  unfold cells. rewrite (dropna_kept f RE) at 1. rewrite map_map. apply map_ext. intros c. cbn [snd]. set (h := fun t => nth t (snd c) None).
  rewrite (nth_indep _ None (h 0%nat)) by (rewrite map_length; lia). rewrite map_nth. reflexivity.
Qed.
Theorem C110_frame_kept lstsq f correlated ec ae : rectangular f -> (forall c x, In c f -> In x (snd c) -> notna x = true) -> snd (ecol lstsq f correlated ec ae) = f.
Proof. intros RE FU. cbn [ecol snd]. apply dropna_full; assumption. Qed.
Theorem C110_frame_changed_refuted : exists f, rectangular f /\ forall lstsq correlated ec ae, snd (ecol lstsq f correlated ec ae) <> f.
Proof. exists f9. split; [apply f9_complete|]. intros. cbn [ecol snd]. intros E. assert (X : nrows (dropna f9) = nrows f9) by (rewrite E; reflexivity). vm_compute in X. discriminate. Qed.

(* a second call gives the same result and leaves the frame alone *)
Theorem C110_again lstsq f correlated ec ae : rectangular f ->
  ecol lstsq (snd (ecol lstsq f correlated ec ae)) correlated ec ae = ecol lstsq f correlated ec ae.
Proof. intros RE. unfold ecol. cbn [snd]. rewrite dropna_twice by exact RE. reflexivity. Qed.

(* fewer than two complete rows: no entry is a number *)
Theorem C110_few_rows lstsq f correlated ec ae d : rectangular f -> f <> [] -> (List.length (complete_rows f) < 2)%nat ->
  fst (ecol lstsq f correlated ec ae) = Ok d -> forall k v, dict_get d k = Some v -> v = None.
Proof.
  intros RE NE FEW. unfold ecol. cbn [fst]. rewrite few_rows by (rewrite dropna_nrows by assumption; exact FEW). apply cov_none_lemma.
Qed.
Example C110_ex_few_rows : let f : frame := [("a", [Some 1; None; Some 2]%Q); ("b", [Some 1; Some 5; None]%Q); ("c", [Some 2; Some 3; Some 4]%Q)]%string in
  rectangular f /\ (List.length (complete_rows f) < 2)%nat /\ exists lstsq d, least_squares lstsq /\ fst (ecol lstsq f [] None true) = Ok d /\ dict_get d "sig_a"%string = Some None.
Proof.
  cbn zeta. set (f := [_; _; _]). assert (RE : rectangular f) by (intros c [<-|[<-|[<-|[]]]]; reflexivity). split; [exact RE|]. split; [vm_compute; lia|].
  destruct solver_exists as (lstsq & LS). exists lstsq. unfold ecol. cbn [fst]. rewrite few_rows by (vm_compute; lia). rewrite dropna_names.
  destruct (not_finite_dict lstsq (map fst f) None [] None true LS ltac:(repeat constructor; cbn; intuition discriminate) ltac:(intros p []) Logic.I (identifiable_estimable 3 [] (identifiable_nil 3 (le_n 3))) Logic.I) as (d & E & V).
  exists d. split; [exact LS|]. split; [exact E|]. apply V. cbn. tauto.
Qed.

(* two uncorrelated columns, or a constant column, among at least three: no entry is a number *)
Theorem C110_zero_covariance lstsq f ae d a b : rectangular f -> (3 <= List.length f)%nat -> (a < List.length f)%nat -> (b < List.length f)%nat -> a <> b ->
  cov1 (map row_of (complete_rows f)) a b = 0 ->
  fst (ecol lstsq f [] None ae) = Ok d -> forall k v, dict_get d k = Some v -> v = None.
Proof.
  intros RE N A B NE Z. unfold ecol. cbn [fst]. assert (F : f <> []) by (destruct f; [cbn in N; lia|discriminate]). destruct (np_cov (rows (dropna f))) as [C|] eqn:EC; [|apply cov_none_lemma].
  assert (E : C = cov1 (rows (dropna f))) by (unfold np_cov in EC; destruct (rows (dropna f)) as [|x [|y l]]; [discriminate|discriminate|congruence]). subst C.
  rewrite dropna_names. apply zero_none_lemma. rewrite map_length. apply (zero_divisor _ _ a b); try assumption.
  - rewrite cov_complete by assumption. exact Z.
  - rewrite cov_complete by assumption. rewrite cov1_sym. exact Z.
Qed.
Theorem C110_constant_column lstsq f ae d b w : rectangular f -> (3 <= List.length f)%nat -> (b < List.length f)%nat -> (forall r, In r (complete_rows f) -> nth b r None = Some w) ->
  fst (ecol lstsq f [] None ae) = Ok d -> forall k v, dict_get d k = Some v -> v = None.
Proof.
  intros RE N B W. assert (A : exists a, (a < List.length f)%nat /\ a <> b) by (destruct (Nat.eq_dec b 0); [exists 1%nat|exists 0%nat]; lia). destruct A as (a & A & NE).
  assert (F : f <> []) by (destruct f; [cbn in N; lia|discriminate]). destruct (complete_rows f) as [|r l] eqn:E.
  - apply C110_few_rows; [exact RE|exact F|rewrite E; cbn; lia].
  - apply (C110_zero_covariance lstsq f ae d a b RE N A B NE). rewrite E. apply (cov1_const _ a b (Q2R w)); [|discriminate]. intros x I. apply in_map_iff in I as (q & <- & I). unfold row_of. rewrite (W q I). reflexivity.
Qed.
Definition f_const : frame := [
  ("a", [Some 2; Some 5; Some 1]%Q); ("b", [Some 3; Some 4; Some 1]%Q); ("c", [Some 2; Some 4; Some 0]%Q); ("d", [Some 7; Some 7; Some 7]%Q)]%string.
Example C110_ex_constant : exists lstsq d, least_squares lstsq /\ fst (ecol lstsq f_const [] None true) = Ok d /\ dict_get d "sig_a"%string = Some None /\ dict_get d "snr_c"%string = Some None.
Proof.
  destruct solver_exists as (lstsq & LS). assert (RE : rectangular f_const) by (intros c [<-|[<-|[<-|[<-|[]]]]]; reflexivity).
  assert (ND : NoDup (map fst f_const)) by (repeat constructor; cbn; intuition discriminate).
  destruct (order_lemma lstsq f_const f_const [] None true LS RE ND (Permutation_refl _) (identifiable_nil 4 ltac:(lia)) Logic.I) as (d & _ & E & _). exists lstsq, d. split; [exact LS|]. split; [exact E|].
  assert (V : forall k v, dict_get d k = Some v -> v = None).
  { apply (C110_constant_column lstsq f_const true d 3 7%Q RE); [cbn; lia|cbn; lia| |exact E]. intros r I. vm_compute in I. destruct I as [<-|[<-|[<-|[]]]]; reflexivity. }
  assert (K : forall k, In k (tags (map fst f_const) []) -> dict_get d k = Some None).
  { intros k I. destruct (dict_get d k) as [v|] eqn:G; [rewrite (V k v G); reflexivity|]. exfalso. unfold ecol in E. cbn [fst] in E. rewrite dropna_names in E.
    change (@nil (string * string)) with (named (map fst f_const) []) in E. 
    assert (Z : existsb zerob (divisors 4 (cov1 (rows (dropna f_const))) []) = true).
    { assert (C0 : forall j, cov1 (rows (dropna f_const)) j 3%nat = 0).
      { intros j. rewrite cov_complete by (exact RE || discriminate). apply (cov1_const _ j 3%nat (Q2R 7)); [|discriminate]. intros x J. apply in_map_iff in J as (q & <- & J). vm_compute in J. destruct J as [<-|[<-|[<-|[]]]]; reflexivity. }
      apply (zero_divisor 4 _ 0 3); try lia; [apply C0|rewrite cov1_sym; apply C0]. }
    rewrite many_rows in E by (vm_compute; lia).
    destruct (not_finite_dict lstsq (map fst f_const) (Some (cov1 (rows (dropna f_const)))) [] None true LS ND ltac:(intros p []) Logic.I (identifiable_estimable 4 [] (identifiable_nil 4 ltac:(lia))) Z) as (d' & E' & V').
    pose proof (eq_trans (eq_sym E') E) as DD. assert (d' = d) by (injection DD; trivial). subst d'. rewrite (proj1 (V' k) I) in G. discriminate. }
  split; apply K; cbn; tauto.
Qed.

(* a name that is not a column raises KeyError *)
Theorem C110_unknown_name lstsq f correlated ec ae :
  (exists p, In p correlated /\ ~ (In (fst p) (map fst f) /\ In (snd p) (map fst f))) \/ (exists a b v, ec = Some (a, b, v) /\ ~ (In a (map fst f) /\ In b (map fst f))) ->
  fst (ecol lstsq f correlated ec ae) = Err EKey.
Proof. intros H. unfold ecol. cbn [fst]. rewrite dropna_names. apply unknown_lemma, H. Qed.
Example C110_ex_unknown : forall lstsq, fst (ecol lstsq f9 [("a", "x")]%string None true) = Err EKey.
Proof. intros. apply C110_unknown_name. left. exists ("a", "x")%string. split; [left; reflexivity|]. cbn. intuition discriminate. Qed.

(* the order of the columns does not matter: every entry is the same *)
Theorem C110_column_order lstsq f g co ec ae : least_squares lstsq -> rectangular f -> NoDup (map fst f) -> Permutation f g ->
  identifiable (List.length f) co -> known_of (List.length f) ec ->
  exists d d', fst (ecol lstsq f (named (map fst f) co) (named_known (map fst f) ec) ae) = Ok d /\
    fst (ecol lstsq g (named (map fst f) co) (named_known (map fst f) ec) ae) = Ok d' /\ forall k, dict_get d k = dict_get d' k.
Proof. exact (order_lemma lstsq f g co ec ae). Qed.
Example C110_ex_order : exists g, Permutation f9 g /\ g <> f9 /\ known_of (List.length f9) (Some (0%nat, 2%nat, 1 / 8)) /\ identifiable (List.length f9) [].
Proof.
  exists (rev f9). split; [apply Permutation_rev|]. split; [discriminate|]. split; [cbn; lia|]. apply identifiable_nil. cbn. lia.
Qed.

Print Assumptions C110_entries.
Print Assumptions C110_recovers.
Print Assumptions C110_column_name_refuted.
Print Assumptions C110_pair_names_refuted.
Print Assumptions C110_complete_rows.
Print Assumptions C110_frame_afterwards.
Print Assumptions C110_frame_kept.
Print Assumptions C110_frame_changed_refuted.
Print Assumptions C110_again.
Print Assumptions C110_few_rows.
Print Assumptions C110_zero_covariance.
Print Assumptions C110_constant_column.
Print Assumptions C110_unknown_name.
Print Assumptions C110_column_order.
