(* Collocation on another time axis with the columns index_other and distance_other. *)
From Verif Require Import BaseProofs TemporalModel ShiftProofs.
From Coq Require Import QArith.
Open Scope Z_scope.

Section Ext.
Variables k s : Z.
Hypothesis K : 0 < k.
Notation f := (ShiftProofs.f k s).
Definition fi (c : cell) : cell := option_map (fun q => inject_Z k * q + inject_Z s)%Q c.
Definition fd (c : cell) : cell := option_map (fun q => inject_Z k * q)%Q c.
(* the index column alone / the index and the distance column *)
Definition phi0 (n : nat) (r : row) : row := match skipn n r with [] => r | i :: d => firstn n r ++ fi i :: d end.
Definition phi (n : nat) (r : row) : row := match skipn n r with [] => r | i :: d => firstn n r ++ fi i :: map fd d end.
Definition frw (h : row -> row) (g : frame) : frame := mkFrame (fcols g) (map (fun p => (f (fst p), h (snd p))) (frows g)).

Lemma findex_frw h g : findex (frw h g) = map f (findex g).
Proof. unfold findex, frw. cbn [frows]. rewrite !map_map. reflexivity. Qed.
Lemma take_frw h n rows i : h (nan_row n) = nan_row n -> take_row n (map (fun p => (f (fst p), h (snd p))) rows) i = h (take_row n rows i).
Proof. intros N. unfold take_row. destruct (i =? -1); [symmetry; exact N|]. rewrite nth_error_map. destruct (nth_error rows (Z.to_nat i)) as [[t r]|]; [reflexivity|symmetry; exact N]. Qed.
Lemma reindex_frw h g targets tol : h (nan_row (ncols g)) = nan_row (ncols g) -> reindex_nearest (frw h g) (map f targets) (k * tol) = mapR (frw h) (reindex_nearest g targets tol).
Proof.
  intros N. unfold reindex_nearest. cbv zeta. rewrite findex_frw, (increasing_f k s K), (decreasing_f k s K). destruct targets as [|t r]; [reflexivity|]. change (map f (t :: r)) with (f t :: map f r).
  change (fcols (frw h g)) with (fcols g). change (ncols (frw h g)) with (ncols g). cbn iota. change (f t :: map f r) with (map f (t :: r)).
  destruct (_ || _); [|reflexivity]. cbn [mapR]. f_equal. unfold frw at 2. cbn [fcols frows]. f_equal. rewrite !map_map. apply map_ext. intros u. cbn [fst snd]. rewrite (nearest_f k s K).
  change (frows (frw h g)) with (map (fun p => (f (fst p), h (snd p))) (frows g)). rewrite (take_frw h _ _ _ N). reflexivity.
Qed.
Lemma bool_index_frw h m g : bool_index m (frw h g) = mapR (frw h) (bool_index m g).
Proof. unfold bool_index. cbn [frw frows fcols]. rewrite map_length. destruct (Nat.eqb _ _); [|reflexivity]. cbn [mapR]. unfold frw. cbn [frows fcols]. rewrite mask_select_map. reflexivity. Qed.
Lemma map2_app (g : cell -> cell -> cell) a : forall b c d, List.length a = List.length b -> map2 g (a ++ c) (b ++ d) = map2 g a b ++ map2 g c d.
Proof. induction a as [|x a IH]; intros [|y b] c d L; try discriminate L; [reflexivity|]. cbn. f_equal. apply IH. injection L as L. exact L. Qed.
Lemma map2_len (g : cell -> cell -> cell) a : forall b, List.length (map2 g a b) = Nat.min (List.length a) (List.length b).
Proof. induction a as [|x a IH]; intros [|y b]; cbn; try reflexivity. rewrite IH. reflexivity. Qed.
Lemma firstn_map2 (g : cell -> cell -> cell) n : forall a b, firstn n (map2 g a b) = map2 g (firstn n a) (firstn n b).
Proof. induction n as [|n IH]; intros [|x a] [|y b]; cbn; try reflexivity. rewrite IH. reflexivity. Qed.
Lemma skipn_map2 (g : cell -> cell -> cell) n : forall a b, skipn n (map2 g a b) = map2 g (skipn n a) (skipn n b).
Proof. induction n as [|n IH]; intros [|x a] [|y b]; cbn; try reflexivity; [|apply IH]. destruct (skipn n a); reflexivity. Qed.
Lemma map2_nil_r (g : cell -> cell -> cell) a : map2 g a [] = [].
Proof. destruct a; reflexivity. Qed.
Lemma map2_long (g : cell -> cell -> cell) a : forall b c, (List.length b <= List.length a)%nat -> map2 g (a ++ c) b = map2 g a b.
Proof. induction a as [|x a IH]; intros [|y b] c L; cbn in *; try reflexivity; [apply map2_nil_r|lia|]. f_equal. apply IH. lia. Qed.
Lemma map2_long_r (g : cell -> cell -> cell) a : forall b c, (List.length a <= List.length b)%nat -> map2 g a (b ++ c) = map2 g a b.
Proof. induction a as [|x a IH]; intros [|y b] c L; cbn in *; try reflexivity; [lia|]. f_equal. apply IH. lia. Qed.
Lemma skip_nil {A} n (l : list A) : skipn n l = [] -> (List.length l <= n)%nat.
Proof. intros E. pose proof (skipn_length n l) as L. rewrite E in L. cbn in L. lia. Qed.
Lemma skip_cons {A} n (l : list A) x r : skipn n l = x :: r -> List.length (firstn n l) = n.
Proof. intros E. pose proof (skipn_length n l) as L. rewrite E in L. cbn in L. rewrite firstn_length. lia. Qed.
Lemma phi0_comb n a b : map2 combine_first_cell (phi0 n a) (phi0 n b) = phi0 n (map2 combine_first_cell a b).
Proof.
  unfold phi0. rewrite skipn_map2. destruct (skipn n a) as [|x a'] eqn:EA.
  - cbn [map2]. destruct (skipn n b) as [|y b'] eqn:EB; [reflexivity|].
    pose proof (skip_nil _ _ EA). pose proof (skip_cons _ _ _ _ EB) as LB. rewrite map2_long_r by lia. rewrite <- (firstn_skipn n b) at 2. rewrite map2_long_r by lia. reflexivity.
  - destruct (skipn n b) as [|y b'] eqn:EB; cbn [map2].
    + pose proof (skip_nil _ _ EB). pose proof (skip_cons _ _ _ _ EA) as LA. rewrite map2_long by lia. rewrite <- (firstn_skipn n a) at 2. rewrite map2_long by lia. reflexivity.
    + pose proof (skip_cons _ _ _ _ EA) as LA. pose proof (skip_cons _ _ _ _ EB) as LB. rewrite map2_app by lia. cbn [map2]. rewrite firstn_map2. f_equal. f_equal. destruct x, y; reflexivity.
Qed.
Lemma combine_first_frw n a b : combine_first (frw (phi0 n) a) (frw (phi0 n) b) = frw (phi0 n) (combine_first a b).
Proof.
  unfold combine_first, frw. cbn [frows fcols]. f_equal. generalize (frows a), (frows b). intros l. induction l as [|x l IH]; intros [|y m]; cbn; try reflexivity. rewrite IH, phi0_comb. reflexivity.
Qed.
Lemma nan_split n m : nan_row (n + m) = nan_row n ++ nan_row m.
Proof. unfold nan_row. apply repeat_app. Qed.
Lemma phi0_nan n m : phi0 n (nan_row (n + m)) = nan_row (n + m).
Proof.
  unfold phi0. rewrite nan_split. rewrite skipn_app, firstn_app. unfold nan_row at 1. rewrite skipn_all2 by (rewrite repeat_length; lia). unfold nan_row at 1. rewrite repeat_length, Nat.sub_diag. cbn [skipn app].
  destruct m as [|m]; [reflexivity|]. change (nan_row (S m)) with (@None Q :: nan_row m). rewrite firstn_all2 by (unfold nan_row; rewrite repeat_length; lia). unfold nan_row at 2. rewrite repeat_length, Nat.sub_diag. cbn [firstn]. rewrite app_nil_r. reflexivity.
Qed.
Lemma inj_f t : Some (inject_Z (f t)) = fi (Some (inject_Z t)).
Proof. unfold fi, ShiftProofs.f. cbn [option_map]. f_equal. unfold inject_Z, Qmult, Qplus. cbn. f_equal. lia. Qed.
Definition wf (g : frame) : Prop := Forall (fun p => List.length (snd p) = ncols g) (frows g).
Lemma phi0_ext n (r : row) x (d : row) : List.length r = n -> phi0 n (r ++ x :: d) = r ++ fi x :: d.
Proof.
  intros L. unfold phi0. rewrite skipn_app, firstn_app, L, Nat.sub_diag. rewrite skipn_all2 by lia. cbn [skipn app firstn]. rewrite firstn_all2 by lia. rewrite app_nil_r. reflexivity.
Qed.
Lemma add_index_frw ri rd g : ri || rd = true -> wf g -> add_index_cols ri rd (fr k s g) = frw (phi0 (ncols g)) (add_index_cols ri rd g).
Proof.
  intros R W. unfold add_index_cols. rewrite R. unfold frw, fr. cbn [fcols frows]. f_equal. rewrite !map_map. apply map_ext_in. intros [t r] I1. cbn [fst snd]. f_equal.
  pose proof (proj1 (Forall_forall _ _) W _ I1) as L. cbn [snd] in L. cbn [app]. rewrite (phi0_ext _ _ _ _ L), <- inj_f. reflexivity.
Qed.
Lemma ncols_add ri rd g : ri || rd = true -> ncols (add_index_cols ri rd g) = (ncols g + (if rd then 2 else 1))%nat.
Proof. intros R. unfold add_index_cols. rewrite R. unfold ncols. cbn [fcols]. rewrite !app_length. destruct rd; cbn; lia. Qed.

(* the distance *)
Lemma dist_f (q : Q) t : (inject_Z k * q + inject_Z s - inject_Z (f t))%Q = (inject_Z k * (q - inject_Z t))%Q.
Proof.
  destruct q as [n d]. unfold ShiftProofs.f, inject_Z, Qminus, Qopp, Qmult, Qplus. cbn -[Z.mul Pos.mul Z.add Z.opp]. rewrite !Pos.mul_1_l, !Pos.mul_1_r. f_equal. ring.
Qed.
Lemma phi_ext n (r : row) x (d : row) : List.length r = n -> phi n (r ++ x :: d) = r ++ fi x :: map fd d.
Proof.
  intros L. unfold phi. rewrite skipn_app, firstn_app, L, Nat.sub_diag. rewrite skipn_all2 by lia. cbn [skipn app firstn]. rewrite firstn_all2 by lia. rewrite app_nil_r. reflexivity.
Qed.
Definition new_dist (n : nat) (t : Z) (r : row) : cell := match nth n r None with Some i => Some (i - inject_Z t)%Q | None => None end.
Lemma dist_phi n t (r : row) : firstn (S n) (phi0 n r) ++ [new_dist n (f t) (phi0 n r)] = phi n (firstn (S n) r ++ [new_dist n t r]).
Proof.
  unfold phi0. destruct (skipn n r) as [|i d] eqn:E.
  - pose proof (skip_nil _ _ E) as L. unfold new_dist. rewrite (nth_overflow r None L). rewrite firstn_all2 by lia. unfold phi.
    destruct (Nat.eq_dec (List.length r) n) as [H|H].
    + rewrite skipn_app, skipn_all2, firstn_app, firstn_all2, H, Nat.sub_diag by lia. cbn. rewrite app_nil_r. reflexivity.
    + rewrite skipn_all2; [reflexivity|]. rewrite app_length. cbn. lia.
  - pose proof (skip_cons _ _ _ _ E) as L. assert (R : r = firstn n r ++ i :: d) by (rewrite <- E; symmetry; apply firstn_skipn).
    set (a := firstn n r) in *. rewrite R. clear R E. unfold new_dist.
    assert (A : forall x (e : row), nth n (a ++ x :: e) None = x) by (intros x e; rewrite app_nth2 by lia; rewrite L, Nat.sub_diag; reflexivity).
    assert (B : forall x (e : row), firstn (S n) (a ++ x :: e) = a ++ [x]) by (intros x e; rewrite firstn_app, firstn_all2 by lia; replace (S n - List.length a)%nat with 1%nat by lia; reflexivity).
    rewrite !A, !B, <- !app_assoc. cbn [app]. rewrite (phi_ext n a _ _ L). f_equal. f_equal. cbn [map]. f_equal. destruct i as [q|]; [|reflexivity]. cbn [fi fd option_map]. rewrite dist_f. reflexivity.
Qed.
Lemma set_distance_frw n (rd : bool) g : ncols g = (n + (if rd then 2 else 1))%nat -> (rd = false -> Forall (fun p => (List.length (snd p) <= S n)%nat) (frows g)) ->
  set_distance rd (frw (phi0 n) g) = frw (phi n) (set_distance rd g).
Proof.
  intros N L. unfold set_distance. destruct rd.
  - unfold frw. cbn [fcols frows]. f_equal. rewrite !map_map. apply map_ext. intros [t r]. cbn [fst snd]. f_equal.
    change (List.length (fcols g)) with (ncols g). rewrite N. replace (n + 2 - 1)%nat with (S n) by lia. replace (n + 2 - 2)%nat with n by lia. apply dist_phi.
  - unfold frw. f_equal. apply map_ext_in. intros [t r] I1. cbn [fst snd]. f_equal. pose proof (proj1 (Forall_forall _ _) (L eq_refl) _ I1) as Lr. cbn [snd] in Lr.
    unfold phi0, phi. destruct (skipn n r) as [|i d] eqn:E; [reflexivity|]. f_equal. f_equal. pose proof (skipn_length n r) as H. rewrite E in H. cbn in H. destruct d; [reflexivity|cbn in H; lia].
Qed.

(* columns and rows of what the steps return *)
Definition within (cols : list string) (m : nat) (g : frame) : Prop := fcols g = cols /\ (List.length cols <= m)%nat /\ Forall (fun p => (List.length (snd p) <= m)%nat) (frows g).
Lemma mask_in {A} m : forall (l : list A) x, In x (mask_select m l) -> In x l.
Proof. induction m as [|b m IH]; intros [|y l] x H; cbn in *; try contradiction. destruct b; [destruct H as [->|H]; [left; reflexivity|]|]; right; exact (IH _ _ H). Qed.
Lemma within_bool cols m b g v : within cols m g -> bool_index b g = Ok v -> within cols m v.
Proof.
  intros (C & N & F) E. unfold bool_index in E. destruct (Nat.eqb _ _); [|discriminate E]. injection E as <-. repeat split; [exact C|exact N|]. cbn [frows].
  apply Forall_forall. intros x I1. exact (proj1 (Forall_forall _ _) F x (mask_in _ _ _ I1)).
Qed.
Lemma within_reindex cols m g ts tol v : within cols m g -> reindex_nearest g ts tol = Ok v -> within cols m v.
Proof.
  intros (C & N & F) E. unfold reindex_nearest in E. cbv zeta in E. destruct ts as [|t0 ts]; [injection E as <-; repeat split; [exact C|exact N|constructor]|].
  destruct (_ || _); [|discriminate E]. injection E as <-. repeat split; [exact C|exact N|]. cbn [frows]. apply Forall_forall. intros x I1.
  match type of I1 with In _ (?a :: map ?h ?l) => change (In x (map h (t0 :: l))) in I1 end. apply in_map_iff in I1. destruct I1 as (t & <- & _). cbn [snd]. unfold take_row.
  assert (NN : (List.length (nan_row (ncols g)) <= m)%nat) by (unfold nan_row, ncols; rewrite repeat_length, C; exact N).
  destruct (_ =? _); [exact NN|]. destruct (nth_error (frows g) _) as [[u r]|] eqn:E2; [|exact NN]. apply nth_error_In in E2. exact (proj1 (Forall_forall _ _) F _ E2).
Qed.
Lemma within_combine cols m a b : within cols m a -> within cols m (combine_first a b).
Proof.
  intros (C & N & F). repeat split; [exact C|exact N|]. cbn [frows combine_first]. revert F. generalize (frows a), (frows b). intros l. induction l as [|x l IH]; intros l2 F; cbn [map2]; [constructor|]. destruct l2 as [|y l2]; [constructor|].
  apply Forall_cons_iff in F. destruct F as [F1 F]. constructor; [|apply IH; exact F]. cbn [snd]. rewrite map2_len. exact (Nat.le_trans _ _ _ (Nat.le_min_l _ _) F1).
Qed.
Lemma add_within ri rd g : ri || rd = true -> wf g -> within (fcols (add_index_cols ri rd g)) (ncols g + (if rd then 2 else 1)) (add_index_cols ri rd g).
Proof.
  intros R W. pose proof (ncols_add ri rd g R) as N. split; [reflexivity|]. split; [rewrite <- N; apply Nat.le_refl|]. unfold add_index_cols. rewrite R. cbn [frows]. apply Forall_forall. intros x I1. apply in_map_iff in I1. destruct I1 as ([t r] & <- & I1).
  pose proof (proj1 (Forall_forall _ _) W _ I1) as L. cbn [snd] in *. unfold row, cell in *. rewrite !app_length, L. destruct rd; cbn [List.length]; lia.
Qed.
Lemma collocate_nearest_frw ref other w fl ui ri rd : ri || rd = true -> wf other ->
  collocate_nearest (map f ref) (fr k s other) (k * w) fl ui ri rd = mapR (frw (phi (ncols other))) (collocate_nearest ref other w fl ui ri rd).
Proof.
  intros R W. unfold collocate_nearest. cbv zeta. rewrite (add_index_frw ri rd other R W). set (n := ncols other). set (g := add_index_cols ri rd other).
  pose proof (add_within ri rd other R W) as B0. fold g n in B0. set (cols := fcols g) in *. set (m := (n + (if rd then 2 else 1))%nat) in *.
  assert (LC : List.length cols = m) by (exact (ncols_add ri rd other R)).
  assert (NN : forall v, within cols m v -> phi0 n (nan_row (ncols v)) = nan_row (ncols v)) by (intros v (C & _ & _); unfold ncols; rewrite C, LC; apply phi0_nan).
  assert (RX : forall v, within cols m v -> reindex_nearest (frw (phi0 n) v) (map f ref) (k * w) = mapR (frw (phi0 n)) (reindex_nearest v ref w)) by (intros v V; apply reindex_frw, NN, V).
  assert (main : forall x y, x = mapR (frw (phi0 n)) y -> (forall v, y = Ok v -> within cols m v) -> mapR (set_distance rd) x = mapR (frw (phi n)) (mapR (set_distance rd) y)).
  { intros x y -> H. destruct y as [v|]; [|reflexivity]. cbn [mapR]. f_equal. destruct (H v eq_refl) as (C & N & F). apply set_distance_frw; [unfold ncols; rewrite C, LC; reflexivity|]. intros ->. eapply Forall_impl; [|exact F]. intros a A. unfold m in A. cbn in A. lia. }
  destruct fl as [l|]; [|apply main; [exact (RX g B0)|intros v E; exact (within_reindex _ _ _ _ _ _ B0 E)]].
  destruct (has_invalid (Some l)); [|apply main; [exact (RX g B0)|intros v E; exact (within_reindex _ _ _ _ _ _ B0 E)]].
  apply main.
  - rewrite bool_index_frw. destruct (bool_index (map negb l) g) as [v|] eqn:E1; [|reflexivity]. cbn [mapR bindR]. pose proof (within_bool _ _ _ _ _ B0 E1) as V. rewrite (RX v V). destruct (reindex_nearest v ref w) as [c|]; [|reflexivity]. cbn [mapR bindR].
    destruct ui; [|reflexivity]. rewrite bool_index_frw. destruct (bool_index l g) as [v2|] eqn:E2; [|reflexivity]. cbn [mapR bindR]. pose proof (within_bool _ _ _ _ _ B0 E2) as V2. rewrite (RX v2 V2). destruct (reindex_nearest v2 ref w) as [c2|]; [|reflexivity]. cbn [mapR bindR].
    rewrite combine_first_frw. reflexivity.
  - intros v. destruct (bool_index (map negb l) g) as [v1|] eqn:E1; [|discriminate]. cbn [bindR]. pose proof (within_bool _ _ _ _ _ B0 E1) as V. destruct (reindex_nearest v1 ref w) as [c|] eqn:E3; [|discriminate]. pose proof (within_reindex _ _ _ _ _ _ V E3) as VC. cbn [bindR].
    destruct ui; [|intros E; injection E as <-; exact VC]. destruct (bool_index l g) as [v2|]; [|discriminate]. cbn [bindR]. destruct (reindex_nearest v2 ref w) as [c2|]; [|discriminate]. cbn [bindR]. intros E. injection E as <-. apply within_combine, VC.
Qed.
Lemma notna_phi n (r : row) : existsb notna (phi n r) = existsb notna r.
Proof.
  unfold phi. destruct (skipn n r) as [|i d] eqn:E; [reflexivity|]. rewrite <- (firstn_skipn n r) at 2. rewrite E, !existsb_app. cbn [existsb]. f_equal. f_equal; [destruct i; reflexivity|]. clear E. induction d as [|x d IH]; [reflexivity|]. cbn [map existsb]. rewrite IH. destruct x; reflexivity.
Qed.
Lemma dropna_frw n g : dropna_all (frw (phi n) g) = frw (phi n) (dropna_all g).
Proof. unfold dropna_all, frw. cbn [frows fcols]. f_equal. apply filter_map. intros [t r]. cbn [snd]. apply notna_phi. Qed.
Lemma dedup_sub {A} (key : A -> Z) l : forall seen x, In x (dedup_aux key seen l) -> In x l.
Proof. induction l as [|y l IH]; intros seen x H; cbn in *; [exact H|]. destruct (existsb _ seen); [right; exact (IH _ _ H)|]. destruct H as [->|H]; [left; reflexivity|right; exact (IH _ _ H)]. Qed.
Lemma collocation_frw store oob oob' ref other w o : o_method o = MNearest -> o_return_index o || o_return_distance o = true -> wf other ->
  temporal_collocation store oob' (map f ref) (fr k s other) (k * w) o = mapR (frw (phi (ncols other))) (temporal_collocation store oob ref other w o).
Proof.
  intros M R W. unfold temporal_collocation. cbv zeta. rewrite (eval_flag_f k s), map_length, M. destruct (eval_flag _ _ _) as [fl|]; [|reflexivity]. cbn [bindR].
  rewrite (dedup_times_f k s K).
  assert (E : mkFrame (fcols (fr k s other)) (dedup_first fst (frows (fr k s other))) = fr k s (mkFrame (fcols other) (dedup_first fst (frows other)))).
  { unfold fr. cbn [fcols frows]. rewrite (dedup_rows_f k s K). reflexivity. }
  rewrite E. set (g := mkFrame (fcols other) (dedup_first fst (frows other))).
  assert (WG : wf g). { apply Forall_forall. intros x I1. exact (proj1 (Forall_forall _ _) W x (dedup_sub _ _ _ _ I1)). }
  rewrite (collocate_nearest_frw _ _ _ _ _ _ _ R WG). change (ncols g) with (ncols other). destruct (collocate_nearest _ _ _ _ _ _ _) as [c|]; [|reflexivity]. cbn [mapR]. f_equal. destruct (o_dropna o); [apply dropna_frw|reflexivity].
Qed.
End Ext.
