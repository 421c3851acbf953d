(* Scaling to the reference itself, and scaling what has been scaled already. *)
From Verif Require Import Base CdfSpec ScalingModel CdfProofs CdfFitProofs ScalingProofs UnitSpec UnitProofs UnitProps TwiceSpec.
From Coq Require Import Qabs Lqa.
Open Scope Q_scope.

Lemma unit_same l l' : Forall2 (cell_in_unit 1 0) l l' -> same_data l l'.
Proof.
  unfold same_data. induction 1 as [|c c' l l' C F IH]; constructor; [|exact IH]. destruct c as [v|], c' as [v'|]; cbn in *; try exact C. unfold in_unit in C. lra.
Qed.
Lemma outcome_ok {A B} (R : A -> B -> Prop) x y a : same_outcome R x y -> x = Ok a -> exists b, y = Ok b /\ R a b.
Proof. intros S ->. destruct y as [b|]; [exists b; split; [reflexivity|exact S]|contradiction]. Qed.

(* ------------------------------------------------------- min_max *)
Lemma min_max_is_unit src mid : non_constant src -> non_constant mid ->
  exists ys a b, min_max src mid = Ok (map Some ys) /\ 0 < a /\ Forall2 (in_unit a b) src ys.
Proof.
  intros NS NM. assert (Hs : src <> []) by (destruct NS as (u & v & Hu & _); intros ->; exact Hu). assert (Hr : mid <> []) by (destruct NM as (u & v & Hu & _); intros ->; exact Hu).
  destruct (q_minimum_spec src Hs) as (smin & E1 & M1). destruct (q_maximum_spec src Hs) as (smax & E2 & M2).
  destruct (q_minimum_spec mid Hr) as (rmin & E3 & M3). destruct (q_maximum_spec mid Hr) as (rmax & E4 & M4).
  assert (L := non_constant_range src smin smax M1 M2 NS). assert (L' := non_constant_range mid rmin rmax M3 M4 NM).
  set (f := fun v => (v - smin) / (smax - smin) * (rmax - rmin) + rmin).
  exists (map f src), ((rmax - rmin) / (smax - smin)), (rmin - smin * ((rmax - rmin) / (smax - smin))).
  rewrite (minmax_unfold src mid smin smax rmin rmax E1 E2 E3 E4).
  assert (Eq : Qeq_bool (smax - smin) 0 = false).
  { destruct (Qeq_bool (smax - smin) 0) eqn:E; [|reflexivity]. apply Qeq_bool_iff in E. lra. }
  split; [|split].
  - f_equal. rewrite map_map. apply map_ext. intros v. unfold qdiv_cell. rewrite Eq. reflexivity.
  - apply Qlt_shift_div_l; lra.
  - clear. induction src as [|v l IH]; constructor; [|exact IH]. unfold in_unit, f. unfold Qdiv. ring.
Qed.
Lemma min_max_via src mid ref : non_constant src -> non_constant mid ->
  exists ys, min_max src mid = Ok (map Some ys) /\ same_outcome same_data (min_max src ref) (min_max ys ref).
Proof.
  intros NS NM. destruct (min_max_is_unit src mid NS NM) as (ys & a & b & E & A & F). exists ys. split; [exact E|].
  assert (K := C92_min_max a b 1 0 src ys ref ref A ltac:(reflexivity) F (affs_refl ref)).
  destruct (min_max src ref), (min_max ys ref); cbn in *; try contradiction; [apply unit_same, K|exact K].
Qed.
Lemma min_max_itself l : non_constant l -> exists out, min_max l l = Ok out /\ same_data out (map Some l).
Proof.
  intros NS. assert (Hs : l <> []) by (destruct NS as (u & v & Hu & _); intros ->; exact Hu).
  destruct (q_minimum_spec l Hs) as (smin & E1 & M1). destruct (q_maximum_spec l Hs) as (smax & E2 & M2). assert (L := non_constant_range l smin smax M1 M2 NS).
  rewrite (minmax_unfold l l smin smax smin smax E1 E2 E1 E2). eexists. split; [reflexivity|].
  assert (Eq : Qeq_bool (smax - smin) 0 = false).
  { destruct (Qeq_bool (smax - smin) 0) eqn:E; [|reflexivity]. apply Qeq_bool_iff in E. lra. }
  unfold same_data. clear E1 E2 M1 M2 NS Hs. induction l as [|v l IH]; cbn [map]; constructor; [|exact IH]. unfold qdiv_cell. rewrite Eq. cbn. field. lra.
Qed.

Lemma dot_nonneg k : 0 <= dotq k k.
Proof.
  induction k as [|x k IH]; [cbn; lra|]. assert (X : dotq (x :: k) (x :: k) == x * x + dotq k k) by reflexivity. rewrite X.
  assert (Y : 0 <= x * x) by (destruct (Qlt_le_dec 0 x); nra). lra.
Qed.
Lemma dot_pos k x : In x k -> ~ x == 0 -> 0 < dotq k k.
Proof.
  intros I N. induction k as [|y k IH]; [destruct I|]. assert (X : dotq (y :: k) (y :: k) == y * y + dotq k k) by reflexivity. rewrite X. assert (P := dot_nonneg k).
  assert (Y : 0 <= y * y) by (destruct (Qlt_le_dec 0 y); nra). destruct I as [->|I]; [|specialize (IH I); lra]. clear X IH Y. assert (0 < x * x); [|lra]. destruct (Qlt_le_dec 0 x) as [A|A]; [nra|]. apply Qle_lteq in A as [A|A]; [nra|contradiction].
Qed.
(* ------------------------------------------------------- linear regression *)
Lemma linreg_is_unit src mid s i : linreg_params src mid = Ok (s, i) -> 0 <= s ->
  exists ys, linreg src mid = Ok (map Some ys) /\ Forall2 (in_unit s i) src ys.
Proof.
  intros E S. exists (linreg_stored_params src s i). unfold linreg. rewrite E. split; [reflexivity|]. unfold linreg_stored_params.
  clear E. induction src as [|v l IH]; cbn [map]; constructor; [|exact IH]. unfold in_unit. rewrite (Qabs_pos s S). reflexivity.
Qed.
Lemma linreg_via src mid ref s i : linreg_params src mid = Ok (s, i) -> 0 < s -> (forall s' i', linreg_params src ref = Ok (s', i') -> 0 <= s') ->
  exists ys, linreg src mid = Ok (map Some ys) /\ same_outcome same_data (linreg src ref) (linreg ys ref).
Proof.
  intros E S H. destruct (linreg_is_unit src mid s i E (Qlt_le_weak _ _ S)) as (ys & EY & F). exists ys. split; [exact EY|].
  assert (K := C92_linreg_partial s i 1 0 src ys ref ref S ltac:(reflexivity) F (affs_refl ref) (or_intror H)).
  destruct (linreg src ref), (linreg ys ref); cbn in *; try contradiction; [apply unit_same, K|exact K].
Qed.
Lemma linreg_itself l : non_constant l -> exists out, linreg l l = Ok out /\ same_data out (map Some l).
Proof.
  intros NC. unfold linreg, linreg_params. rewrite Nat.eqb_refl. cbv zeta. set (c := centred l).
  assert (NZ : ~ dotq c c == 0).
  { intros Z. destruct NC as (u & v & Hu & Hv & N). apply N. assert (X : forall w, In w l -> w == qmean l).
    { intros w Hw. assert (I : In (w - qmean l) c) by (apply in_map_iff; exists w; split; [reflexivity|exact Hw]).
        destruct (Qeq_dec (w - qmean l) 0) as [W|W]; [lra|]. assert (P := dot_pos c _ I W). lra. }
    rewrite (X u Hu), (X v Hv). reflexivity. }
  destruct (Qeq_bool (dotq c c) 0) eqn:E; [apply Qeq_bool_iff in E; contradiction|]. cbn [mapR fst snd]. eexists. split; [reflexivity|].
  set (s := dotq c c / dotq c c). assert (S1 : s == 1) by (unfold s; field; exact NZ). set (m := qmean l) in *. clearbody m s. clear E NZ c NC.
  unfold same_data, linreg_stored_params. induction l as [|v l IH]; cbn [map]; constructor; [|exact IH]. cbn. rewrite S1. rewrite Qabs_pos by lra. lra.
Qed.

(* ------------------------------------------------------- CDF matching *)
Lemma seg_id a b x : snd a == fst a -> snd b == fst b -> fst a < fst b -> seg a b x == x.
Proof. intros A B L. unfold seg. rewrite A, B. field. lra. Qed.
Lemma lin_id r : forall a x, Forall (fun p => snd p == fst p) (a :: r) -> StronglySorted (fun p q => fst p < fst q) (a :: r) -> r <> [] -> lin_interp a r x == x.
Proof.
  induction r as [|b r IH]; intros a x F S N; [contradiction|]. cbn [lin_interp]. apply Forall_cons_iff in F as [FA F]. assert (FB := F). apply Forall_cons_iff in FB as [FB _].
  apply StronglySorted_inv in S as [S L]. apply Forall_cons_iff in L as [L _]. destruct r as [|e r]; [apply seg_id; assumption|].
  destruct (Qle_bool x (fst b)); [apply seg_id; assumption|]. apply IH; [exact F|exact S|discriminate].
Qed.
Lemma table_id xp yp : increasing xp -> Forall2 Qeq xp yp -> (2 <= List.length xp)%nat -> exists f, table_fun (xp, yp) = Some f /\ forall x, f x == x.
Proof.
  intros I F L. unfold table_fun, spline. cbn [fst snd]. rewrite (Forall2_len _ _ _ F), Nat.eqb_refl. apply strictly_incb_spec in I as IB. rewrite IB. cbn [andb].
  destruct F as [|x y xp yp E F]; [cbn in L; lia|]. destruct F as [|x2 y2 xp yp E2 F]; [cbn in L; lia|]. cbn [combine]. eexists. split; [reflexivity|]. intros v.
  apply lin_id; [| |discriminate].
  - constructor; [cbn; symmetry; exact E|]. constructor; [cbn; symmetry; exact E2|]. clear - F. induction F; cbn; constructor; [cbn; symmetry; assumption|assumption].
  - assert (G : forall xs ys, increasing xs -> StronglySorted (fun p q : Q * Q => fst p < fst q) (combine xs ys)).
    { induction xs as [|a xs IH]; intros [|b ys] S; cbn [combine]; try constructor; apply StronglySorted_inv in S as [S A]; [apply IH, S|].
      apply Forall_forall. intros [p q] Hp. apply in_combine_l in Hp. rewrite Forall_forall in A. apply A, Hp. }
    exact (G (x :: x2 :: xp) (y :: y2 :: yp) I).
Qed.
Lemma edge_itself k x : In x k -> ~ x == 0 -> exists a, edge_slope k k = Ok a /\ a == 1.
Proof.
  intros I N. assert (P := dot_pos k x I N). unfold edge_slope. rewrite Nat.eqb_refl. cbn [bindR]. unfold lstsq1. rewrite Nat.eqb_refl.
  destruct (Qeq_bool (dotq k k) 0) eqn:E; [apply Qeq_bool_iff in E; lra|]. eexists. split; [reflexivity|]. field. lra.
Qed.
Lemma Forall2_refl_eq l : Forall2 Qeq l l.
Proof. induction l; constructor; [reflexivity|assumption]. Qed.
Lemma set_first_same l v : v == hd 0 l -> Forall2 Qeq l (set_first l v).
Proof. intros E. destruct l as [|a l]; cbn [set_first hd] in *; constructor; [symmetry; exact E|apply Forall2_refl_eq]. Qed.
Lemma set_last_same l m v : Forall2 Qeq l m -> v == last l 0 -> Forall2 Qeq l (set_last m v).
Proof.
  induction 1 as [|a b l m E F IH]; intros V; [constructor|]. cbn [set_last]. destruct F as [|a2 b2 l m E2 F].
  - constructor; [symmetry; exact V|constructor].
  - constructor; [exact E|]. apply IH. exact V.
Qed.
Lemma edges_itself x xp : increasing xp -> (3 <= List.length xp)%nat -> x <> [] -> hd 0 xp == hd 0 x -> last xp 0 == last x 0 ->
  exists yp, linear_edge_scaling x x xp xp = Ok yp /\ Forall2 Qeq xp yp.
Proof.
  intros I L NX H0 H1. unfold linear_edge_scaling. cbv zeta. set (xl := second xp).
  assert (X0 : hd 0 xp < xl) by (rewrite hd_nth; unfold xl, second; apply increasing_nth; [exact I|lia|lia]).
  destruct (edge_itself (map (fun v => v - xl) (filter (fun v => Qle_bool v xl) x)) (hd 0 x - xl)) as (a & EA & A1).
  { apply in_map_iff. exists (hd 0 x). split; [reflexivity|]. apply filter_In. split; [apply hd_In; exact NX|]. apply Qle_bool_iff. lra. }
  { lra. }
  rewrite EA. cbn [bindR]. set (yp1 := set_first xp (xl + a * (hd 0 xp - xl))).
  assert (F1 : Forall2 Qeq xp yp1) by (apply set_first_same; rewrite A1; lra).
  assert (SL : second_last yp1 = second_last xp). { unfold second_last, yp1. rewrite set_first_len. apply set_first_nth. lia. }
  rewrite SL. set (xh := second_last xp).
  assert (X1 : xh < last xp 0) by (rewrite last_nth; unfold xh, second_last; apply increasing_nth; [exact I|lia|lia]).
  destruct (edge_itself (map (fun v => v - xh) (filter (fun v => Qle_bool xh v) x)) (last x 0 - xh)) as (b & EB & B1).
  { apply in_map_iff. exists (last x 0). split; [reflexivity|]. apply filter_In. split; [apply last_In; exact NX|]. apply Qle_bool_iff. lra. }
  { lra. }
  rewrite EB. cbn [bindR]. eexists. split; [reflexivity|]. apply set_last_same; [exact F1|]. rewrite B1. lra.
Qed.
Lemma predict_id n t X f : table_fun t = Some f -> (forall x, f x == x) -> same_data (cdf_predict (mkTable (pad n (fst t)) (pad n (snd t))) X) X.
Proof. intros E H. rewrite predict_table, E. unfold same_data. induction X as [|[v|] X IH]; cbn [map]; constructor; try exact IH; cbn; [apply H|exact Logic.I]. Qed.
Lemma same_used o X : fit_reference o X X = fit_source o X X.
Proof.
  unfold fit_source, fit_reference. destruct (_ && _); [|reflexivity]. unfold both_present. induction X as [|[v|] X IH]; cbn; [reflexivity|rewrite IH; reflexivity|exact IH].
Qed.
Lemma cdf_itself o X : sane_opts o -> non_constant (fit_source o X X) -> exists t, cdf_fit o X X = Ok t /\ forall X', same_data (cdf_predict t X') X'.
Proof.
  intros So NC. rewrite fit_unfold. cbv zeta. rewrite (same_used o X). set (xu := fit_source o X X) in *.
  destruct (calc_spec o (Nat.min (List.length xu) (List.length xu)) So) as (ps & k & E & PL & Lk & Kr & _). rewrite E. cbn [bindR].
  assert (Nu : xu <> []) by (destruct NC as (u & v & Hu & _); intros E0; rewrite E0 in Hu; exact Hu).
  destruct (Nat.eqb k 1 && c_linear_edges o) eqn:EK.
  - unfold linreg_percentiles. cbv zeta. set (c := map (fun v => v - qmean xu) xu).
    assert (P : 0 < dotq c c).
    { destruct NC as (u & v & Hu & Hv & N). destruct (Qeq_dec u (qmean xu)) as [Q1|Q1].
      - apply (dot_pos c (v - qmean xu)); [apply in_map_iff; exists v; split; [reflexivity|exact Hv]|]. intros Z. apply N. lra.
      - apply (dot_pos c (u - qmean xu)); [apply in_map_iff; exists u; split; [reflexivity|exact Hu]|]. intros Z. apply Q1. lra. }
    unfold lstsq1. rewrite Nat.eqb_refl. destruct (Qeq_bool (dotq c c) 0) eqn:Z; [apply Qeq_bool_iff in Z; lra|]. cbn [bindR].
    destruct xu as [|u0 xu0] eqn:EU; [contradiction|]. rewrite <- EU in *. eexists. split; [reflexivity|]. intros X'.
    assert (S1 : dotq c c / dotq c c == 1) by (field; lra).
    destruct (table_id [0; 1] [qmean xu - qmean xu * (dotq c c / dotq c c); qmean xu - qmean xu * (dotq c c / dotq c c) + dotq c c / dotq c c]) as (f & EF & H).
    + constructor; [constructor; [constructor|constructor]|]. constructor; [reflexivity|constructor].
    + constructor; [rewrite S1; lra|]. constructor; [rewrite S1; lra|constructor].
    + cbn. lia.
    + exact (predict_id _ ([0; 1], _) X' f EF H).
  - assert (Sx := q_sort_sorted xu). assert (Nx : q_sort xu <> []) by (intros E0; apply q_sort_nil in E0; congruence).
    destruct (percentile_values_spec _ ps Nx Sx PL) as (g & Eg & Mg & G0 & G1 & Gs). rewrite Eg. cbn [bindR].
    assert (Ix : increasing (map g ps)) by (apply Gs, (proj2 (sorted_const _ Sx)), non_constant_sort; exact NC).
    assert (LP : (2 <= List.length (map g ps))%nat) by (rewrite map_length; lia).
    destruct (c_linear_edges o) eqn:EL.
    + rewrite andb_true_r in EK. apply Nat.eqb_neq in EK.
      assert (Np : ps <> []) by (destruct ps; [discriminate|discriminate]).
      destruct (edges_itself (q_sort xu) (map g ps) Ix) as (yp & EY & F); [rewrite map_length; lia|exact Nx| | |].
      * assert (Hh : hd 0 (map g ps) = g (hd 0 ps)) by (destruct ps; [congruence|reflexivity]). rewrite Hh. exact G0.
      * rewrite (last_map_ne g ps 0 0 Np). exact G1.
      * rewrite EY. cbn [mapR bindR]. eexists. split; [reflexivity|]. intros X'. destruct (table_id _ _ Ix F LP) as (f & EF & H). exact (predict_id _ (map g ps, yp) X' f EF H).
    + cbn [bindR]. eexists. split; [reflexivity|]. intros X'. destruct (table_id _ _ Ix (Forall2_refl_eq _) LP) as (f & EF & H). exact (predict_id _ (map g ps, map g ps) X' f EF H).
Qed.
