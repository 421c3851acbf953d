(* Nothing in moving averages and collocation distinguishes past and future, except for ties. *)
From Coq Require Import Permutation Lqa.
From Verif Require Import Base BaseProofs FiltersModel FiltersSpec FiltersProofs TemporalModel TemporalSpec TemporalProofs BackSpec.

Lemma ceq_refl c : ceq c c. Proof. destruct c; cbn; [reflexivity|exact Logic.I]. Qed.
Lemma qmean_rev l : (qmean (rev l) == qmean l)%Q.
Proof. unfold qmean, qlen. rewrite rev_length. rewrite (qsum_perm (rev l) l) by (symmetry; apply Permutation_rev). reflexivity. Qed.
Lemma near_app nan limit t a b : near_values nan limit t (a ++ b) = near_values nan limit t a ++ near_values nan limit t b.
Proof. induction a as [|(s, [v|]) a IH]; cbn; [reflexivity| |exact IH]. destruct (_ && _); cbn; rewrite IH; reflexivity. Qed.
Lemma qle_abs s t limit : Qle_bool (Qabs (- s - - t)) limit = Qle_bool (Qabs (s - t)) limit.
Proof.
  assert (E : (Qabs (- s - - t) == Qabs (s - t))%Q) by (rewrite <- (Qabs_opp (s - t)); apply Qabs_wd; ring).
  destruct (Qle_bool (Qabs (s - t)) limit) eqn:A; [apply Qle_bool_iff in A; apply Qle_bool_iff; rewrite E; exact A|].
  destruct (Qle_bool (Qabs (- s - - t)) limit) eqn:B; [|reflexivity]. apply Qle_bool_iff in B. rewrite E in B. apply Qle_bool_iff in B. congruence.
Qed.
Lemma near_back nan limit t pts : near_values nan limit (- t) (backwards pts) = rev (near_values nan limit t pts).
Proof.
  unfold backwards. induction pts as [|(s, c) pts IH]; [reflexivity|]. cbn [map rev fst snd]. rewrite near_app, IH. cbn [near_values].
  destruct c as [v|]; [|rewrite app_nil_r; reflexivity]. rewrite qle_abs. destruct (_ && _); cbn [rev]; [reflexivity|apply app_nil_r].
Qed.
Lemma average_back nan w mo pts t : ceq (average_at nan w mo (backwards pts) (- t)) (average_at nan w mo pts t).
Proof. unfold average_at. cbv zeta. rewrite near_back, rev_length. destruct (mo <=? _); [|exact Logic.I]. cbn. apply qmean_rev. Qed.
Lemma sorted_app {A} (P : A -> A -> Prop) l x : StronglySorted P l -> Forall (fun y => P y x) l -> StronglySorted P (l ++ [x]).
Proof.
  induction 1 as [|y l S IH F]; intros G; cbn; [repeat constructor|]. inversion G; subst. constructor; [apply IH; assumption|]. apply Forall_app. split; [exact F|repeat constructor; assumption].
Qed.
Lemma sorted_rev {A} (P : A -> A -> Prop) l : StronglySorted P l -> StronglySorted (fun x y => P y x) (rev l).
Proof. induction 1 as [|x l S IH F]; cbn; [constructor|]. apply sorted_app; [exact IH|]. apply Forall_forall. intros y I. rewrite Forall_forall in F. apply F. apply in_rev. exact I. Qed.
Lemma sorted_map {A B} (P : A -> A -> Prop) (R : B -> B -> Prop) (f : A -> B) l : (forall x y, P x y -> R (f x) (f y)) -> StronglySorted P l -> StronglySorted R (map f l).
Proof. intros H. induction 1 as [|x l S IH F]; cbn; constructor; [exact IH|]. apply Forall_map. eapply Forall_impl; [|exact F]. intros y. apply H. Qed.
Lemma sorted_back pts : time_sorted pts -> time_sorted (backwards pts).
Proof.
  intros S. unfold time_sorted, backwards. apply (sorted_rev (fun p q : Q * cell => (fst q <= fst p)%Q)). apply (sorted_map (fun p q : Q * cell => (fst p <= fst q)%Q)); [|exact S]. intros x y L. cbn [fst]. lra.
Qed.
Lemma nth_rev {A} (l : list A) k x : nth_error (rev l) k = Some x -> exists j, (j + k + 1 = List.length l)%nat /\ nth_error l j = Some x.
Proof.
  intros H. assert (K : (k < List.length l)%nat) by (rewrite <- rev_length; apply nth_error_Some; congruence).
  exists (List.length l - 1 - k)%nat. split; [lia|]. apply (nth_error_nth (rev l) k x) in H. rewrite rev_nth in H by exact K. replace (List.length l - S k)%nat with (List.length l - 1 - k)%nat in H by lia.
  rewrite <- H. apply nth_error_nth'. lia.
Qed.
Lemma nth_rev' {A} (l : list A) j k : (j + k + 1 = List.length l)%nat -> nth_error (rev l) k = nth_error l j.
Proof.
  intros E. destruct (nth_error l j) as [x|] eqn:X; [|apply nth_error_None in X; lia].
  apply (nth_error_nth l j x) in X. rewrite (nth_error_nth' (rev l) x) by (rewrite rev_length; lia). rewrite rev_nth by lia. replace (List.length l - S k)%nat with j by lia. congruence.
Qed.
Lemma forall2_nth {A B} (P : A -> B -> Prop) : forall l m, List.length l = List.length m -> (forall k x y, nth_error l k = Some x -> nth_error m k = Some y -> P x y) -> Forall2 P l m.
Proof.
  induction l as [|x l IH]; intros [|y m] L H; try discriminate L; constructor; [apply (H O); reflexivity|]. apply IH; [cbn in L; lia|]. intros k u v A1 B1. exact (H (S k) u v A1 B1).
Qed.
Lemma ceq_trans a b c : ceq a b -> ceq b c -> ceq a c.
Proof. destruct a, b, c; cbn; try tauto. intros E F. rewrite E. exact F. Qed.
Lemma ceq_sym a b : ceq a b -> ceq b a.
Proof. destruct a, b; cbn; try tauto. intros E. symmetry. exact E. Qed.
Lemma missing_dec nan c : missing nan c \/ ~ missing nan c.
Proof. destruct c as [v|]; cbn; [destruct (Qeq_dec v nan); tauto|tauto]. Qed.
Lemma boxcar_back nan w fillna mo pts : 1 <= mo -> time_sorted pts -> Forall2 ceq (boxcar_filter nan w fillna mo (backwards pts)) (rev (boxcar_filter nan w fillna mo pts)).
Proof.
  intros M S. destruct (boxcar_correct nan w fillna mo pts M S) as [L1 C1]. destruct (boxcar_correct nan w fillna mo (backwards pts) M (sorted_back pts S)) as [L2 C2]. cbv zeta in *.
  assert (LB : List.length (backwards pts) = List.length pts) by (unfold backwards; rewrite rev_length, map_length; reflexivity).
  apply forall2_nth; [rewrite rev_length; congruence|]. intros k x y X Y.
  assert (K : (k < List.length pts)%nat) by (rewrite <- LB, <- L2; apply nth_error_Some; congruence). set (j := (List.length pts - 1 - k)%nat).
  rewrite (nth_rev' _ j) in Y by (unfold j; lia). destruct (nth_error pts j) as [(t, c)|] eqn:P; [|apply nth_error_None in P; unfold j in P; lia].
  assert (P' : nth_error (backwards pts) k = Some (- t, c)%Q).
  { unfold backwards. rewrite (nth_rev' _ j) by (rewrite map_length; unfold j; lia). rewrite nth_error_map, P. reflexivity. }
  destruct (C1 j t c P) as (o & O & A1 & A2). destruct (C2 k (- t)%Q c P') as (o' & O' & B1 & B2). assert (o = y) by congruence. assert (o' = x) by congruence. subst o o'.
  destruct fillna.
  - eapply ceq_trans; [apply B2; right; reflexivity|]. eapply ceq_trans; [apply average_back|]. apply ceq_sym, A2. right. reflexivity.
  - destruct (missing_dec nan c) as [D|D]; [rewrite A1, B1 by tauto; exact Logic.I|]. eapply ceq_trans; [apply B2; left; exact D|]. eapply ceq_trans; [apply average_back|]. apply ceq_sym, A2. left. exact D.
Qed.

(* ---- collocation ---- *)
Lemma filter_rev {A} (p : A -> bool) l : filter p (rev l) = rev (filter p l).
Proof. induction l as [|x l IH]; [reflexivity|]. cbn. rewrite filter_app, IH. cbn. destruct (p x); cbn; [reflexivity|apply app_nil_r]. Qed.
Lemma vals_rev {A} (l : list (option A)) : vals (rev l) = rev (vals l).
Proof.
  assert (V : forall a b : list (option A), vals (a ++ b) = vals a ++ vals b) by (induction a as [|[x|] a IHa]; intros b; cbn; [reflexivity|rewrite IHa; reflexivity|apply IHa]).
  induction l as [|[x|] l IH]; [reflexivity| |]; cbn; rewrite V, IH; [reflexivity|apply app_nil_r].
Qed.
Lemma vals_rev_c (l : list cell) : vals (rev l) = rev (vals l). Proof. exact (vals_rev l). Qed.
Lemma nanmean_rev l : ceq (nanmean (rev l)) (nanmean l).
Proof.
  unfold nanmean. rewrite vals_rev_c. pose proof (qmean_rev (vals l)) as QM. destruct (vals l) as [|x v]; [exact Logic.I|].
  destruct (rev (x :: v)) as [|y u] eqn:E; [apply (f_equal (@List.length Q)) in E; rewrite rev_length in E; discriminate E|]. exact QM.
Qed.
Lemma window_back {A} t w (obs : list (Z * A)) : window_obs (- t) w (backwards_rows obs) = backwards_rows (window_obs t w obs).
Proof.
  unfold window_obs, backwards_rows. rewrite filter_rev. f_equal. induction obs as [|o obs IH]; [reflexivity|]. cbn [map filter fst].
  replace ((- t - w <=? - fst o) && (- fst o <=? - t + w)) with ((t - w <=? fst o) && (fst o <=? t + w)).
  - destruct (_ && _); cbn [map]; rewrite IH; reflexivity.
  - destruct (Z.leb_spec (fst o) (t + w)), (Z.leb_spec (t - w) (fst o)), (Z.leb_spec (- t - w) (- fst o)), (Z.leb_spec (- fst o) (- t + w)); try reflexivity; lia.
Qed.
Lemma series_back f i : series (backwards_frame f) i = backwards_rows (series f i).
Proof. unfold series, backwards_frame, backwards_rows. cbn [frows]. rewrite map_rev. f_equal. rewrite !map_map. reflexivity. Qed.
Lemma wmean_back t w obs : ceq (window_mean (- t) w (backwards_rows obs)) (window_mean t w obs).
Proof. unfold window_mean. rewrite window_back. unfold backwards_rows. rewrite map_rev, map_map. cbn [snd]. apply nanmean_rev. Qed.
Lemma chron_back l : chronological l -> chronological (backwards_times l).
Proof. intros S. apply (sorted_rev (fun x y => y <= x)). apply (sorted_map Z.le); [|exact S]. intros. lia. Qed.
Lemma index_back f : findex (backwards_frame f) = backwards_times (findex f).
Proof. unfold findex, backwards_frame, backwards_rows, backwards_times. cbn [frows]. rewrite map_rev. f_equal. rewrite !map_map. reflexivity. Qed.
Lemma forall2_rev {A B} (P : A -> B -> Prop) l m : Forall2 P l m -> Forall2 P (rev l) (rev m).
Proof. induction 1 as [|x y l m H F IH]; cbn; [constructor|]. apply Forall2_app; [exact IH|repeat constructor; exact H]. Qed.
Lemma forall2_map {A B C} (P : B -> C -> Prop) (f : A -> B) (g : A -> C) l : (forall x, In x l -> P (f x) (g x)) -> Forall2 P (map f l) (map g l).
Proof. induction l as [|x l IH]; intros H; cbn; constructor; [apply H; left; reflexivity|]. apply IH. intros y I. apply H. right. exact I. Qed.
(* rows computed time by time *)
Lemma rows_back cols (g h : Z -> row) ref : (forall t, In t ref -> Forall2 ceq (g (- t)) (h t)) ->
  same_frame (mkFrame cols (map (fun t => (t, g t)) (backwards_times ref))) (backwards_frame (mkFrame cols (map (fun t => (t, h t)) ref))).
Proof.
  intros H. split; [reflexivity|]. unfold backwards_frame, backwards_rows, backwards_times. cbn [frows]. rewrite map_rev. apply forall2_rev. rewrite !map_map. apply forall2_map. intros t I. split; [reflexivity|apply H; exact I].
Qed.
Lemma mean_back oob oob' ref other w : chronological (findex other) -> chronological ref -> fcols other <> [] ->
  exists f g, temporal_collocation (fun c => c) oob ref other w mean_opts = Ok f /\ temporal_collocation (fun c => c) oob' (backwards_times ref) (backwards_frame other) w mean_opts = Ok g /\ same_frame g (backwards_frame f).
Proof.
  intros SO SR N. eexists. eexists. split; [apply tc_mean_correct; assumption|]. split; [apply tc_mean_correct; [rewrite index_back; apply chron_back; exact SO|apply chron_back; exact SR|exact N]|].
  cbn [fcols backwards_frame]. apply (rows_back (fcols other) (fun t => map (fun i => window_mean t w (series (backwards_frame other) i)) (seq 0 (List.length (fcols other)))) (fun t => map (fun i => window_mean t w (series other i)) (seq 0 (List.length (fcols other))))).
  intros t _. apply forall2_map. intros i _. rewrite series_back. apply wmean_back.
Qed.
Lemma in_back {A} (obs : list (Z * A)) s r : In (s, r) (backwards_rows obs) <-> In (- s, r) obs.
Proof.
  unfold backwards_rows. rewrite <- in_rev, in_map_iff. split.
  - intros ((s', r') & E & I). injection E as E1 E2. subst. cbn [fst]. rewrite Z.opp_involutive. exact I.
  - intros I. exists (- s, r). cbn [fst snd]. rewrite Z.opp_involutive. split; [reflexivity|exact I].
Qed.
Lemma nodup_fst {A} (l : list (Z * A)) s r r' : NoDup (map fst l) -> In (s, r) l -> In (s, r') l -> r = r'.
Proof.
  induction l as [|(u, q) l IH]; [intros _ []|]. cbn [map In fst]. intros N H H'. inversion N as [|a b NI N']; subst. destruct H as [E|J], H' as [E'|J'].
  - congruence.
  - exfalso. apply NI. assert (u = s) by congruence. subst u. exact (in_map fst _ _ J').
  - exfalso. apply NI. assert (u = s) by congruence. subst u. exact (in_map fst _ _ J).
  - apply IH; assumption.
Qed.
Lemma nearest_back obs n t w r r' : NoDup (map fst obs) -> (forall s s', In s (map fst obs) -> In s' (map fst obs) -> Z.abs (s - t) = Z.abs (s' - t) -> s = s') ->
  nearest_row obs n t w r -> nearest_row (backwards_rows obs) n (- t) w r' -> r' = r.
Proof.
  intros N T [(s & F & D & M)|(-> & M)] [(s' & F' & D' & M')|(-> & M')]; [| | |reflexivity].
  - apply find_some in F as [I _]. apply find_some in F' as [I' _]. apply in_back in I'.
    assert (B : In (- s, r) (backwards_rows obs)) by (apply in_back; rewrite Z.opp_involutive; exact I).
    pose proof (M _ _ I') as H1. pose proof (M' _ _ B) as H2.
    assert (E : s = - s') by (apply T; [exact (in_map fst _ _ I)|exact (in_map fst _ _ I')|lia]). subst s. exact (nodup_fst obs (- s') r' r N I' I).
  - apply find_some in F as [I _]. exfalso. assert (B : In (- s, r) (backwards_rows obs)) by (apply in_back; rewrite Z.opp_involutive; exact I). apply M' in B. lia.
  - apply find_some in F' as [I' _]. exfalso. apply in_back in I'. apply M in I'. lia.
Qed.
Lemma nth_map2 {A B C} (f : A -> B -> C) : forall l m k, nth_error (map2 f l m) k = match nth_error l k, nth_error m k with Some x, Some y => Some (f x y) | _, _ => None end.
Proof. induction l as [|x l IH]; intros [|y m] [|k]; cbn; try reflexivity; [destruct (nth_error l k); reflexivity|apply IH]. Qed.
Lemma len_map2 {A B C} (f : A -> B -> C) : forall l m, List.length l = List.length m -> List.length (map2 f l m) = List.length l.
Proof. induction l as [|x l IH]; intros [|y m] E; cbn in *; try reflexivity; try discriminate E. f_equal. apply IH. lia. Qed.
Definition anom (p : Q * cell) (c : cell) : Q * cell := (fst p, cell_sub (snd p) c).
Lemma anomaly_eq : forall (ser : list (Q * cell)) m, map2 (fun p q => (fst p, cell_sub (snd p) (snd q))) ser (map2 (fun (p : Q * cell) (c : cell) => (fst p, c)) ser m) = map2 anom ser m.
Proof. induction ser as [|p ser IH]; intros [|c m]; cbn; [reflexivity|reflexivity|reflexivity|]. rewrite IH. reflexivity. Qed.
Lemma anomaly_back ser w : time_sorted ser -> Forall2 (fun p q => fst p = fst q /\ ceq (snd p) (snd q)) (calc_anomaly_ma (backwards ser) w) (backwards (calc_anomaly_ma ser w)).
Proof.
  intros S. unfold calc_anomaly_ma, moving_average. rewrite !anomaly_eq. pose proof (boxcar_back default_nan w false 1 ser ltac:(lia) S) as F.
  destruct (boxcar_correct default_nan w false 1 ser ltac:(lia) S) as [L _]. cbv zeta in L. set (m := boxcar_filter default_nan w false 1 ser) in *. set (m' := boxcar_filter default_nan w false 1 (backwards ser)) in *. clearbody m m'.
  assert (E : backwards (map2 anom ser m) = map2 anom (backwards ser) (rev m)).
  { unfold backwards. assert (A : forall l k (x : Q * cell) (c : cell), List.length l = List.length k -> map2 anom (l ++ [x]) (k ++ [c]) = map2 anom l k ++ [anom x c]) by (induction l as [|y l IHl]; intros [|d k] x c EL; cbn in *; try reflexivity; try discriminate EL; f_equal; apply IHl; lia).
    clear F S m'. revert m L. induction ser as [|p ser IH]; intros [|c m] L; try discriminate L; [reflexivity|]. cbn [map2 map rev]. rewrite IH by (cbn in L; lia). rewrite A by (rewrite !rev_length, map_length; cbn in L; lia). reflexivity. }
  rewrite E. clear E L S. set (b := backwards ser). clearbody b. revert b. induction F as [|x y m1 m2 H F IH]; intros [|p b]; cbn [map2]; try constructor; [|apply IH].
  split; [reflexivity|]. unfold anom. cbn [snd]. destruct (snd p) as [v|], x as [x|], y as [y|]; cbn in *; try tauto. rewrite H. reflexivity.
Qed.
