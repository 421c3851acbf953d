(* Proofs for C128: superposition, range and memory of the filters. *)
From Coq Require Import Reals Lra Qabs.
From Verif Require Import Base BaseProofs FiltersModel FiltersSpec FiltersProofs ExpFilterProofs ScalingProofs.
From Coq Require Lqa.
Open Scope Z_scope.

(* ------------------------------------------------------------ exponential filter *)
Section Exp.
Local Open Scope R_scope.
Definition two (A : Type) : Type := list (R * option A).
Definition side {A} (g : A -> R) (rows : two A) : list (R * option R) := map (fun r => (fst r, option_map g (snd r))) rows.
(* times and values of the observations that are there *)
Fixpoint there {A} (rows : two A) : list (R * A) := match rows with [] => [] | (t, Some x) :: r => (t, x) :: there r | (_, None) :: r => there r end.

Lemma robs_side {A} nan (g : A -> R) rows : (forall t x, In (t, Some x) rows -> g x <> nan) -> robs nan (side g rows) = map (fun o => (fst o, g (snd o))) (there rows).
Proof.
  induction rows as [|[t [x|]] r IH]; intros H; cbn [side map fst snd option_map robs there]; [reflexivity| |].
  - destruct (Req_EM_T (g x) nan) as [E|E]; [exfalso; exact (H t x (or_introl eq_refl) E)|]. f_equal. apply IH. intros s y I. exact (H s y (or_intror I)).
  - apply IH. intros s y I. exact (H s y (or_intror I)).
Qed.
Lemma there_in {A} (rows : two A) t x : In (t, x) (there rows) <-> In (t, Some x) rows.
Proof.
  induction rows as [|[s [y|]] r IH]; cbn; [tauto| |].
  - rewrite IH. split; (intros [E|E]; [left; congruence|right; exact E]).
  - rewrite IH. split; [tauto|]. intros [E|E]; [discriminate E|exact E].
Qed.
Lemma side_nth {A} (g : A -> R) rows k t c : nth_error rows k = Some (t, c) -> nth_error (side g rows) k = Some (t, option_map g c).
Proof. intros H. unfold side. exact (map_nth_error (fun r => (fst r, option_map g (snd r))) k rows H). Qed.
Lemma side_output {A} nan ctime (g : A -> R) rows k t x : (forall t x, In (t, Some x) rows -> g x <> nan) -> nth_error rows k = Some (t, Some x) ->
  nth_error (exp_filter nan ctime (side g rows)) k = Some (Some (exp_average ctime t (map (fun o => (fst o, g (snd o))) (there (firstn (S k) rows))))).
Proof.
  intros H K. destruct (exp_filter_correct nan ctime (side g rows)) as [_ X]. destruct (X k t (Some (g x)) (side_nth g rows k t _ K)) as [_ Y].
  rewrite (Y (g x) eq_refl (H t x (nth_error_In _ _ K))). unfold side. rewrite firstn_map. fold (side g (firstn (S k) rows)). rewrite robs_side; [reflexivity|].
  intros s y I. apply (H s y). rewrite <- (firstn_skipn (S k) rows). apply in_or_app. left. exact I.
Qed.
(* the current observation is among those used, with weight one *)
Lemma there_now {A} (rows : two A) k t x : nth_error rows k = Some (t, Some x) -> In (t, x) (there (firstn (S k) rows)).
Proof.
  intros K. apply there_in. apply (nth_error_In _ k). rewrite <- (firstn_skipn (S k) rows) in K. rewrite nth_error_app1 in K; [exact K|].
  rewrite firstn_length. assert (L : (k < List.length rows)%nat) by (apply nth_error_Some; rewrite (firstn_skipn (S k) rows) in K; congruence). lia.
Qed.
Lemma rsum_in l x : (forall y, In y l -> 0 <= y) -> In x l -> x <= rsum l.
Proof.
  induction l as [|a l IH]; intros P I; [destruct I|]. cbn [rsum].
  assert (N : 0 <= rsum l). { clear IH I. assert (P' : forall y, In y l -> 0 <= y) by (intros y Y; apply P; right; exact Y). clear P. induction l as [|b l IH]; cbn [rsum]; [lra|]. pose proof (P' b (or_introl eq_refl)). specialize (IH (fun y Y => P' y (or_intror Y))). lra. }
  destruct I as [->|I]; [lra|]. pose proof (P a (or_introl eq_refl)). specialize (IH (fun y Y => P y (or_intror Y)) I). lra.
Qed.
Lemma weights_one {A} ctime t (x : A) l : In (t, x) l -> 1 <= rsum (map (fun o => exp_weight ctime t (fst o)) l).
Proof.
  intros I. apply rsum_in; [intros y Y; apply in_map_iff in Y as (o & <- & _); left; apply exp_pos|].
  apply in_map_iff. exists (t, x). split; [|exact I]. cbn. unfold exp_weight. replace (- ((t - t) / IZR ctime)) with 0 by (unfold Rdiv; ring). apply exp_0.
Qed.
Lemma map_side {A B} (F : R -> R -> B) (g : A -> R) l : map (fun o => F (fst o) (snd o)) (map (fun o : R * A => (fst o, g (snd o))) l) = map (fun o => F (fst o) (g (snd o))) l.
Proof. rewrite map_map. reflexivity. Qed.
Lemma average_as {A} ctime t (g : A -> R) l :
  exp_average ctime t (map (fun o => (fst o, g (snd o))) l) = rsum (map (fun o => exp_weight ctime t (fst o) * g (snd o)) l) / rsum (map (fun o => exp_weight ctime t (fst o)) l).
Proof. unfold exp_average. rewrite !map_map. reflexivity. Qed.
Lemma rsum_lin {A} (a b : R) (f g : A -> R) l : rsum (map (fun o => a * f o + b * g o) l) = a * rsum (map f l) + b * rsum (map g l).
Proof. induction l as [|x l IH]; cbn [map rsum]; [ring|]. rewrite IH. ring. Qed.
Lemma rsum_map_ext {A} (f g : A -> R) l : (forall x, In x l -> f x = g x) -> rsum (map f l) = rsum (map g l).
Proof. intros H. f_equal. apply map_ext_in, H. Qed.
Lemma average_linear {A} ctime t (a b : R) (f g : A -> R) l : 
  exp_average ctime t (map (fun o => (fst o, a * f (snd o) + b * g (snd o))) l) =
  a * exp_average ctime t (map (fun o => (fst o, f (snd o))) l) + b * exp_average ctime t (map (fun o => (fst o, g (snd o))) l).
Proof.
  rewrite (average_as ctime t (fun x => a * f x + b * g x) l), !average_as.
  rewrite (rsum_map_ext (fun o => exp_weight ctime t (fst o) * (a * f (snd o) + b * g (snd o))) (fun o => a * (exp_weight ctime t (fst o) * f (snd o)) + b * (exp_weight ctime t (fst o) * g (snd o)))) by (intros; ring).
  rewrite rsum_lin. unfold Rdiv. ring.
Qed.
Lemma rsum_abs {A} (f : A -> R) l : Rabs (rsum (map f l)) <= rsum (map (fun o => Rabs (f o)) l).
Proof. induction l as [|x l IH]; cbn [map rsum]; [rewrite Rabs_R0; lra|]. eapply Rle_trans; [apply Rabs_triang|]. lra. Qed.
Lemma rsum_mono {A} (f g : A -> R) l : (forall x, In x l -> f x <= g x) -> rsum (map f l) <= rsum (map g l).
Proof. induction l as [|x l IH]; intros H; cbn [map rsum]; [lra|]. pose proof (H x (or_introl eq_refl)). specialize (IH (fun y Y => H y (or_intror Y))). lra. Qed.
Lemma average_difference {A} ctime t (f g : A -> R) l x : In (t, x) l ->
  let D := exp_average ctime t (map (fun o => (fst o, f (snd o))) l) - exp_average ctime t (map (fun o => (fst o, g (snd o))) l) in
  Rabs D <= rsum (map (fun o => exp_weight ctime t (fst o) * Rabs (f (snd o) - g (snd o))) l) /\
  (forall e, (forall s y, In (s, y) l -> Rabs (f y - g y) <= e) -> Rabs D <= e).
Proof.
  intros I D. pose proof (weights_one ctime t x l I) as W. set (w := rsum (map (fun o => exp_weight ctime t (fst o)) l)) in *.
  assert (E : D = rsum (map (fun o => exp_weight ctime t (fst o) * (f (snd o) - g (snd o))) l) / w).
  { unfold D. rewrite !average_as. fold w. rewrite (rsum_map_ext (fun o => exp_weight ctime t (fst o) * (f (snd o) - g (snd o))) (fun o => 1 * (exp_weight ctime t (fst o) * f (snd o)) + (-1) * (exp_weight ctime t (fst o) * g (snd o)))) by (intros; ring).
    rewrite rsum_lin. unfold Rdiv. ring. }
  assert (B : Rabs D * w <= rsum (map (fun o => exp_weight ctime t (fst o) * Rabs (f (snd o) - g (snd o))) l)).
  { rewrite E. rewrite <- (Rabs_right w) at 2 by lra. rewrite <- Rabs_mult. replace (rsum (map (fun o => exp_weight ctime t (fst o) * (f (snd o) - g (snd o))) l) / w * w) with (rsum (map (fun o => exp_weight ctime t (fst o) * (f (snd o) - g (snd o))) l)) by (field; lra).
    eapply Rle_trans; [apply rsum_abs|]. apply rsum_mono. intros o _. rewrite Rabs_mult. rewrite (Rabs_right (exp_weight ctime t (fst o))); [lra|]. left. apply exp_pos. }
  split.
  - eapply Rle_trans; [|exact B]. pose proof (Rabs_pos D). assert (0 <= Rabs D * (w - 1)) by (apply Rmult_le_pos; lra). lra.
  - intros e H. assert (B2 : rsum (map (fun o => exp_weight ctime t (fst o) * Rabs (f (snd o) - g (snd o))) l) <= e * w).
    { unfold w. replace (e * rsum (map (fun o => exp_weight ctime t (fst o)) l)) with (rsum (map (fun o => e * exp_weight ctime t (fst o) + 0 * 0) l)) by (rewrite (rsum_lin e 0 (fun o => exp_weight ctime t (fst o)) (fun _ => 0)); ring).
      apply rsum_mono. intros [s y] O. cbn [fst snd]. pose proof (exp_pos (- ((t - s) / IZR ctime))) as P. unfold exp_weight. specialize (H s y O). assert (exp (- ((t - s) / IZR ctime)) * Rabs (f y - g y) <= exp (- ((t - s) / IZR ctime)) * e) by (apply Rmult_le_compat_l; lra). lra. }
    apply (Rmult_le_reg_r w); [lra|]. lra.
Qed.
End Exp.

(* ------------------------------------------------------------ moving average *)
Section Box.
Local Open Scope Q_scope.
Import Lqa.
Definition sideq {A} (g : A -> Q) (rows : list (Q * option A)) : list (Q * cell) := map (fun r => (fst r, option_map g (snd r))) rows.
(* the observations within limit of t *)
Fixpoint within {A} (limit t : Q) (rows : list (Q * option A)) : list A :=
  match rows with [] => [] | (s, Some x) :: r => if Qle_bool (Qabs (s - t)) limit then x :: within limit t r else within limit t r | (_, None) :: r => within limit t r end.
Lemma near_side {A} nan (g : A -> Q) limit t rows : (forall s x, In (s, Some x) rows -> ~ g x == nan) -> near_values nan limit t (sideq g rows) = map g (within limit t rows).
Proof.
  induction rows as [|[s [x|]] r IH]; intros H; cbn [sideq map fst snd option_map near_values within]; [reflexivity| |].
  - assert (IHr := IH (fun s y I => H s y (or_intror I))). fold (sideq g r). rewrite IHr. destruct (Qeq_bool (g x) nan) eqn:B; [apply Qeq_bool_iff in B; exfalso; exact (H s x (or_introl eq_refl) B)|]. cbn [negb andb].
    destruct (Qle_bool (Qabs (s - t)) limit); reflexivity.
  - exact (IH (fun s y I => H s y (or_intror I))).
Qed.
Lemma qsum_lin {A} (a b : Q) (f g : A -> Q) l : qsum (map (fun o => a * f o + b * g o) l) == a * qsum (map f l) + b * qsum (map g l).
Proof. induction l as [|x l IH]; cbn [map qsum]; [ring|]. rewrite IH. ring. Qed.
Lemma qmean_lin {A} (a b : Q) (f g : A -> Q) l : qmean (map (fun o => a * f o + b * g o) l) == a * qmean (map f l) + b * qmean (map g l).
Proof. unfold qmean, qlen. rewrite !map_length, qsum_lin. unfold Qdiv. ring. Qed.
Lemma qsum_apart {A} (e : Q) (f g : A -> Q) l : (forall x, In x l -> - e <= f x - g x <= e) -> - (e * qlen l) <= qsum (map f l) - qsum (map g l) <= e * qlen l.
Proof.
  induction l as [|x l IH]; intros H; [unfold qlen; cbn [map qsum List.length]; change (inject_Z (Z.of_nat 0)) with 0; lra|].
  pose proof (H x (or_introl eq_refl)) as H1. specialize (IH (fun y Y => H y (or_intror Y))). unfold qlen in *. cbn [map qsum List.length].
  rewrite Nat2Z.inj_succ, <- Z.add_1_r, inject_Z_plus. change (inject_Z 1) with 1. lra.
Qed.
Lemma qlen_pos {A} (l : list A) : l <> [] -> 0 < qlen l.
Proof. intros N. unfold qlen. change 0 with (inject_Z 0). rewrite <- Zlt_Qlt. destruct l; [congruence|cbn [List.length]; lia]. Qed.
Lemma qmean_apart {A} (e : Q) (f g : A -> Q) l : l <> [] -> (forall x, In x l -> Qabs (f x - g x) <= e) -> Qabs (qmean (map f l) - qmean (map g l)) <= e.
Proof.
  intros N H. pose proof (qlen_pos l N) as P. assert (X := qsum_apart e f g l (fun x I => proj1 (Qabs_Qle_condition _ _) (H x I))).
  apply Qabs_Qle_condition. unfold qmean, qlen in *. rewrite !map_length. set (n := inject_Z (Z.of_nat (List.length l))) in *. clearbody n.
  assert (E : qsum (map f l) / n - qsum (map g l) / n == (qsum (map f l) - qsum (map g l)) / n) by (field; lra). rewrite E. destruct X as [X1 X2]. split.
  - apply Qle_shift_div_l; [exact P|]. lra.
  - apply Qle_shift_div_r; [exact P|]. lra.
Qed.
Lemma within_in {A} limit t (rows : list (Q * option A)) x : In x (within limit t rows) -> exists s, In (s, Some x) rows /\ Qabs (s - t) <= limit.
Proof.
  induction rows as [|[s [y|]] r IH]; cbn [within]; intros I; [destruct I| |].
  - destruct (Qle_bool (Qabs (s - t)) limit) eqn:B.
    + destruct I as [->|I]; [exists s; split; [left; reflexivity|apply Qle_bool_iff, B]|]. destruct (IH I) as (u & U & V). exists u. split; [right; exact U|exact V].
    + destruct (IH I) as (u & U & V). exists u. split; [right; exact U|exact V].
  - destruct (IH I) as (u & U & V). exists u. split; [right; exact U|exact V].
Qed.
Lemma sideq_nth {A} (g : A -> Q) rows k t c : nth_error rows k = Some (t, c) -> nth_error (sideq g rows) k = Some (t, option_map g c).
Proof. intros H. unfold sideq. exact (map_nth_error (fun r => (fst r, option_map g (snd r))) k rows H). Qed.
Definition rows_sorted {A} (rows : list (Q * option A)) : Prop := StronglySorted (fun p q => fst p <= fst q) rows.
Lemma sideq_sorted {A} (g : A -> Q) rows : rows_sorted rows -> time_sorted (sideq g rows).
Proof.
  intros S. unfold time_sorted, sideq. induction S as [|p r S IH F]; cbn [map]; constructor; [exact IH|].
  apply Forall_forall. intros q I. apply in_map_iff in I as (p' & <- & I). cbn. rewrite Forall_forall in F. exact (F p' I).
Qed.
Lemma sideq_output {A} nan w (fillna : bool) min_obs (g : A -> Q) rows k t c : (1 <= min_obs)%Z -> rows_sorted rows -> (forall s x, In (s, Some x) rows -> ~ g x == nan) ->
  nth_error rows k = Some (t, c) ->
  exists o, nth_error (boxcar_filter nan w fillna min_obs (sideq g rows)) k = Some o /\
    (c = None -> fillna = false -> o = None) /\
    (c <> None \/ fillna = true -> ceq o (if (min_obs <=? Z.of_nat (List.length (within (w / 2) t rows)))%Z then Some (qmean (map g (within (w / 2) t rows))) else None)).
Proof.
  intros M S H K. destruct (boxcar_correct nan w fillna min_obs (sideq g rows) M (sideq_sorted g rows S)) as [_ B].
  destruct (B k t (option_map g c) (sideq_nth g rows k t c K)) as (o & O & O1 & O2). exists o. split; [exact O|]. split.
  - intros -> F. apply O1. split; [exact I|exact F].
  - intros C. unfold average_at in O2. rewrite near_side in O2 by exact H. rewrite map_length in O2. apply O2. destruct C as [C|C]; [left|right; exact C].
    destruct c as [x|]; [|congruence]. cbn. apply (H t x). exact (nth_error_In _ _ K).
Qed.
End Box.
