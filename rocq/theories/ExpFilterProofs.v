From Verif Require Import Base FiltersModel FiltersSpec.
From Coq Require Import Reals Lra.
Local Open Scope R_scope.

Lemma rsum_app l m : rsum (l ++ m) = rsum l + rsum m.
Proof. induction l as [|x l IH]; cbn; [lra|]. rewrite IH; lra. Qed.

Lemma rsum_pos {A} (f : A -> R) l : (forall x, 0 < f x) -> l <> [] -> 0 < rsum (map f l).
Proof.
  intros Hf. assert (G : forall l, 0 <= rsum (map f l)).
  { induction l0 as [|x l0 IH]; cbn; [lra|]. pose proof (Hf x); lra. }
  destruct l as [|x l]; [congruence|]. intros _. cbn. pose proof (Hf x). pose proof (G l). lra.
Qed.

Lemma rsum_scale {A} (f : A -> R) k l : rsum (map (fun x => k * f x) l) = k * rsum (map f l).
Proof. induction l as [|x l IH]; cbn; [lra|]. rewrite IH; lra. Qed.

Lemma exp_weight_pos T t s : 0 < exp_weight T t s.
Proof. apply exp_pos. Qed.

Lemma exp_weight_self T t : exp_weight T t t = 1.
Proof. unfold exp_weight. replace (- ((t - t) / IZR T)) with 0; [apply exp_0|]. unfold Rdiv; ring. Qed.

Lemma exp_weight_shift T t' t s : exp_weight T t' s = exp (- (t' - t) / IZR T) * exp_weight T t s.
Proof.
  unfold exp_weight. rewrite <- exp_plus. f_equal. unfold Rdiv. ring.
Qed.

Definition wsum T t (obs : list (R * R)) := rsum (map (fun o => exp_weight T t (fst o)) obs).
Definition wxsum T t (obs : list (R * R)) := rsum (map (fun o => exp_weight T t (fst o) * snd o) obs).

Lemma wsum_shift T t' t obs : wsum T t' obs = exp (- (t' - t) / IZR T) * wsum T t obs.
Proof.
  unfold wsum. rewrite <- rsum_scale. f_equal. apply map_ext. intros o. apply exp_weight_shift.
Qed.
Lemma wxsum_shift T t' t obs : wxsum T t' obs = exp (- (t' - t) / IZR T) * wxsum T t obs.
Proof.
  unfold wxsum. rewrite <- rsum_scale. f_equal. apply map_ext. intros o.
  rewrite (exp_weight_shift T t' t). ring.
Qed.

Lemma rvalid_obs nan t c pts :
  robs nan ((t, c) :: pts) = match rvalid nan c with Some v => (t, v) :: robs nan pts | None => robs nan pts end.
Proof. destruct c as [v|]; cbn; [destruct (Req_EM_T v nan)|]; reflexivity. Qed.

Lemma robs_app nan a b : robs nan (a ++ b) = robs nan a ++ robs nan b.
Proof.
  induction a as [|[t c] a IH]; [reflexivity|]. cbn [app]. rewrite !rvalid_obs, IH.
  destruct (rvalid nan c); reflexivity.
Qed.

Lemma app_cons_assoc {A} (l : list A) x m : l ++ x :: m = (l ++ [x]) ++ m.
Proof. rewrite <- app_assoc. reflexivity. Qed.

(* the state of the loop after the points [done] *)
Lemma exp_loop_spec nan T pts : forall done last_jd last gain,
  robs nan done <> [] ->
  gain = / wsum T last_jd (robs nan done) -> last = exp_average T last_jd (robs nan done) ->
  forall k t c, nth_error pts k = Some (t, c) ->
    nth_error (exp_loop nan T last_jd last gain pts) k =
    Some (match rvalid nan c with
          | None => None
          | Some _ => Some (exp_average T t (robs nan (done ++ firstn (S k) pts)))
          end).
Proof.
  induction pts as [|[t0 c0] r IH]; intros done last_jd last gain Hne Hg Hl k t c Hk; [destruct k; discriminate|].
  cbn [exp_loop].
  assert (Hpos : 0 < wsum T last_jd (robs nan done)) by (apply rsum_pos; [intros; apply exp_weight_pos|exact Hne]).
  destruct (rvalid nan c0) as [x|] eqn:Ec.
  - set (ef := exp (- (t0 - last_jd) / IZR T)). assert (Hef : 0 < ef) by apply exp_pos.
    set (S0 := wsum T last_jd (robs nan done)) in *.
    assert (Hobs : robs nan (done ++ [(t0, c0)]) = robs nan done ++ [(t0, x)]).
    { rewrite robs_app, rvalid_obs, Ec. reflexivity. }
    assert (HS : wsum T t0 (robs nan (done ++ [(t0, c0)])) = ef * S0 + 1).
    { rewrite Hobs. unfold wsum. rewrite map_app, rsum_app. fold (wsum T t0 (robs nan done)).
      rewrite (wsum_shift T t0 last_jd). cbn. rewrite exp_weight_self. fold S0 ef. ring. }
    assert (Hgain : gain / (gain + ef) = / wsum T t0 (robs nan (done ++ [(t0, c0)]))).
    { rewrite HS, Hg. pose proof (Rmult_lt_0_compat _ _ Hef Hpos). field. repeat split; lra. }
    assert (Hlast : last + gain / (gain + ef) * (x - last) = exp_average T t0 (robs nan (done ++ [(t0, c0)]))).
    { unfold exp_average. fold (wsum T t0 (robs nan (done ++ [(t0, c0)]))).
      fold (wxsum T t0 (robs nan (done ++ [(t0, c0)]))). rewrite Hgain, HS.
      assert (Hx : wxsum T t0 (robs nan (done ++ [(t0, c0)])) = ef * wxsum T last_jd (robs nan done) + x).
      { rewrite Hobs. unfold wxsum. rewrite map_app, rsum_app. fold (wxsum T t0 (robs nan done)).
        rewrite (wxsum_shift T t0 last_jd). cbn [map rsum fst snd]. rewrite exp_weight_self. fold ef. unfold wxsum. ring. }
      rewrite Hx, Hl. unfold exp_average. fold (wsum T last_jd (robs nan done)) (wxsum T last_jd (robs nan done)).
      fold S0. pose proof (Rmult_lt_0_compat _ _ Hef Hpos). field. repeat split; lra. }
    destruct k as [|k]; cbn [nth_error] in Hk |- *.
    + injection Hk as -> ->. rewrite Ec. cbn [firstn]. unfold ef in *. rewrite Hlast. reflexivity.
    + rewrite firstn_cons, app_cons_assoc.
      apply IH; [rewrite Hobs; destruct (robs nan done); discriminate|exact Hgain|exact Hlast|exact Hk].
  - assert (Hobs : robs nan (done ++ [(t0, c0)]) = robs nan done).
    { rewrite robs_app, rvalid_obs, Ec. cbn. apply app_nil_r. }
    destruct k as [|k]; cbn [nth_error] in Hk |- *.
    + injection Hk as -> ->. rewrite Ec. reflexivity.
    + rewrite firstn_cons, app_cons_assoc.
      apply IH; rewrite ?Hobs; assumption.
Qed.

Lemma exp_average_single T t x : exp_average T t [(t, x)] = x.
Proof. unfold exp_average; cbn. rewrite exp_weight_self. field. Qed.

Lemma exp_filter_gen nan T pts : forall done k t c,
  robs nan done = [] -> nth_error pts k = Some (t, c) ->
  nth_error (exp_filter nan T pts) k =
  Some (match rvalid nan c with
        | None => None
        | Some _ => Some (exp_average T t (robs nan (done ++ firstn (S k) pts)))
        end).
Proof.
  induction pts as [|[t0 c0] r IH]; intros done k t c Hd Hk; [destruct k; discriminate|].
  cbn [exp_filter]. destruct (rvalid nan c0) as [x|] eqn:Ec.
  - assert (Hobs : robs nan (done ++ [(t0, c0)]) = [(t0, x)]).
    { rewrite robs_app, rvalid_obs, Ec, Hd. reflexivity. }
    destruct k as [|k]; cbn [nth_error] in Hk |- *.
    + injection Hk as -> ->. rewrite Ec. cbn [firstn]. rewrite Hobs, exp_average_single. reflexivity.
    + rewrite firstn_cons, app_cons_assoc.
      apply exp_loop_spec; [rewrite Hobs; discriminate| | |exact Hk].
      * rewrite Hobs. unfold wsum; cbn. rewrite exp_weight_self. field.
      * rewrite Hobs, exp_average_single. reflexivity.
  - destruct k as [|k]; cbn [nth_error] in Hk |- *.
    + injection Hk as -> ->. rewrite Ec. reflexivity.
    + rewrite firstn_cons, app_cons_assoc.
      apply IH; [rewrite robs_app, rvalid_obs, Ec, Hd; reflexivity|exact Hk].
Qed.

Lemma rvalid_some nan c : (exists v, rvalid nan c = Some v) <-> (exists v, c = Some v /\ v <> nan).
Proof.
  destruct c as [v|]; cbn.
  - destruct (Req_EM_T v nan); split.
    + intros [w Hw]; discriminate.
    + intros (w & [= <-] & Hw). contradiction.
    + intros _. exists v; auto.
    + intros _. exists v; auto.
  - split; [intros [w Hw]; discriminate|intros (w & Hw & _); discriminate].
Qed.

Lemma exp_loop_length nan T pts : forall a b c, List.length (exp_loop nan T a b c pts) = List.length pts.
Proof.
  induction pts as [|[t0 c0] r IH]; intros; [reflexivity|]. cbn [exp_loop].
  destruct (rvalid nan c0); cbn [List.length]; rewrite IH; reflexivity.
Qed.
Lemma exp_filter_length nan T pts : List.length (exp_filter nan T pts) = List.length pts.
Proof.
  induction pts as [|[t0 c0] r IH]; [reflexivity|]. cbn [exp_filter].
  destruct (rvalid nan c0); cbn [List.length]; [rewrite exp_loop_length|rewrite IH]; reflexivity.
Qed.

Lemma exp_filter_correct nan T pts :
  List.length (exp_filter nan T pts) = List.length pts /\
  forall k t c, nth_error pts k = Some (t, c) ->
    ((c = None \/ c = Some nan) -> nth_error (exp_filter nan T pts) k = Some None) /\
    (forall v, c = Some v -> v <> nan ->
       nth_error (exp_filter nan T pts) k = Some (Some (exp_average T t (robs nan (firstn (S k) pts))))).
Proof.
  split; [apply exp_filter_length|]. intros k t c Hk.
  pose proof (exp_filter_gen nan T pts [] k t c eq_refl Hk) as H. rewrite H. split.
  - intros [->| ->]; cbn; [reflexivity|]. destruct (Req_EM_T nan nan); [reflexivity|contradiction].
  - intros v -> Hv. cbn [rvalid]. destruct (Req_EM_T v nan); [contradiction|]. reflexivity.
Qed.

(* an exponentially weighted average lies in the hull of the observations *)
Lemma exp_average_bounds T t obs lo hi :
  obs <> [] -> (forall s x, In (s, x) obs -> lo <= x <= hi) -> lo <= exp_average T t obs <= hi.
Proof.
  intros Hne Hb. unfold exp_average. fold (wsum T t obs) (wxsum T t obs).
  assert (Hp : 0 < wsum T t obs) by (apply rsum_pos; [intros; apply exp_weight_pos|exact Hne]).
  assert (G : lo * wsum T t obs <= wxsum T t obs <= hi * wsum T t obs).
  { clear Hne Hp. induction obs as [|[s x] r IH]; [unfold wsum, wxsum; cbn; lra|].
    assert (IH' := IH (fun s x Hx => Hb s x (or_intror Hx))).
    pose proof (Hb s x (or_introl eq_refl)) as [H1 H2]. pose proof (exp_weight_pos T t s) as Hw.
    unfold wsum, wxsum in *; cbn [map rsum fst snd] in *.
    assert (lo * exp_weight T t s <= exp_weight T t s * x) by (rewrite Rmult_comm; apply Rmult_le_compat_l; lra).
    assert (exp_weight T t s * x <= hi * exp_weight T t s) by (rewrite (Rmult_comm hi); apply Rmult_le_compat_l; lra).
    lra. }
  assert (E : wxsum T t obs = wxsum T t obs / wsum T t obs * wsum T t obs) by (field; lra).
  split; apply (Rmult_le_reg_r (wsum T t obs)); try lra.
Qed.

Lemma robs_in nan pts s x : In (s, x) (robs nan pts) <-> In (s, Some x) pts /\ x <> nan.
Proof.
  induction pts as [|[t c] r IH]; [cbn; tauto|]. rewrite rvalid_obs.
  destruct c as [v|]; cbn [rvalid]; [destruct (Req_EM_T v nan) as [->|Hn]|].
  - rewrite IH. cbn. split; [tauto|]. intros [[[= -> ->]|H] Hx]; [contradiction|tauto].
  - cbn. rewrite IH. split.
    + intros [[= -> ->]|H]; tauto.
    + intros [[[= -> ->]|H] Hx]; tauto.
  - rewrite IH. cbn. split; [tauto|]. intros [[H|H] Hx]; [discriminate|tauto].
Qed.

Lemma exp_filter_hull nan T pts k t v o lo hi :
  nth_error pts k = Some (t, Some v) -> v <> nan ->
  nth_error (exp_filter nan T pts) k = Some o ->
  (forall s x, In (s, Some x) (firstn (S k) pts) -> x <> nan -> lo <= x <= hi) ->
  exists f, o = Some f /\ lo <= f <= hi.
Proof.
  intros Hk Hv Ho Hb. destruct (exp_filter_correct nan T pts) as [_ H].
  destruct (H k t _ Hk) as [_ H2]. rewrite (H2 v eq_refl Hv) in Ho. injection Ho as <-.
  eexists; split; [reflexivity|]. apply exp_average_bounds.
  - intros C. assert (Hin : In (t, v) (robs nan (firstn (S k) pts))).
    { apply robs_in. split; [|exact Hv]. apply nth_error_split in Hk as (a & b & -> & <-).
      rewrite firstn_app. apply in_or_app; right.
      replace (S (List.length a) - List.length a)%nat with 1%nat by lia. left; reflexivity. }
    cbn [firstn] in C, Hin. rewrite C in Hin. destruct Hin.
  - intros s x Hx. apply robs_in in Hx as [Hx Hn]. eapply Hb; eauto.
Qed.

Lemma exp_filter_causal nan T pts1 pts2 k :
  firstn (S k) pts1 = firstn (S k) pts2 -> (k < List.length pts1)%nat ->
  nth_error (exp_filter nan T pts1) k = nth_error (exp_filter nan T pts2) k.
Proof.
  intros He Hk. destruct (nth_error pts1 k) as [[t c]|] eqn:E1; [|apply nth_error_None in E1; lia].
  assert (E2 : nth_error pts2 k = Some (t, c)).
  { assert (F : forall (l : list rpoint), nth_error (firstn (S k) l) k = nth_error l k).
    { clear. induction k as [|k IH]; intros [|x l]; try reflexivity. cbn [firstn nth_error]. apply IH. }
    rewrite <- F, <- He, F. exact E1. }
  rewrite (exp_filter_gen nan T pts1 [] k t c eq_refl E1), (exp_filter_gen nan T pts2 [] k t c eq_refl E2).
  cbn [app]. rewrite He. reflexivity.
Qed.
