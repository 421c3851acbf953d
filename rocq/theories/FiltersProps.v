(* Property theorems for the filters (C07-C09). *)
From Verif Require Import Base FiltersModel FiltersSpec FiltersProofs ExpFilterProofs.
From Coq Require Import Reals Lra.

(* ---- C07 ---- *)
Theorem C07_boxcar_is_window_mean :
  forall (nan window : Q) (fillna : bool) (min_obs : Z) (pts : list (Q * cell)),
    1 <= min_obs -> time_sorted pts ->
    let out := boxcar_filter nan window fillna min_obs pts in
    List.length out = List.length pts /\
    forall k t c, nth_error pts k = Some (t, c) ->
      exists o, nth_error out k = Some o /\
        (missing nan c /\ fillna = false -> o = None) /\
        (~ missing nan c \/ fillna = true -> ceq o (average_at nan window min_obs pts t)).
Proof. exact boxcar_correct. Qed.
Print Assumptions C07_boxcar_is_window_mean.

Definition ex_pts : list (Q * cell) :=
  [(0%Q, Some 1%Q); (1%Q, None); ((3#2)%Q, Some 4%Q); ((3#2)%Q, Some 7%Q); (9%Q, Some 2%Q)].
Example C07_hypotheses_met :
  time_sorted ex_pts /\
  boxcar_filter default_nan 3 true 2 ex_pts =
    [Some (12 / 3)%Q; Some (12 / 3)%Q; Some (12 / 3)%Q; Some (12 / 3)%Q; None] /\
  boxcar_filter default_nan 1 false 1 ex_pts =
    [Some (1 / 1)%Q; None; Some (11 / 2)%Q; Some (11 / 2)%Q; Some (2 / 1)%Q].
Proof.
  split; [|split; vm_compute; reflexivity].
  repeat constructor; cbn; unfold Qle; cbn; lia.
Qed.

(* ---- C08 ---- *)
(* every output is the average of the valid inputs so far, weighted with exp(-age/ctime) *)
Theorem C08_exp_filter_weighted_average :
  forall (nan : R) (ctime : Z) (pts : list (R * option R)),
    (0 < ctime)%Z ->
    List.length (exp_filter nan ctime pts) = List.length pts /\
    forall k t c, nth_error pts k = Some (t, c) ->
      ((c = None \/ c = Some nan) -> nth_error (exp_filter nan ctime pts) k = Some None) /\
      (forall v, c = Some v -> v <> nan ->
         nth_error (exp_filter nan ctime pts) k =
         Some (Some (exp_average ctime t (robs nan (firstn (S k) pts))))).
Proof. exact (fun nan T pts _ => exp_filter_correct nan T pts). Qed.
Print Assumptions C08_exp_filter_weighted_average.

Theorem C08_exp_filter_hull :
  forall (nan : R) (ctime : Z) (pts : list (R * option R)) k t v o lo hi,
    (0 < ctime)%Z -> nth_error pts k = Some (t, Some v) -> v <> nan ->
    nth_error (exp_filter nan ctime pts) k = Some o ->
    (forall s x, In (s, Some x) (firstn (S k) pts) -> x <> nan -> (lo <= x <= hi)%R) ->
    exists f, o = Some f /\ (lo <= f <= hi)%R.
Proof. exact (fun nan T pts k t v o lo hi _ => exp_filter_hull nan T pts k t v o lo hi). Qed.
Print Assumptions C08_exp_filter_hull.

Theorem C08_exp_filter_causal :
  forall (nan : R) (ctime : Z) (pts1 pts2 : list (R * option R)) k,
    (0 < ctime)%Z -> firstn (S k) pts1 = firstn (S k) pts2 -> (k < List.length pts1)%nat ->
    nth_error (exp_filter nan ctime pts1) k = nth_error (exp_filter nan ctime pts2) k.
Proof. exact (fun nan T p1 p2 k _ => exp_filter_causal nan T p1 p2 k). Qed.
Print Assumptions C08_exp_filter_causal.

(* two observations at distance 0 in time are averaged with equal weights *)
Example C08_hypotheses_met :
  exp_filter (-999999)%R 10 [(0%R, None); (1%R, Some 2%R); (1%R, Some 4%R)] = [None; Some 2%R; Some 3%R].
Proof.
  cbn. destruct (Req_EM_T 2 _); [lra|]. cbn. destruct (Req_EM_T 4 _); [lra|].
  replace (- (1 - 1) / 10)%R with 0%R by field. rewrite exp_0. do 3 f_equal. f_equal. field.
Qed.

(* ---- C09 ---- *)
Theorem C09_anomaly_plus_average :
  forall (ser : list (Q * cell)) (w : Q), time_sorted ser -> (0 <= w)%Q ->
    map fst (calc_anomaly_ma ser w) = map fst ser /\
    forall k t c, nth_error ser k = Some (t, c) ->
      exists a, nth_error (calc_anomaly_ma ser w) k = Some (t, a) /\
        (missing default_nan c -> a = None) /\
        (forall v, c = Some v -> ~ (v == default_nan)%Q ->
           exists m d, average_at default_nan w 1 ser t = Some m /\ a = Some d /\ (d + m == v)%Q).
Proof. exact anomaly_correct. Qed.
Print Assumptions C09_anomaly_plus_average.

Example C09_hypotheses_met :
  time_sorted ex_pts /\
  map snd (calc_anomaly_ma ex_pts 1) =
    [Some (1 - 1 / 1)%Q; None; Some (4 - 11 / 2)%Q; Some (7 - 11 / 2)%Q; Some (2 - 2 / 1)%Q].
Proof.
  split; [|vm_compute; reflexivity].
  repeat constructor; cbn; unfold Qle; cbn; lia.
Qed.
