(* Theorems about smoothing arrays of integers (C111). *)
From Coq Require Import Reals Lra Lia.
From Verif Require Import Base RStats MetricsModel DctModel DctSpec DctAutoSpec DctProofs2 DctProofs3 DctProofs12 DctIntModel DctIntSpec DctIntProofs DctIntProofs2.
Open Scope R_scope.

Definition d_int : arr (option R) := series [Some 100; Some 0; Some 0; Some 0] None.
Definition o_int (s : R) (order : nat) : options := Opts (Some s) None None order None false 100 (1 / 1000) None None.
Lemma int_usable s order : 0 < s -> order = 1%nat \/ order = 2%nat -> usable [4%nat] d_int (o_int s order).
Proof.
  intros P O. unfold usable, o_int; cbn [o_axis o_order o_weights o_init o_maxiter o_tolz o_smooth]. repeat split; try (cbn; lia) || lra || exact O || (intros; discriminate).
  - intros i I E. each_index I; discriminate.
  - intros s' E. injection E as <-. exact P.
Qed.
Lemma int_complete s order : complete [4%nat] d_int (o_int s order) (series [100; 0; 0; 0] 0).
Proof. split; [|intros; discriminate]. intros i I. each_index I; (split; [intros [E|(m & E & _)]; discriminate|reflexivity]). Qed.
Lemma int_integers : integers [4%nat] d_int.
Proof. intros i I. each_index I; [exists 100%Z|exists 0%Z|exists 0%Z|exists 0%Z]; reflexivity. Qed.
Lemma int_wave : In [1%nat] (indices [4%nat]) /\ slow [4%nat] [1%nat] /\ (exists k0, In k0 [1%nat] /\ (0 < k0)%nat) /\ total [4%nat] (fun i => wave [4%nat] [1%nat] i * series [100; 0; 0; 0] 0 i) <> 0.
Proof.
  split; [cbn; tauto|]. split; [repeat constructor|]. split; [exists 1%nat; split; [left; reflexivity|lia]|].
  unfold total, series. cbn [indices seq flat_map map app hd nth wave rsum]. assert (C : 0 < cos (PI * INR 1 * (2 * INR 0 + 1) / (2 * INR 4))).
  { cbn [INR]. pose proof PI_RGT_0. apply cos_gt_0; lra. }
  lra.
Qed.

(* For arrays of doubles the conversions change nothing: everything proved about smoothn holds. *)
Theorem C111_doubles fmin nearest keep shape data o : smoothn_cast to_double fmin nearest keep shape data o = smoothn fmin nearest keep shape data o.
Proof. rewrite cast_double. reflexivity. Qed.
Print Assumptions C111_doubles.

(* Every wave in an array of doubles is damped, the more the faster it is and the larger the parameter. *)
Theorem C111_doubles_damped fmin nearest keep shape data o y : usable shape data o -> o_robust o = false -> complete shape data o y ->
  exists out s u, smoothn_cast to_double fmin nearest keep shape data o = Ok out /\ r_smooth out = Some s /\ 0 < s /\ (forall s', o_smooth o = Some s' -> s = s') /\ gives shape out u /\
    forall k, In k (indices shape) -> (1 + s * stiffness shape k ^ o_order o) * total shape (fun i => wave shape k i * u i) = total shape (fun i => wave shape k i * y i).
Proof. rewrite cast_double. exact (damped fmin nearest keep shape data o y). Qed.
Print Assumptions C111_doubles_damped.

(* In an array of integers the slow waves, those with periods of more than six positions along every axis, pass
   unchanged, whatever the smoothing parameter. *)
Theorem C111_slow_waves_kept fmin nearest keep shape data o y : usable shape data o -> integers shape data -> o_robust o = false -> complete shape data o y ->
  exists out u, smoothn_cast to_integer fmin nearest keep shape data o = Ok out /\ gives shape out u /\
    forall k, In k (indices shape) -> slow shape k -> total shape (fun i => wave shape k i * u i) = total shape (fun i => wave shape k i * y i).
Proof. intros U _. exact (slow_kept fmin nearest keep shape data o y U). Qed.
Print Assumptions C111_slow_waves_kept.
Example C111_case : usable [4%nat] d_int (o_int 1000 2) /\ integers [4%nat] d_int /\ o_robust (o_int 1000 2) = false /\ complete [4%nat] d_int (o_int 1000 2) (series [100; 0; 0; 0] 0) /\
  In [1%nat] (indices [4%nat]) /\ slow [4%nat] [1%nat] /\ total [4%nat] (fun i => wave [4%nat] [1%nat] i * series [100; 0; 0; 0] 0 i) <> 0.
Proof. split; [apply int_usable; [lra|right; reflexivity]|]. split; [exact int_integers|]. split; [reflexivity|]. split; [apply int_complete|]. destruct int_wave as (A & B & _ & D). auto. Qed.

(* So integers and the same numbers as doubles give different results as soon as the data contain a slow wave ... *)
Theorem C111_different fmin nearest keep shape data o y k : usable shape data o -> integers shape data -> o_robust o = false -> complete shape data o y ->
  In k (indices shape) -> slow shape k -> (exists k0, In k0 k /\ (0 < k0)%nat) -> total shape (fun i => wave shape k i * y i) <> 0 ->
  exists out out' u u', smoothn_cast to_double fmin nearest keep shape data o = Ok out /\ smoothn_cast to_integer fmin nearest keep shape data o = Ok out' /\ gives shape out u /\ gives shape out' u' /\
    exists i, In i (indices shape) /\ u i <> u' i.
Proof. intros U _. rewrite cast_double. exact (differ fmin nearest keep shape data o y k U). Qed.
Print Assumptions C111_different.
(* ... for every smoothing parameter: the series 100, 0, 0, 0. *)
Theorem C111_integers_refuted fmin nearest keep s order : 0 < s -> order = 1%nat \/ order = 2%nat ->
  exists shape data o, usable shape data o /\ integers shape data /\ o_smooth o = Some s /\ o_order o = order /\ o_robust o = false /\ o_weights o = None /\
  exists out out' u u', smoothn_cast to_double fmin nearest keep shape data o = Ok out /\ smoothn_cast to_integer fmin nearest keep shape data o = Ok out' /\ gives shape out u /\ gives shape out' u' /\
    exists i, In i (indices shape) /\ u i <> u' i.
Proof.
  intros P O. exists [4%nat], d_int, (o_int s order). pose proof (int_usable s order P O) as U. split; [exact U|]. split; [exact int_integers|]. repeat (split; [reflexivity|]).
  destruct int_wave as (A & B & C & D). exact (C111_different fmin nearest keep [4%nat] d_int (o_int s order) _ [1%nat] U int_integers eq_refl (int_complete s order) A B C D).
Qed.
Print Assumptions C111_integers_refuted.

(* A smoothing parameter chosen for integers is a power of ten: no value in between is ever used. *)
Theorem C111_power_of_ten fmin nearest keep shape data o out s : o_smooth o = None -> smoothn_cast to_integer fmin nearest keep shape data o = Ok out -> r_smooth out = Some s ->
  exists e : Z, s = powerRZ 10 e.
Proof. exact (power_of_ten fmin nearest keep shape data o out s). Qed.
Print Assumptions C111_power_of_ten.
Example C111_power_case : exists out, smoothn_cast to_integer (fun _ _ _ _ => - 7 / 5) (fun _ _ i => i) (fun n => n) [4%nat] d_int (Opts None None None 2 None false 100 (1 / 1000) None None) = Ok out /\ exists s, r_smooth out = Some s.
Proof.
  destruct (typed_complete (fun _ _ _ _ => - 7 / 5) (fun _ _ i => i) (fun n => n) [4%nat] d_int (Opts None None None 2 None false 100 (1 / 1000) None None) (series [100; 0; 0; 0] 0)) as (out & s & u & A & _ & B & _).
  - destruct (int_usable 1 2 ltac:(lra) (or_intror eq_refl)) as (U1 & U2 & U3 & U4 & U5 & U6 & U7 & U8 & _). repeat (split; [assumption|]). intros s E. discriminate.
  - reflexivity.
  - destruct (int_complete 1 2) as [C _]. split; [|intros; discriminate]. intros i I. destruct (C i I) as [C1 C2]. split; [|exact C2]. intros [E|(m & E & _)]; [apply C1; left; exact E|discriminate].
  - exists out. split; [exact A|]. exists s. exact B.
Qed.
(* The initial guess for data with gaps or weights is cut to integers too. *)
Theorem C111_initial_guess fmin nearest keep shape data o out g : o_init o = None -> smoothn_cast to_integer fmin nearest keep shape data o = Ok out -> r_init out = Some g ->
  forall i, exists v, g i = IZR v.
Proof. exact (initial_integers fmin nearest keep shape data o out g). Qed.
Print Assumptions C111_initial_guess.
