(* C93: the exponential filter follows the unit of the data and depends on time differences only. *)
From Coq Require Import Reals List ZArith Lra.
From Verif Require Import FiltersModel.
Import ListNotations.
Open Scope R_scope.

(* the same series: times k * t + s, values a * v + b *)
Definition moved (a b k s : R) (p : R * option R) : R * option R := (k * fst p + s, option_map (fun v => a * v + b) (snd p)).
Definition no_marker (nan : R) (ser : list (R * option R)) : Prop := forall t v, In (t, Some v) ser -> v <> nan.
Lemma rvalid_plain nan c : (forall v, c = Some v -> v <> nan) -> rvalid nan c = c.
Proof. destruct c as [v|]; cbn; [|reflexivity]. intros H. destruct (Req_EM_T v nan); [exfalso; apply (H v eq_refl); assumption|reflexivity]. Qed.
Lemma exp_loop_moved nan a b k s ct ct' ser : k <> 0 -> IZR ct' = k * IZR ct -> IZR ct <> 0 -> no_marker nan ser -> no_marker nan (map (moved a b k s) ser) -> forall j l g,
  exp_loop nan ct' (k * j + s) (a * l + b) g (map (moved a b k s) ser) = map (option_map (fun v => a * v + b)) (exp_loop nan ct j l g ser).
Proof.
  intros K CT CN. induction ser as [|[t c] ser IH]; intros N N' j l g; [reflexivity|]. cbn [map exp_loop moved fst snd].
  assert (R1 : rvalid nan c = c) by (apply rvalid_plain; intros v E; apply (N t); left; rewrite E; reflexivity).
  assert (R2 : rvalid nan (option_map (fun v => a * v + b) c) = option_map (fun v => a * v + b) c) by (apply rvalid_plain; intros v E; apply (N' (k * t + s)); left; unfold moved; cbn; rewrite E; reflexivity).
  rewrite R1, R2. assert (T1 : no_marker nan ser) by (intros u v I; apply (N u v); right; exact I). assert (T2 : no_marker nan (map (moved a b k s) ser)) by (intros u v I; apply (N' u v); right; exact I).
  destruct c as [x|]; cbn [option_map map]; [|f_equal; apply IH; assumption].
  assert (EF : - (k * t + s - (k * j + s)) / IZR ct' = - (t - j) / IZR ct) by (rewrite CT; field; auto). rewrite EF.
  set (g' := g / (g + exp (- (t - j) / IZR ct))). assert (FL : a * l + b + g' * (a * x + b - (a * l + b)) = a * (l + g' * (x - l)) + b) by ring. rewrite FL. f_equal. apply IH; assumption.
Qed.
Theorem C93_exponential_filter nan a b k s ctime ctime' ser : k <> 0 -> IZR ctime <> 0 -> IZR ctime' = k * IZR ctime ->
  no_marker nan ser -> no_marker nan (map (moved a b k s) ser) ->
  exp_filter nan ctime' (map (moved a b k s) ser) = map (option_map (fun v => a * v + b)) (exp_filter nan ctime ser).
Proof.
  intros K CN CT. induction ser as [|[t c] ser IH]; intros N N'; [reflexivity|]. cbn [map exp_filter moved fst snd].
  assert (R1 : rvalid nan c = c) by (apply rvalid_plain; intros v E; apply (N t); left; rewrite E; reflexivity).
  assert (R2 : rvalid nan (option_map (fun v => a * v + b) c) = option_map (fun v => a * v + b) c) by (apply rvalid_plain; intros v E; apply (N' (k * t + s)); left; unfold moved; cbn; rewrite E; reflexivity).
  rewrite R1, R2. assert (T1 : no_marker nan ser) by (intros u v I; apply (N u v); right; exact I). assert (T2 : no_marker nan (map (moved a b k s) ser)) by (intros u v I; apply (N' u v); right; exact I).
  destruct c as [x|]; cbn [option_map map]; [|f_equal; apply IH; assumption]. f_equal. apply exp_loop_moved; assumption.
Qed.
Print Assumptions C93_exponential_filter.
(* times in days and hours (k = 24), temperatures in degrees Celsius and Fahrenheit *)
Example C93_exp_ex : let ser := [(1, Some 10); (2, None); (3, Some 20)] in
  no_marker (-999999) ser /\ no_marker (-999999) (map (moved (9 / 5) 32 24 0) ser) /\ IZR 48 = 24 * IZR 2.
Proof.
  cbv zeta. split; [|split].
  - intros t v [E|[E|[E|[]]]]; inversion E; lra.
  - intros t v [E|[E|[E|[]]]]; inversion E; lra.
  - lra.
Qed.
