(* Property theorems for the scaling functions (C18-C21). *)
From Verif Require Import CdfSpec ScalingModel ScalingProofs RStats MeanStdModel MeanStdProofs.
From Coq Require Import Lra.
Open Scope Q_scope.

(* ---- C18 ---- *)
Theorem C18_min_max_reaches_reference_range :
  forall (src ref : list Q), non_constant src -> ref <> [] ->
    exists ys, min_max src ref = Ok (map Some ys) /\
      (forall m, is_min ref m -> is_min ys m) /\ (forall m, is_max ref m -> is_max ys m) /\
      order_preserving (map Some src) (map Some ys).
Proof. exact min_max_correct. Qed.
Print Assumptions C18_min_max_reaches_reference_range.

Theorem C18_min_max_constant_source_missing :
  forall (src ref : list Q), src <> [] -> ref <> [] -> ~ non_constant src ->
    min_max src ref = Ok (map (fun _ => None) src).
Proof. exact min_max_constant. Qed.
Print Assumptions C18_min_max_constant_source_missing.

Example C18_hypotheses_met :
  non_constant [3; 1; 2] /\ match min_max [3; 1; 2] [10; 30] with Ok [Some a; Some b; Some c] => a == 30 /\ b == 10 /\ c == 20 | _ => False end.
Proof.
  split; [exists 3, 1; cbn; split; [tauto|]; split; [tauto|]; discriminate|]. vm_compute. repeat split.
Qed.

(* ---- C19 ---- *)
Theorem C19_mean_std_matches_reference :
  forall (src ref : list R), src <> [] -> ~ constant src ->
    exists out, mean_std src ref = map Some out /\ List.length out = List.length src /\
      rmean out = rmean ref /\ std out = std ref /\
      (forall i j u v u' v', nth_error src i = Some u -> nth_error src j = Some v ->
         nth_error out i = Some u' -> nth_error out j = Some v' -> (u <= v)%R -> (u' <= v')%R).
Proof. exact mean_std_correct. Qed.
Print Assumptions C19_mean_std_matches_reference.

Theorem C19_mean_std_constant_source_missing :
  forall (src ref : list R), src <> [] -> constant src -> mean_std src ref = map (fun _ => None) src.
Proof. exact mean_std_constant. Qed.
Print Assumptions C19_mean_std_constant_source_missing.

Example C19_hypotheses_met : [1; 2; 2]%R <> [] /\ ~ constant [1; 2; 2]%R.
Proof.
  split; [discriminate|]. intros C. assert (E : 1%R = 2%R) by (apply C; cbn; auto). lra.
Qed.

(* ---- C20 ---- *)
(* the mean is preserved when the regression slope is not negative *)
Theorem C20_linreg_mean_partial :
  forall (src ref : list Q) slope intercept,
    linreg_params src ref = Ok (slope, intercept) -> 0 <= slope ->
    exists ys, linreg src ref = Ok (map Some ys) /\ List.length ys = List.length src /\ qmean ys == qmean ref.
Proof. exact linreg_mean_nonneg. Qed.
Print Assumptions C20_linreg_mean_partial.

(* a negative slope always loses it, unless the source has mean zero *)
Theorem C20_linreg_mean_lost_for_negative_slope :
  forall (src ref : list Q) slope intercept,
    linreg_params src ref = Ok (slope, intercept) -> slope < 0 -> ~ qmean src == 0 ->
    exists ys, linreg src ref = Ok (map Some ys) /\ ~ qmean ys == qmean ref.
Proof. exact linreg_mean_neg. Qed.
Print Assumptions C20_linreg_mean_lost_for_negative_slope.

Theorem C20_linreg_mean_refuted :
  exists (src ref : list Q) (ys : list Q),
    non_constant src /\ List.length src = List.length ref /\
    linreg src ref = Ok (map Some ys) /\ ~ qmean ys == qmean ref.
Proof.
  exists [1; 2; 3], [3; 2; 1]. 
  exists (linreg_stored_params [1; 2; 3] (match linreg_params [1; 2; 3] [3; 2; 1] with Ok p => fst p | _ => 0 end)
           (match linreg_params [1; 2; 3] [3; 2; 1] with Ok p => snd p | _ => 0 end)).
  split; [exists 1, 2; cbn; split; [tauto|]; split; [tauto|]; discriminate|].
  split; [reflexivity|]. split; [vm_compute; reflexivity|]. vm_compute. discriminate.
Qed.
Print Assumptions C20_linreg_mean_refuted.

Example C20_hypotheses_met :
  exists s i, linreg_params [1; 2; 3] [2; 5; 5] = Ok (s, i) /\ 0 <= s.
Proof. eexists. eexists. split; [vm_compute; reflexivity|]. vm_compute. discriminate. Qed.
Example C20_negative_met :
  exists s i, linreg_params [1; 2; 3] [5; 5; 2] = Ok (s, i) /\ s < 0 /\ ~ qmean [1; 2; 3] == 0.
Proof. eexists. eexists. split; [vm_compute; reflexivity|]. split; vm_compute; [reflexivity|discriminate]. Qed.

(* ---- C21 ---- *)
Theorem C21_scale_columns :
  forall (impl : string -> list cell -> list cell -> res (list cell))
         (df : frame) (method : string) (i : nat) (r : string) (rv : list cell),
    In method scaling_methods -> NoDup (map fst df) -> nth_error df i = Some (r, rv) ->
    (forall n v, In (n, v) df -> n <> r -> exists w, impl method v rv = Ok w) ->
    exists out, scale impl df method (Z.of_nat i) = Ok out /\
      map fst out = map fst df /\ nth_error out i = Some (r, rv) /\
      forall j n v, j <> i -> nth_error df j = Some (n, v) ->
        exists w, impl method v rv = Ok w /\ nth_error out j = Some (n, w).
Proof.
  intros impl df method i r rv Hm N Hi Hs. unfold scale.
  assert (E : existsb (String.eqb method) scaling_methods = true)
    by (apply existsb_exists; exists method; split; [exact Hm|apply String.eqb_refl]).
  rewrite E. apply scale_with_correct; assumption.
Qed.
Print Assumptions C21_scale_columns.

(* the errors: unknown method, index out of range, negative index *)
Theorem C21_scale_errors :
  forall (impl : string -> list cell -> list cell -> res (list cell)) (df : frame) (method : string) (i : Z),
    (~ In method scaling_methods -> scale impl df method i = Err EKey) /\
    (In method scaling_methods -> (Z.of_nat (List.length df) <= i)%Z -> scale impl df method i = Err EIndex) /\
    (In method scaling_methods -> (i < 0)%Z -> exists e, scale impl df method i = Err e).
Proof.
  intros impl df method i.
  assert (E : existsb (String.eqb method) scaling_methods = true <-> In method scaling_methods).
  { rewrite existsb_exists. split; [intros (x & Hx & Ex); apply String.eqb_eq in Ex; congruence|].
    intros H. exists method. split; [exact H|apply String.eqb_refl]. }
  unfold scale. destruct (existsb (String.eqb method) scaling_methods); split; [|split| |split].
  - intros H. exfalso. apply H, E. reflexivity.
  - intros _. apply scale_with_out_of_range.
  - intros _. apply scale_with_negative.
  - reflexivity.
  - intros H. apply E in H. discriminate.
  - intros H. apply E in H. discriminate.
Qed.
Print Assumptions C21_scale_errors.

(* add_scaled adds one column and leaves the others alone *)
Theorem C21_add_scaled :
  forall (scaler : list cell -> list cell -> res (list cell)) (df : frame) (method lin lsc : string) src ref v,
    lookup df lin = Some src -> lookup df lsc = Some ref -> scaler src ref = Ok v ->
    let new := (lin ++ "_scaled_" ++ method)%string in
    exists out, add_scaled scaler df method (Some lin) (Some lsc) = Ok out /\
      lookup out new = Some v /\ (forall m, m <> new -> lookup out m = lookup df m) /\
      (~ In new (map fst df) -> map fst out = map fst df ++ [new]).
Proof.
  intros scaler df method lin lsc src ref v H1 H2 H3 new. exists (set_column df new v).
  unfold add_scaled. rewrite H1, H2, H3. split; [reflexivity|]. split; [rewrite lookup_set, String.eqb_refl; reflexivity|].
  split.
  - intros m Hm. rewrite lookup_set. destruct (String.eqb_spec new m); [congruence|reflexivity].
  - intros H. rewrite set_column_names. destruct (existsb (String.eqb new) (map fst df)) eqn:E; [|reflexivity].
    apply existsb_exists in E as (x & Hx & Ex). apply String.eqb_eq in Ex. subst x. contradiction.
Qed.
Print Assumptions C21_add_scaled.

Definition ex_df : frame := [("a", [Some 1; Some 2]); ("b", [Some 10; Some 30]); ("c", [Some 4; Some 8])]%string.
Definition ex_impl (_ : string) (x y : list cell) : res (list cell) :=
  match vals x, vals y with [], _ => Err EValue | u, v => min_max u v end.
Example C21_hypotheses_met :
  In "min_max"%string scaling_methods /\ NoDup (map fst ex_df) /\
  nth_error ex_df 1 = Some ("b", [Some 10; Some 30])%string /\
  (forall n v, In (n, v) ex_df -> n <> "b"%string -> exists w, ex_impl "min_max" v [Some 10; Some 30] = Ok w) /\
  match scale ex_impl ex_df "min_max" 1 with
  | Ok out => map fst out = ["a"; "b"; "c"]%string | _ => False end.
Proof.
  split; [cbn; tauto|]. split; [repeat constructor; cbn; intuition discriminate|]. split; [reflexivity|]. split.
  - intros n v H Hn. cbn in H. destruct H as [H|[H|[H|[]]]]; injection H as <- <-; try congruence; eexists; vm_compute; reflexivity.
  - vm_compute. reflexivity.
Qed.
