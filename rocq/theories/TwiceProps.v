(* Property theorems C120: scaling to the reference itself, via another dataset, and twice. *)
From Coq Require Import Reals Lra.
From Verif Require Import Base CdfSpec ScalingModel MeanStdModel RStatsProofs MeanStdProofs MeanStdUnitProps UnitSpec TwiceSpec TwiceProofs.
From Coq Require Import Qabs.
Open Scope Q_scope.

(* ------------------------------------------------------- min_max *)
(* Scaling src to mid and then to ref gives what scaling src to ref gives, also for ref = mid (scaling twice). *)
Theorem C120_min_max :
  forall src mid ref, non_constant src -> non_constant mid ->
    exists ys, min_max src mid = Ok (map Some ys) /\ same_outcome same_data (min_max src ref) (min_max ys ref).
Proof. exact min_max_via. Qed.
Theorem C120_min_max_itself :
  forall l, non_constant l -> exists out, min_max l l = Ok out /\ same_data out (map Some l).
Proof. exact min_max_itself. Qed.

(* ------------------------------------------------------- linear regression *)
(* The same for regressions that rise. *)
Theorem C120_linreg :
  forall src mid ref s i, linreg_params src mid = Ok (s, i) -> 0 < s ->
    (forall s' i', linreg_params src ref = Ok (s', i') -> 0 <= s') ->
    exists ys, linreg src mid = Ok (map Some ys) /\ same_outcome same_data (linreg src ref) (linreg ys ref).
Proof. exact linreg_via. Qed.
Theorem C120_linreg_twice :
  forall src ref s i, linreg_params src ref = Ok (s, i) -> 0 < s ->
    exists ys, linreg src ref = Ok (map Some ys) /\ exists out, linreg ys ref = Ok out /\ same_data (map Some ys) out.
Proof.
  intros src ref s i E S. destruct (linreg_via src ref ref s i E S) as (ys & EY & SO).
  - intros s' i' E'. assert (X : (s, i) = (s', i')) by congruence. injection X as <- <-. apply Qlt_le_weak, S.
  - exists ys. split; [exact EY|]. rewrite EY in SO. destruct (linreg ys ref) as [out|]; [|contradiction]. exists out. split; [reflexivity|exact SO].
Qed.
Theorem C120_linreg_itself :
  forall l, non_constant l -> exists out, linreg l l = Ok out /\ same_data out (map Some l).
Proof. exact linreg_itself. Qed.
(* A falling regression is not done with after the first time. *)
Theorem C120_linreg_twice_refuted :
  exists src ref ys out, linreg src ref = Ok (map Some ys) /\ linreg ys ref = Ok out /\ ~ same_data (map Some ys) out.
Proof.
  exists [1; 2; 3], [6; 5; 4]. exists (linreg_stored_params [1; 2; 3] (match linreg_params [1; 2; 3] [6; 5; 4] with Ok p => fst p | _ => 0 end) (match linreg_params [1; 2; 3] [6; 5; 4] with Ok p => snd p | _ => 0 end)).
  eexists. split; [vm_compute; reflexivity|]. split; [vm_compute; reflexivity|]. intros F. inversion F as [|? ? ? ? C]. vm_compute in C. discriminate C.
Qed.
Example C120_ex :
  non_constant [3; 1; 2] /\ non_constant [10; 30; 35] /\ match linreg_params [3; 1; 2] [30; 10; 35] with Ok (s, i) => s == 10 /\ i == 5 | _ => False end /\
  match min_max [3; 1; 2] [10; 30; 35], linreg [3; 1; 2] [30; 10; 35] with Ok [Some a; Some b; Some c], Ok [Some d; Some e; Some f] => a == 35 /\ b == 10 /\ c == 45 # 2 /\ d == 35 /\ e == 15 /\ f == 25 | _, _ => False end.
Proof.
  split; [exists 3, 1; cbn; split; [tauto|]; split; [tauto|]; discriminate|]. split; [exists 10, 30; cbn; split; [tauto|]; split; [tauto|]; discriminate|]. split; [vm_compute; split; reflexivity|]. vm_compute. repeat split.
Qed.

(* ------------------------------------------------------- mean_std *)
Theorem C120_mean_std :
  forall (src mid ref : list R), src <> [] -> ~ constant src -> mid <> [] -> ~ constant mid -> ref <> [] ->
    exists ys, mean_std src mid = map Some ys /\ mean_std ys ref = mean_std src ref.
Proof.
  intros src mid ref NS CS NM CM NR. assert (P : forall l, l <> [] -> ~ constant l -> (0 < std l)%R).
  { intros l N C. destruct (std_nonneg l) as [Z|Z]; [exact Z|]. exfalso. apply C. apply (std_zero l N). symmetry. exact Z. }
  assert (PS := P src NS CS). assert (PM := P mid NM CM).
  set (a := (std mid / std src)%R). set (b := (rmean mid - rmean src * a)%R).
  exists (map (fun v => (a * v + b)%R) src). split.
  - unfold mean_std. destruct (Req_EM_T (std src) 0) as [Z|Z]; [exfalso; rewrite Z in PS; lra|]. rewrite map_map. apply map_ext. intros v. f_equal. unfold a, b, a. field. exact Z.
  - assert (X := C92_mean_std a b 1 0 src ref). replace (map (fun v => (1 * v + 0)%R) ref) with ref in X by (rewrite <- (map_id ref) at 1; apply map_ext; intros v; lra).
    rewrite X; [|apply Rdiv_lt_0_compat; assumption|lra|exact NR]. rewrite <- (map_id (mean_std src ref)) at 2. apply map_ext. intros [v|]; [cbn; f_equal; lra|reflexivity].
Qed.
Theorem C120_mean_std_itself :
  forall (l : list R), l <> [] -> ~ constant l -> mean_std l l = map Some l.
Proof.
  intros l N C. unfold mean_std. destruct (Req_EM_T (std l) 0) as [Z|Z]; [exfalso; apply C, (std_zero l N), Z|]. apply map_ext. intros v. f_equal. field. exact Z.
Qed.
Example C120_ex_mean_std : [1; 2; 2]%R <> [] /\ ~ constant [1; 2; 2]%R /\ [5; 9]%R <> [] /\ ~ constant [5; 9]%R.
Proof.
  split; [discriminate|]. split; [intros C; assert (E : 1%R = 2%R) by (apply C; cbn; auto); lra|]. split; [discriminate|]. intros C; assert (E : 5%R = 9%R) by (apply C; cbn; auto); lra.
Qed.

(* ------------------------------------------------------- CDF matching *)
(* matching a series to itself changes nothing: any options, gaps, linear edges, and any data the fitted table is used for *)
Theorem C120_cdf_itself :
  forall o X, sane_opts o -> non_constant (fit_source o X X) ->
    exists t, cdf_fit o X X = Ok t /\ forall X', same_data (cdf_predict t X') X'.
Proof. exact cdf_itself. Qed.
Definition ints (l : list Z) : list cell := map (fun z => Some (inject_Z z)) l.
(* matching what has been matched can change it: here the middle percentile lies between two observations *)
Theorem C120_cdf_twice_refuted :
  exists o src ref out out', sane_opts o /\ c_linear_edges o = false /\ non_constant (fit_source o src ref) /\
    cdf_match o None None src ref = Ok out /\ cdf_match o None None out ref = Ok out' /\ ~ same_data out out'.
Proof.
  exists (mkCdf 2 None None false true), (ints [1; 2; 3; 7]%Z), (ints [0; 1; 2; 10]%Z).
  eexists. eexists. split; [vm_compute; repeat constructor|]. split; [reflexivity|].
  split; [exists (inject_Z 1), (inject_Z 2); vm_compute; split; [tauto|]; split; [tauto|]; discriminate|].
  split; [vm_compute; reflexivity|]. split; [vm_compute; reflexivity|].
  intros F. inversion F as [|? ? ? ? _ F1]. inversion F1 as [|? ? ? ? C2 F2]. inversion F2 as [|? ? ? ? C3 _]. vm_compute in C2. vm_compute in C3. first [discriminate C2|discriminate C3].
Qed.
Example C120_ex_cdf :
  let o := mkCdf 100 None (Some 20%Z) true true in let X := Some 5 :: None :: ints [1; 2; 2; 8]%Z in
  sane_opts o /\ non_constant (fit_source o X X) /\ match cdf_match o None None X X with Ok (Some a :: None :: Some b :: _) => a == 5 /\ b == 1 | _ => False end.
Proof.
  cbv zeta. split; [vm_compute; repeat constructor|]. split; [exists 5, (inject_Z 1); vm_compute; split; [tauto|]; split; [tauto|]; discriminate|]. vm_compute. repeat split.
Qed.

Print Assumptions C120_min_max.
Print Assumptions C120_linreg_twice.
Print Assumptions C120_linreg_twice_refuted.
Print Assumptions C120_mean_std.
Print Assumptions C120_cdf_itself.
Print Assumptions C120_cdf_twice_refuted.
