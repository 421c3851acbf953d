(* Details of the validation driver and the results files: C32, C33, C69. *)
From Coq Require Import Lia Ascii.
From Verif Require Import ValidationSpec MatchersSpec BaseProofs MatchersProofs ValidationProofs ValidationProofs2 ResultsModel ResultsSpec.
From Verif Require Import TemporalModel TemporalSpec.

(* ---- C32: a calculator for fewer datasets than there are is refused, and nothing else is *)
Theorem C32_calculators_accepted :
  forall (G V : Type) (c : @config G V),
    (init_check c = Ok tt <-> forall n k f, In ((n, k), f) (c_calcs c) -> (List.length (c_ds c) <= n)%nat) /\
    (init_check c = Err EValue <-> exists n k f, In ((n, k), f) (c_calcs c) /\ (n < List.length (c_ds c))%nat).
Proof.
  intros G V c. unfold init_check. match goal with |- context [existsb ?p ?l] => destruct (existsb p l) eqn:E end.
  - apply existsb_exists in E as ([[n k] f] & I & L). apply Nat.ltb_lt in L. cbn [fst] in L. split; split.
    + discriminate.
    + intros H. specialize (H n k f I). lia.
    + intros _. eauto.
    + reflexivity.
  - assert (H : forall n k f, In ((n, k), f) (c_calcs c) -> (List.length (c_ds c) <= n)%nat).
    { intros n k f I. destruct (Nat.le_gt_cases (List.length (c_ds c)) n) as [L|L]; [exact L|]. exfalso.
      apply Bool.not_true_iff_false in E. apply E. apply existsb_exists. exists ((n, k), f). split; [exact I|apply Nat.ltb_lt; exact L]. }
    split; split.
    + intros _. exact H.
    + reflexivity.
    + discriminate.
    + intros (n & k & f & I & L). specialize (H n k f I). lia.
Qed.

(* ---- C33: what is reported at a grid point that fails: the code of the stage, 6 for anything else *)
Theorem C33_reported_status :
  forall (G V : Type) (code : Z -> V) (c : @config G V) (rename only_ref : bool) (g : G) (x : exn) r,
    wf_config c -> attempt code c true rename only_ref g = VErr x ->
    validate_gpi code c true rename only_ref g = VOk r ->
    forall key ms, In (key, ms) r -> exists m m', ms = [m'] /\ template c g key m /\
      match x with VError s => with_status (code s) m m' | PError _ => with_status (code 6%Z) m m' end.
Proof.
  intros G V code c rn oref g x r W A H key ms I. destruct (gpi_failed code c rn oref g x r W A H) as [_ T].
  destruct (T key ms I) as (m & m' & E & P & S1). exists m, m'. split; [exact E|]. split; [exact P|]. destruct x; exact S1.
Qed.
(* reading the data fails: code 8; no data: 7 *)
Corollary C33_reported_no_data :
  forall (G V : Type) (code : Z -> V) (c : @config G V) (rename only_ref : bool) (g : G) r,
    wf_config c -> validate_gpi code c true rename only_ref g = VOk r ->
    forall s, (s = 8%Z /\ exists e, c_get c g = Err e) \/ (s = 7%Z /\ c_get c g = Ok []) ->
    forall key ms, In (key, ms) r -> exists m m', ms = [m'] /\ template c g key m /\ with_status (code s) m m'.
Proof.
  intros G V code c rn oref g r W H s HS key ms I.
  assert (A : attempt code c true rn oref g = VErr (VError s)).
  { destruct HS as [[-> (e & E)]|[-> E]]; unfold attempt; rewrite E; reflexivity. }
  exact (C33_reported_status G V code c rn oref g (VError s) r W A H key ms I).
Qed.

Section Ex33.
Open Scope string_scope.
Definition ex33 : @config nat Z :=
  {| c_ds := [("a", ["x"]); ("b", ["y"])];
     c_get := fun g => if Nat.eqb g 1 then Err EOther else Ok [];
     c_ref := "a"; c_sref := "a"; c_tref := "a"; c_mask := None; c_scale := None;
     c_match := fun _ _ _ => Ok []; c_calcs := [((2, 2)%nat, fun f g => Ok [(FName "status", Arr [(-1)%Z]); (FName "n", Arr [0%Z])])] |}.
Example C33_ex_reported : init_check ex33 = Ok tt /\
  map (validate_gpi (fun z => z) ex33 true true false) [1; 2]%nat =
  [VOk [([("a", "x"); ("b", "y")], [[(FName "status", Arr [8%Z]); (FName "n", Arr [0%Z])]])];
   VOk [([("a", "x"); ("b", "y")], [[(FName "status", Arr [7%Z]); (FName "n", Arr [0%Z])]])]].
Proof. split; vm_compute; reflexivity. Qed.
End Ex33.
Print Assumptions C32_calculators_accepted.
Print Assumptions C33_reported_status.
Print Assumptions C33_reported_no_data.

(* ---- C69: a variable holds the time stamps if its name is "time" in any mixture of cases ---- *)
Section Lower.
Open Scope string_scope.
Open Scope char_scope.
Lemma lower_letter (c l : ascii) : In (l : ascii) ["t"; "i"; "m"; "e"]%list ->
  lower_ascii c = l <-> (c = l \/ exists k, (65 <= k <= 90)%nat /\ c = ascii_of_nat k /\ l = ascii_of_nat (k + 32)).
Proof.
  intros HL. split.
  - intros H. unfold lower_ascii in H. destruct (Nat.leb 65 (nat_of_ascii c) && Nat.leb (nat_of_ascii c) 90)%bool eqn:E; [right|left; exact H].
    apply andb_prop in E as [E1 E2]. apply Nat.leb_le in E1. apply Nat.leb_le in E2. exists (nat_of_ascii c). rewrite ascii_nat_embedding. auto.
  - intros [->|(k & K & -> & ->)].
    + destruct HL as [<-|[<-|[<-|[<-|[]]]]]; reflexivity.
    + unfold lower_ascii. rewrite nat_ascii_embedding by lia. destruct (Nat.leb_spec 65 k); [|lia]. destruct (Nat.leb_spec k 90); [|lia]. reflexivity.
Qed.
Lemma letter (c l : ascii) (k : nat) : In (l : ascii) ["t"; "i"; "m"; "e"]%list -> l = ascii_of_nat (k + 32) -> (65 <= k <= 90)%nat ->
  (lower_ascii c = l <-> c = l \/ c = ascii_of_nat k).
Proof.
  intros HL E K. rewrite (lower_letter c l HL). split; [intros [->|(j & J & -> & E2)]|intros [->| ->]]; [left; reflexivity| |left; reflexivity|right; exists k; auto].
  right. f_equal. rewrite E in E2. apply (f_equal nat_of_ascii) in E2. rewrite !nat_ascii_embedding in E2 by lia. lia.
Qed.
Theorem C69_time_names (s : string) : lower s = "time"%string <->
  exists a b c d, s = String a (String b (String c (String d ""))) /\
    (a = "t" \/ a = "T") /\ (b = "i" \/ b = "I") /\ (c = "m" \/ c = "M") /\ (d = "e" \/ d = "E").
Proof.
  assert (T : forall c, lower_ascii c = "t" <-> c = "t" \/ c = "T") by (intros c; apply (letter c "t" 84); [cbn; auto|reflexivity|lia]).
  assert (I0 : forall c, lower_ascii c = "i" <-> c = "i" \/ c = "I") by (intros c; apply (letter c "i" 73); [cbn; auto|reflexivity|lia]).
  assert (M : forall c, lower_ascii c = "m" <-> c = "m" \/ c = "M") by (intros c; apply (letter c "m" 77); [cbn; auto|reflexivity|lia]).
  assert (E : forall c, lower_ascii c = "e" <-> c = "e" \/ c = "E") by (intros c; apply (letter c "e" 69); [cbn; auto 6|reflexivity|lia]).
  split.
  - destruct s as [|a [|b [|c [|d [|e s]]]]]; cbn [lower]; intros H; try discriminate. injection H as H1 H2 H3 H4.
    exists a, b, c, d. rewrite <- T, <- I0, <- M, <- E. auto.
  - intros (a & b & c & d & -> & A & B & C & D). rewrite <- T in A. rewrite <- I0 in B. rewrite <- M in C. rewrite <- E in D. cbn [lower]. congruence.
Qed.
Example C69_ex_names : map (fun s => String.eqb (lower s) "time") ["time"; "Time"; "TIME"; "tIMe"; "times"; "t"; "4IME"]%string = [true; true; true; true; false; false; false]%list.
Proof. vm_compute. reflexivity. Qed.
End Lower.
Print Assumptions C69_time_names.
