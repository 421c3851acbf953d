(* Tightened after mutation tests: which error a negative reference index of `scale` raises. *)
From Coq Require Import ZArith List String Lia Bool.
From Verif Require Import Base ScalingModel ScalingProofs.
Import ListNotations.
Open Scope Z_scope.

(* -1 is the last column, -2 the one before, ...: such an index finds its column and scales the others, then ValueError is
   raised; an index before the first column raises IndexError *)
Theorem C21_negative_index :
  forall (impl : string -> list cell -> list cell -> res (list cell)) (df : frame) (method : string) (k : nat),
    In method scaling_methods ->
    ((1 <= k <= List.length df)%nat ->
     forall r rv, nth_error df (List.length df - k) = Some (r, rv) ->
       (forall n v, In (n, v) df -> n <> r -> exists w, impl method v rv = Ok w) ->
       scale impl df method (- Z.of_nat k) = Err EValue) /\
    ((List.length df < k)%nat -> scale impl df method (- Z.of_nat k) = Err EIndex).
Proof.
  intros impl df method k M. unfold scale.
  assert (E : existsb (String.eqb method) scaling_methods = true) by (apply existsb_exists; exists method; split; [exact M|apply String.eqb_refl]).
  rewrite E. unfold scale_with. cbv zeta. split.
  - intros K r rv N H. assert (G : (- Z.of_nat k <? 0) = true) by lia. rewrite G.
    assert (G2 : ((0 <=? - Z.of_nat k + Z.of_nat (List.length df)) && (- Z.of_nat k + Z.of_nat (List.length df) <? Z.of_nat (List.length df))) = true) by lia. rewrite G2.
    replace (Z.to_nat (- Z.of_nat k + Z.of_nat (List.length df))) with (List.length df - k)%nat by lia. rewrite N.
    destruct (scale_seq (impl method) rv (filter (fun c => negb (String.eqb (fst c) r)) df)) as (out & S & _).
    { intros [n v] I. apply filter_In in I as [I J]. cbn [fst snd] in *. apply (H n v I). intros ->. rewrite String.eqb_refl in J. discriminate. }
    rewrite S. reflexivity.
  - intros K. assert (G : (- Z.of_nat k <? 0) = true) by lia. rewrite G.
    assert (G2 : ((0 <=? - Z.of_nat k + Z.of_nat (List.length df)) && (- Z.of_nat k + Z.of_nat (List.length df) <? Z.of_nat (List.length df))) = false) by lia. rewrite G2. reflexivity.
Qed.
Print Assumptions C21_negative_index.
Example C21_negative_index_met :
  let df := [("a", [Some 1%Q]); ("b", [Some 2%Q])]%string in let impl := fun _ v _ => Ok v in
  scale impl df "linreg"%string (-1) = Err EValue /\ scale impl df "linreg"%string (-2) = Err EValue /\ scale impl df "linreg"%string (-3) = Err EIndex.
Proof. vm_compute. auto. Qed.
