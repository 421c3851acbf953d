(* C112: the results of the extended collocation in other units. *)
From Coq Require Import Reals Qreals Lia Lra.
From Verif Require Import Base NamesModel GroupingModel MatchersModel RStats RStatsProofs TcolModel TcolSpec TcolProofs TcolProofs2 TcolProps TightProps5 DfMetricsModel EcolModel EcolSpec EcolProps EcolUnitSpec EcolUnitProofs.
Import ListNotations.
Open Scope R_scope.

Theorem C112_units lstsq f g u t co ec ae : least_squares lstsq -> rectangular f -> NoDup (map fst f) -> in_units u t f g -> (forall i, (i < List.length f)%nat -> ~ u i == 0)%Q ->
  identifiable (List.length f) co -> known_of (List.length f) ec -> let cols := map fst f in
  exists d d', fst (ecol lstsq f (named cols co) (named_known cols ec) ae) = Ok d /\
    fst (ecol lstsq g (named cols co) (named_known cols (known_in_units u ec)) ae) = Ok d' /\
    (forall i, (i < List.length f)%nat ->
       dict_get d' ("sig_" ++ name cols i)%string = times (Q2R (u i) * Q2R (u i)) (dict_get d ("sig_" ++ name cols i)%string) /\
       dict_get d' ("snr_" ++ name cols i)%string = dict_get d ("snr_" ++ name cols i)%string /\
       (own_key (name cols i) (named cols co) -> dict_get d' ("err_" ++ name cols i)%string = times (Q2R (u i) * Q2R (u i)) (dict_get d ("err_" ++ name cols i)%string))) /\
    (forall k x y, nth_error co k = Some (x, y) -> own_pair (named cols co) k ->
       dict_get d' (cov_key (name cols x, name cols y)) = times (Q2R (u x) * Q2R (u y)) (dict_get d (cov_key (name cols x, name cols y))) /\
       dict_get d' (corr_key (name cols x, name cols y)) = times (sign_of (Q2R (u x) * Q2R (u y))) (dict_get d (corr_key (name cols x, name cols y)))).
Proof. exact (units_lemma lstsq f g u t co ec ae). Qed.
Print Assumptions C112_units.

(* four columns, the errors of the first two correlated; the first in other units with an offset, the second
   with the opposite sign *)
Definition f4u : frame := [
  ("a", [Some 2; Some 2; None; Some 0; Some 0; Some 1]%Q);
  ("b", [Some 3; Some 1; Some 7; Some 3; Some 1; Some (-1)]%Q);
  ("c", [Some 2; Some (-4); Some 5; Some (-4); Some 2; Some (-2)]%Q);
  ("d", [Some 1; Some 1; Some 1; Some (-1); Some 5; Some 0]%Q)]%string.
Definition g4u : frame := [
  ("a", [Some 205; Some 205; None; Some 5; Some 5; Some 105]%Q);
  ("b", [Some (-3); Some (-1); Some (-7); Some (-3); Some (-1); Some 1]%Q);
  ("c", [Some 2; Some (-4); Some 5; Some (-4); Some 2; Some (-2)]%Q);
  ("d", [Some 1; Some 1; Some 1; Some (-1); Some 5; Some 0]%Q)]%string.
Definition u4 (i : nat) : Q := match i with 0%nat => 100 | 1%nat => -1 | _ => 1 end.
Definition t4 (i : nat) : Q := match i with 0%nat => 5 | _ => 0 end.
Example C112_ex_units : rectangular f4u /\ NoDup (map fst f4u) /\ in_units u4 t4 f4u g4u /\ (forall i, (i < List.length f4u)%nat -> ~ u4 i == 0)%Q /\
  identifiable (List.length f4u) [(0, 1)]%nat /\ known_of (List.length f4u) (Some (0%nat, 1%nat, 2)) /\
  own_key "a" (named (map fst f4u) [(0, 1)]%nat) /\ own_pair (named (map fst f4u) [(0, 1)]%nat) 0 /\ (exists lstsq, least_squares lstsq).
Proof.
  split; [intros c [<-|[<-|[<-|[<-|[]]]]]; reflexivity|]. split; [repeat constructor; cbn; intuition discriminate|]. split.
  { split; [reflexivity|]. intros [|[|[|[|i]]]]; try reflexivity. unfold col. cbn. destruct i; reflexivity. }
  split; [intros [|[|i]] _ E; discriminate E|]. split; [apply C4_model|]. split; [cbn; lia|].
  split; [intros p [<-|[]]; split; discriminate|]. split; [intros [|[|j]] q p H1 H2 N; [congruence|discriminate|discriminate]|exact solver_exists].
Qed.
