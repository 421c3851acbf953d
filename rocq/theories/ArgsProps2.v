(* C101, continued: dictionaries and pandas Series as arguments of calc. *)
From Coq Require Import List ZArith Lia.
From Verif Require Import Base ValidationModel ArgsModel.
Import ListNotations.

(* the list an argument is treated as: the keys of a dictionary that has the key 0 (not its values), the values of a Series that has the label 0 *)
Inductive read_as {A} : arg A -> arg A -> Prop :=
| ra_same x : read_as x x
| ra_dict keys : keys <> [] -> read_as (Dict true keys) (Seq keys)
| ra_series l v : In (0%Z, v) l -> read_as (Series l) (Seq (map snd l)).

Lemma read_as_items A (x y : arg A) : read_as x y -> ensure_iterable x = ensure_iterable y.
Proof.
  intros [z|keys N|l v I]; [reflexivity| |].
  - cbn [ensure_iterable]. destruct keys; [congruence|reflexivity].
  - cbn [ensure_iterable]. assert (E : existsb (fun e => (fst e =? 0)%Z) l = true) by (apply existsb_exists; exists (0%Z, v); split; [exact I|reflexivity]).
    rewrite E. destruct l as [|e l]; [destruct I|]. cbn [map]. rewrite map_map. reflexivity.
Qed.
Theorem C101_read_as :
  forall (A : Type) (g lo la g' lo' la' : arg A) args args', read_as g g' -> read_as lo lo' -> read_as la la' -> Forall2 read_as args args' ->
  locations g lo la args = locations g' lo' la' args'.
Proof.
  intros A g lo la g' lo' la' args args' G LO LA R. unfold locations, args_to_iterable.
  assert (E : map ensure_iterable (g :: lo :: la :: args) = map ensure_iterable (g' :: lo' :: la' :: args')).
  { assert (M : map ensure_iterable args = map ensure_iterable args').
    { induction R as [|x y r r' X R IH]; [reflexivity|]. cbn [map]. rewrite (read_as_items A x y X), IH. reflexivity. }
    cbn [map]. rewrite (read_as_items A g g' G), (read_as_items A lo lo' LO), (read_as_items A la la' LA), M. reflexivity. }
  assert (L : List.length args = List.length args') by (clear E; induction R; cbn; congruence).
  rewrite E. cbn [List.length]. rewrite L. reflexivity.
Qed.
Print Assumptions C101_read_as.
Example C101_read_as_example :
  locations (Seq [1; 2]) (Seq [10; 20]) (Seq [11; 21]) [Dict true [0; 5]; Series [(0%Z, 7); (3%Z, 8)]] = Ok [[It 1; It 10; It 11; It 0; It 7]; [It 2; It 20; It 21; It 5; It 8]]
  /\ read_as (Dict true [0; 5]) (Seq [0; 5]) /\ read_as (Series [(0%Z, 7); (3%Z, 8)]) (Seq [7; 8]).
Proof. split; [reflexivity|]. split; [apply ra_dict; discriminate|]. apply (ra_series [(0%Z, 7); (3%Z, 8)] 7). left. reflexivity. Qed.
