(* Common vocabulary of the pytesmo model: results with exceptions as values,
   missing values, sorted time axes, means over exact numbers. *)
From Coq Require Export List ZArith Bool String Ascii QArith Lia.
From Coq Require Export Sorting.Sorted Sorting.Permutation.
From Coq Require Import Lqa.
Export ListNotations.
#[global] Open Scope Z_scope.
#[global] Open Scope list_scope.

(* Exceptions that the modelled code can raise, as values. *)
Inductive err : Type :=
| EValue        (* ValueError *)
| EKey          (* KeyError *)
| EIndex        (* IndexError *)
| EType         (* TypeError *)
| ENotImpl      (* NotImplementedError *)
| EOther.       (* any other exception *)

Inductive res (A : Type) : Type :=
| Ok (a : A)
| Err (e : err).
Arguments Ok {A} a.
Arguments Err {A} e.

Definition bindR {A B} (x : res A) (f : A -> res B) : res B :=
  match x with Ok a => f a | Err e => Err e end.

Definition mapR {A B} (f : A -> B) (x : res A) : res B :=
  match x with Ok a => Ok (f a) | Err e => Err e end.

(* sequencing a list of results: python's evaluation of a list comprehension
   whose elements may raise (the first exception wins). *)
Fixpoint seqR {A} (l : list (res A)) : res (list A) :=
  match l with
  | [] => Ok []
  | x :: r => bindR x (fun a => bindR (seqR r) (fun b => Ok (a :: b)))
  end.

(* A numeric cell: [None] is NaN. *)
Definition cell := option Q.
Definition is_nan {A} (c : option A) : bool := match c with None => true | _ => false end.
Definition notna {A} (c : option A) : bool := negb (is_nan c).

(* non-missing values of a list of cells *)
Fixpoint vals {A} (l : list (option A)) : list A :=
  match l with
  | [] => []
  | None :: r => vals r
  | Some x :: r => x :: vals r
  end.

Fixpoint qsum (l : list Q) : Q :=
  match l with [] => 0%Q | x :: r => (x + qsum r)%Q end.

Definition qlen {A} (l : list A) : Q := inject_Z (Z.of_nat (List.length l)).

Definition qmean (l : list Q) : Q := (qsum l / qlen l)%Q.

(* numpy.nanmean of a 1-d array: NaN if there is no non-NaN value *)
Definition nanmean (l : list cell) : cell :=
  match vals l with [] => None | v => Some (qmean v) end.

(* equality of cells up to equality of rationals *)
Definition ceq (a b : cell) : Prop :=
  match a, b with
  | None, None => True
  | Some x, Some y => (x == y)%Q
  | _, _ => False
  end.

Fixpoint map2 {A B C} (f : A -> B -> C) (l : list A) (m : list B) : list C :=
  match l, m with
  | a :: l', b :: m' => f a b :: map2 f l' m'
  | _, _ => []
  end.

(* numpy boolean mask indexing a[mask] for equal lengths *)
Fixpoint mask_select {A} (m : list bool) (l : list A) : list A :=
  match m, l with
  | b :: m', a :: l' => if b then a :: mask_select m' l' else mask_select m' l'
  | _, _ => []
  end.

(* pandas Index.duplicated(keep="first") complement: keep the first entry for each key *)
Fixpoint dedup_aux {A} (key : A -> Z) (seen : list Z) (l : list A) : list A :=
  match l with
  | [] => []
  | a :: r =>
      if existsb (Z.eqb (key a)) seen then dedup_aux key seen r
      else a :: dedup_aux key (key a :: seen) r
  end.
Definition dedup_first {A} (key : A -> Z) (l : list A) : list A := dedup_aux key [] l.

Fixpoint sortedb (l : list Z) : bool :=
  match l with
  | [] => true
  | x :: r => match r with [] => true | y :: _ => (x <=? y) && sortedb r end
  end.

(* last position in a list satisfying / counting *)
Definition countb {A} (p : A -> bool) (l : list A) : nat := List.length (filter p l).

