(* The error model of triple / extended collocation and the least squares problem. *)
From Coq Require Import Reals List.
From Verif Require Export RStats.

(* Covariances generated by a common signal of variance s, gains b, error variances e and independent
   errors, for n datasets. *)
Definition error_model (n : nat) (C : nat -> nat -> R) (s : R) (b e : nat -> R) : Prop :=
  (forall i, (i < n)%nat -> C i i = b i * b i * s + e i) /\
  (forall i j, (i < n)%nat -> (j < n)%nat -> i <> j -> C i j = b i * b j * s).

(* the same with error covariances eps that vanish for the pairs that are not listed as correlated *)
Definition correlated_error_model (n : nat) (C : nat -> nat -> R) (s : R) (b e : nat -> R) (eps : nat -> nat -> R)
  (correlated : list (nat * nat)) : Prop :=
  (forall i, (i < n)%nat -> C i i = b i * b i * s + e i) /\
  (forall i j, (i < n)%nat -> (j < n)%nat -> i <> j -> C i j = b i * b j * s + eps i j) /\
  (forall i j, ~ In (i, j) correlated -> ~ In (j, i) correlated -> eps i j = 0).

(* decibel *)
Definition dB (x : R) : R := 10 * (ln x / ln 10).

(* normal equations of the least squares problem A x = y with nx unknowns *)
Definition dot (nx : nat) (r x : nat -> R) : R := rsum (map (fun c => r c * x c) (seq 0 nx)).
Definition normal_equations (A : list (nat -> R)) (y : list R) (nx : nat) (x : nat -> R) : Prop :=
  forall c, (c < nx)%nat -> rsum (map (fun ry => fst ry c * (dot nx (fst ry) x - snd ry)) (combine A y)) = 0.
Definition full_rank (A : list (nat -> R)) (nx : nat) : Prop :=
  forall v, (forall r, In r A -> dot nx r v = 0) -> forall c, (c < nx)%nat -> v c = 0.

(* what is assumed of the solver (numpy: (A.T A)^-1 A.T y): its answers solve the normal equations, and it
   answers when A has full rank and the normal equations have a solution *)
Definition least_squares (lstsq : list (nat -> R) -> list R -> nat -> option (nat -> R)) : Prop :=
  (forall A y nx x, lstsq A y nx = Some x -> normal_equations A y nx x) /\
  (forall A y nx, full_rank A nx -> (exists x, normal_equations A y nx x) -> exists x, lstsq A y nx = Some x).

(* enough uncorrelated datasets for every variance and every error covariance *)
Definition uncorrelated (co : list (nat * nat)) (a b : nat) : Prop := ~ In (a, b) co /\ ~ In (b, a) co.
Definition identifiable (n : nat) (co : list (nat * nat)) : Prop :=
  (forall c, (c < n)%nat -> exists a b, (a < n)%nat /\ (b < n)%nat /\ a <> c /\ b <> c /\ a <> b /\
     uncorrelated co c a /\ uncorrelated co c b /\ uncorrelated co a b) /\
  (forall p, In p co -> (fst p < n)%nat /\ (snd p < n)%nat /\ fst p <> snd p /\ exists a b, (a < n)%nat /\ (b < n)%nat /\ a <> fst p /\ a <> snd p /\ b <> fst p /\ b <> snd p /\ a <> b /\
     uncorrelated co (fst p) a /\ uncorrelated co (snd p) b /\ uncorrelated co a b).
