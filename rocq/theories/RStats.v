(* Sample statistics of lists of reals: the vocabulary shared by the scaling and metric models and
   their specifications. *)
From Coq Require Export List Reals.
Export ListNotations.
#[global] Open Scope R_scope.
#[global] Open Scope list_scope.

Fixpoint rsum (l : list R) : R := match l with [] => 0 | x :: r => x + rsum r end.
Definition rlen {A} (l : list A) : R := INR (List.length l).
Definition rmean (l : list R) : R := rsum l / rlen l.

(* pairs of simultaneous values *)
Definition pairs := list (R * R).
Definition xs (d : pairs) : list R := map fst d.
Definition ys (d : pairs) : list R := map snd d.

(* population covariance and variance *)
Definition cov (d : pairs) : R :=
  rmean (map (fun p => (fst p - rmean (xs d)) * (snd p - rmean (ys d))) d).
Definition var (l : list R) : R := rmean (map (fun x => (x - rmean l) * (x - rmean l)) l).
Definition std (l : list R) : R := sqrt (var l).

Definition constant (l : list R) : Prop := forall u v, In u l -> In v l -> u = v.
