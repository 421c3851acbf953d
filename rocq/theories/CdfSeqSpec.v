(* Specification vocabulary for percentiles given as a list (C109). *)
From Verif Require Export CdfSpec.
From Coq Require Import Permutation.
Open Scope Q_scope.

(* the rank of the i-th of n observations, in per cent: half a step off the ends *)
Definition rank (n i : nat) : Q := 100 * (inject_Z (Z.of_nat i) + (1 # 2)) / inject_Z (Z.of_nat n).

(* [v] is the [p]-th percentile of the observations: the smallest one up to its rank, the largest one
   from its rank on, and on the straight line between two neighbours in between *)
Definition percentile_of (data : list Q) (p v : Q) : Prop :=
  exists s, Permutation s data /\ non_decreasing s /\
    let n := List.length s in
    ((exists a, nth_error s 0 = Some a /\ p <= rank n 0 /\ v == a) \/
     (exists a, nth_error s (n - 1) = Some a /\ rank n (n - 1) <= p /\ v == a) \/
     (exists i a b, nth_error s i = Some a /\ nth_error s (S i) = Some b /\
        rank n i <= p /\ p <= rank n (S i) /\
        v == a + (p - rank n i) * ((b - a) / (rank n (S i) - rank n i)))).

(* two of the percentiles have the same value, though not all observations are equal *)
Definition tied (data ps : list Q) : Prop :=
  non_constant data /\
  exists p q v, In p ps /\ In q ps /\ p < q /\ percentile_of data p v /\ percentile_of data q v.

(* no bin is below the wanted number of observations, so the percentiles are used as they are *)
Definition bins_kept (o : cdf_opts) (ps : list Q) (n : nat) : Prop :=
  match c_minobs o with
  | None => True
  | Some m => forall i a b, nth_error ps i = Some a -> nth_error ps (S i) = Some b ->
                inject_Z m <= inject_Z (Z.of_nat n) * (b - a) / 100
  end.
