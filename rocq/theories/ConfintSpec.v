(* Independent statements of what the confidence intervals promise. *)
From Coq Require Import Reals List Sorting.Sorted Sorting.Permutation.
From Verif Require Import RStats.
Open Scope R_scope.

(* what np.random.choice(n, size=n) can return *)
Definition draw_of (n : nat) (idx : list nat) : Prop := List.length idx = n /\ Forall (fun i => (i < n)%nat) idx.

(* a bootstrap sample: as many pairs as there are observations, each of them an observed pair *)
Definition resample_of (x y : list R) (s : list R * list R) : Prop :=
  List.length (fst s) = List.length x /\ List.length (snd s) = List.length y /\
  incl (combine (fst s) (snd s)) (combine x y).

(* v is the k-th smallest of the values *)
Definition order_statistic (k : nat) (l : list R) (v : R) : Prop :=
  exists s, Permutation l s /\ StronglySorted Rle s /\ nth_error s k = Some v.

(* v is the q-quantile by linear interpolation between neighbouring order statistics: with the values
   placed at the levels 0, 1/(n-1), ..., 1, v lies on the segment over the pair of values around q *)
Definition linear_quantile (l : list R) (q v : R) : Prop :=
  exists k a b, order_statistic k l a /\ (order_statistic (S k) l b \/ (S k = List.length l /\ b = a)) /\
    let h := q * (rlen l - 1) in INR k <= h < INR k + 1 /\ v = a + (h - INR k) * (b - a).

(* lo, up enclose m *)
Definition encloses (ci : R * R) (m : R) : Prop := fst ci <= m <= snd ci.
Definition inside (inner outer : R * R) : Prop := fst outer <= fst inner /\ snd inner <= snd outer.
