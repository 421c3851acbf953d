(* Confidence intervals at different levels, in other units and for exchanged series. *)
From Coq Require Import Reals List.
From Verif Require Import Base MetricsModel ConfintModel.
Open Scope R_scope.

(* the quantiles of a distribution that is symmetric to 0 *)
Definition symmetric_quantiles (ppf : R -> R) : Prop :=
  (forall p q, 0 < p -> p <= q -> q < 1 -> ppf p <= ppf q) /\ ppf (1 / 2) = 0.

(* (lo, up) lies within (lo', up'); a missing bound is missing in both *)
Definition bound_le (a b : option R) : Prop := match a, b with Some a, Some b => a <= b | None, None => True | _, _ => False end.
Definition within (narrow wide : option R * option R) : Prop := bound_le (fst wide) (fst narrow) /\ bound_le (snd narrow) (snd wide).

(* every sample has the metric k * v + c in the other data where it has v in the given ones *)
Definition same_metric (k c : R) (metric metric' : list R -> list R -> option R) (x y x' y' : list R) : Prop :=
  List.length x' = List.length x /\ List.length y' = List.length y /\
  forall idx, Forall (fun i => (i < List.length x)%nat) idx ->
    metric' (map (fun i => nth i x' 0) idx) (map (fun i => nth i y' 0) idx) =
    omap (fun v => k * v + c) (metric (map (fun i => nth i x 0) idx) (map (fun i => nth i y 0) idx)).
(* an estimate with its interval on the other scale; a negative factor exchanges the bounds *)
Definition moved (k c : R) (r : option R * option R * option R) : option R * option R * option R :=
  let g := omap (fun v => k * v + c) in
  let '(m, lo, up) := r in
  if Rlt_dec 0 k then (g m, g lo, g up) else (g m, g up, g lo).

(* the interval of Kendall's tau in the reference the code cites (Bonett and Wright 2000): the half width on
   the scale of arctanh *)
Definition bonett_wright_kendall (z : R) (n : nat) : R := z * sqrt (437 / 1000 / (INR n - 4)).
