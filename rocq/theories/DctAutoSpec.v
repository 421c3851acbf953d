(* Specification for the smoothing parameter: influence of the data on the fit, generalised cross validation. *)
From Verif Require Import Base RStats MetricsModel DctModel DctSpec.
Open Scope R_scope.

(* the array that is 1 at one position and 0 elsewhere *)
Definition impulse (j : index) : arr R := fun i => if list_eq_dec Nat.eq_dec i j then 1 else 0.
(* the number of parameters that the fit uses: how much the fit at a position follows a change of the value
   there, summed over all positions (the trace of the smoother) *)
Definition influence (order : nat) (shape : list nat) (s t : R) : Prop :=
  exists f : index -> arr R, (forall j, In j (indices shape) -> best_fit order shape s (fun _ => 1) (impulse j) (f j)) /\ t = total shape (fun j => f j j).
(* the generalised cross validation score of a residual sum of squares: (rss / m) / (1 - t / n) ^ 2 *)
Definition gcv_of (rss m t n : R) : R := rss / m / (1 - t / n) ^ 2.
(* the score of complete data with the smoothing parameter s *)
Definition gcv_score (order : nat) (shape : list nat) (y : arr R) (s v : R) : Prop :=
  exists u t, best_fit order shape s (fun _ => 1) y u /\ influence order shape s t /\
    v = gcv_of (total shape (fun i => (y i - u i) ^ 2)) (INR (size shape)) t (INR (size shape)).
(* the average influence of one value in a long series *)
Definition average_influence (order : nat) (s h : R) : Prop :=
  (order = 1%nat /\ h = 1 / sqrt (1 + 4 * s)) \/ (order = 2%nat /\ exists a, 0 < a /\ a ^ 2 = 1 + 16 * s /\ 0 < h /\ 2 * (h * a) ^ 2 = 1 + a).
(* the Cauchy weight of a residual r, for the median absolute deviation `mad` of all residuals *)
Definition cauchy (mad h r : R) : R := 1 / (1 + (r / (14826 / 10000 * mad * sqrt (1 - h)) / (2385 / 1000)) ^ 2).
(* the cosine wave with the frequencies k *)
Fixpoint wave (shape : list nat) (k i : index) : R :=
  match shape, k, i with
  | n :: rest, k0 :: ks, i0 :: is => cos (PI * INR k0 * (2 * INR i0 + 1) / (2 * INR n)) * wave rest ks is
  | _, _, _ => 1
  end.
(* an array made of the waves with low frequencies along every axis *)
Definition coarse (keep : nat -> nat) (shape : list nat) (v : arr R) : Prop :=
  exists c : arr R, (forall k, In k (indices shape) -> ~ Forall2 (fun k0 n => (k0 < keep n)%nat) k shape -> c k = 0) /\
    forall i, In i (indices shape) -> v i = total shape (fun k => c k * wave shape k i).
(* values at all positions: those of the data, in gaps the value at the nearest position without gap *)
Definition filled_from (nearest : list nat -> arr bool -> index -> index) (o : options) (shape : list nat) (data : arr (option R)) (y f : arr R) : Prop :=
  exists mask, (forall i, mask i = true <-> gap o data i) /\
    forall i, In i (indices shape) -> (~ gap o data i -> f i = y i) /\
      (gap o data i -> In (nearest shape mask i) (indices shape) -> ~ gap o data (nearest shape mask i) -> f i = y (nearest shape mask i)).
(* a tuple of axes that is accepted: at most as many as the data have; every axis has length one, or is as long as
   the axis at its place counted from the last one and is named once *)
Definition axes_fit (shape : list nat) (axes : list nat) : Prop :=
  (List.length axes <= List.length shape)%nat /\ forall p a, nth_error axes p = Some a -> exists n, nth_error shape a = Some n /\
    (n = 1%nat \/ (nth_error shape (List.length shape - List.length axes + p) = Some n /\ countb (Nat.eqb a) axes = 1%nat)).
