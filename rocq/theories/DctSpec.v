(* Specification for smoothing: what a smooth array is, independent of cosine transforms. *)
From Verif Require Import Base RStats MetricsModel DctModel.
Open Scope R_scope.

(* second difference of a series of length n, the end values being repeated beyond the ends *)
Definition second_diff (n : nat) (v : nat -> R) (i : nat) : R :=
  (if Nat.eqb i 0 then 0 else v (i - 1)%nat - v i) + (if Nat.ltb (S i) n then v (S i) - v i else 0).
(* the sum of the second differences along all axes *)
Fixpoint laplacian (shape : list nat) (z : arr R) (i : index) : R :=
  match shape, i with
  | n :: rest, i0 :: is => second_diff n (fun j => z (j :: is)) i0 + laplacian rest (fun js => z (i0 :: js)) is
  | _, _ => 0
  end.
(* the sum of the squared differences of neighbours along all axes *)
Fixpoint slopes (shape : list nat) (z : arr R) : R :=
  match shape with
  | [] => 0
  | n :: rest => rsum (map (fun i => total rest (fun is => (z (S i :: is) - z (i :: is)) ^ 2)) (seq 0 (n - 1)))
                 + rsum (map (fun i => slopes rest (fun js => z (i :: js))) (seq 0 n))
  end.
(* order 1 penalises slopes, order 2 curvature *)
Definition roughness (order : nat) (shape : list nat) (z : arr R) : R :=
  if Nat.eqb order 1 then slopes shape z else total shape (fun i => laplacian shape z i ^ 2).
(* weighted distance to the data plus s times the roughness *)
Definition penalised (order : nat) (shape : list nat) (s : R) (w y z : arr R) : R :=
  total shape (fun i => w i * (y i - z i) ^ 2) + s * roughness order shape z.

(* a position is a gap if it holds the gap value or is excluded *)
Definition gap (o : options) (data : arr (option R)) (i : index) : Prop :=
  data i = o_gap o \/ exists m, o_exclude o = Some m /\ m i = true.
(* `y` are the data at the positions without gap *)
Definition values_of (o : options) (shape : list nat) (data : arr (option R)) (y : arr R) : Prop :=
  forall i, In i (indices shape) -> ~ gap o data i -> data i = Some (y i).
(* `w` are the weights: none at gaps, otherwise 1 or the given weights divided by the largest one *)
Definition weights_of (o : options) (shape : list nat) (data : arr (option R)) (w : arr R) : Prop :=
  forall i, In i (indices shape) ->
    (gap o data i -> w i = 0) /\
    (~ gap o data i -> match o_weights o with None => w i = 1 | Some (_, v) => exists m, (forall j, In j (indices shape) -> v j <= m) /\ (exists j, In j (indices shape) /\ v j = m) /\ w i * m = v i end).
(* arguments that the documentation asks for: one to three dimensions, at least two values, smoothing along all
   axes, order 1 or 2, weights and initial guess of the shape of the data, weights not negative and not all
   zero, no NaN besides the gaps, at least one iteration, a tolerance below 1, a positive smoothing parameter *)
Definition usable (shape : list nat) (data : arr (option R)) (o : options) : Prop :=
  ((1 <= List.length shape <= 3)%nat /\ (2 <= size shape)%nat) /\ o_axis o = None /\ (o_order o = 1%nat \/ o_order o = 2%nat) /\
  (forall sh w, o_weights o = Some (sh, w) -> sh = shape /\ (forall i, In i (indices shape) -> 0 <= w i) /\ exists i, In i (indices shape) /\ 0 < w i) /\
  (forall sh g, o_init o = Some (sh, g) -> sh = shape) /\
  (forall i, In i (indices shape) -> data i = None -> gap o data i) /\
  (1 <= o_maxiter o)%nat /\ 0 <= o_tolz o < 1 /\ (forall s, o_smooth o = Some s -> 0 < s).
(* z is the only array with the smallest penalised distance *)
Definition best_fit (order : nat) (shape : list nat) (s : R) (w y z : arr R) : Prop :=
  forall z2, penalised order shape s w y z <= penalised order shape s w y z2 /\
    (penalised order shape s w y z2 <= penalised order shape s w y z -> forall i, In i (indices shape) -> z2 i = z i).
(* the same call with another number of iterations, or another initial guess *)
Definition with_maxiter (m : nat) (o : options) : options := Opts (o_smooth o) (o_axis o) (o_weights o) (o_order o) (o_init o) (o_robust o) m (o_tolz o) (o_gap o) (o_exclude o).
Definition with_init (g : list nat * arr R) (o : options) : options := Opts (o_smooth o) (o_axis o) (o_weights o) (o_order o) (Some g) (o_robust o) (o_maxiter o) (o_tolz o) (o_gap o) (o_exclude o).
(* the returned array consists of the numbers z *)
Definition gives (shape : list nat) (out : outcome) (z : arr R) : Prop :=
  exists zz, r_z out = Some zz /\ forall i, In i (indices shape) -> zz i = Some (z i).
(* the call with data (and initial guess) in another unit *)
Definition scaled (k : R) (d : arr (option R)) : arr (option R) := fun i => omap (Rmult k) (d i).
Definition scaled_options (k : R) (o : options) : options :=
  Opts (o_smooth o) (o_axis o) (o_weights o) (o_order o) (omap (fun g => (fst g, fun i => k * snd g i)) (o_init o)) (o_robust o) (o_maxiter o) (o_tolz o) (o_gap o) (o_exclude o).
(* without gaps, with the values y *)
Definition complete (shape : list nat) (data : arr (option R)) (o : options) (y : arr R) : Prop :=
  (forall i, In i (indices shape) -> ~ gap o data i /\ data i = Some (y i)) /\
  (forall sh w, o_weights o = Some (sh, w) -> forall i j, In i (indices shape) -> In j (indices shape) -> w i = w j).
