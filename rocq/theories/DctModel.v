(* Model of pytesmo.interpolate.dctpls: smoothing of 1-, 2- and 3-dimensional data by the discrete cosine
   transform.  Arrays are functions of a multi-index with a shape; float32 and other rounding is idealised.
   log, 10 ** p and the cosine are the real functions. *)
From Verif Require Import Base RStats MetricsModel.
Open Scope R_scope.

(* a multi-index, and an array; only the indices inside of the shape count *)
Notation index := (list nat).
Notation arr A := (list nat -> A).
(* all indices of an array of the given shape *)
Fixpoint indices (shape : list nat) : list index :=
  match shape with
  | [] => [[]]
  | n :: rest => flat_map (fun i => map (cons i) (indices rest)) (seq 0 n)
  end.
Definition size (shape : list nat) : nat := List.length (indices shape).
Definition total (shape : list nat) (f : arr R) : R := rsum (map f (indices shape)).
(* np.linalg.norm of the values at the given positions, squared *)
Definition norm2 (l : list R) : R := rsum (map (fun v => v ^ 2) l).

(* scipy.fftpack.dct / idct of type 2 with norm="ortho": coefficient k of a series of length n at position i *)
Definition kernel (n k i : nat) : R :=
  sqrt ((if Nat.eqb k 0 then 1 else 2) / INR n) * cos (PI * INR k * (2 * INR i + 1) / (2 * INR n)).

(* dctpls.py 125-162: dctNd.  The transform is applied along axis 0, then along the following axes.  The
   shape has one to three dimensions, otherwise ValueError; that test is in smoothn below *)
Fixpoint dctNd (shape : list nat) (y : arr R) (k : index) : R :=
  match shape, k with
  | n :: rest, k0 :: ks => dctNd rest (fun is => rsum (map (fun i => kernel n k0 i * y (i :: is)) (seq 0 n))) ks
  | _, _ => y []
  end.
Fixpoint idctNd (shape : list nat) (c : arr R) (i : index) : R :=
  match shape, i with
  | n :: rest, i0 :: is => idctNd rest (fun ks => rsum (map (fun k => kernel n k i0 * c (k :: ks)) (seq 0 n))) is
  | _, _ => c []
  end.

(* dctpls.py 544-546: the eigenvalue of one axis *)
Definition lambda1 (n k : nat) : R := 2 - 2 * cos (PI * INR k / INR n).

(* the argument axis: an integer, or a tuple of axes *)
Inductive axis_arg := AxInt (a : nat) | AxTuple (l : list nat).

(* dctpls.py 533-549: Lambda.  For a tuple of r axes the eigenvalues of its entry p are reshaped to r
   dimensions with all but dimension p of length one, and broadcast against the data from the last axis on:
   they are added along axis ndim - r + p, whatever the axis was *)
Definition lambda_entry (shape : list nat) (r p ax : nat) (axes : list nat) : res (arr R) :=
  match nth_error shape ax with
  | None => Err EIndex
  | Some n =>
    if Nat.ltb 1 (countb (Nat.eqb ax) axes) && negb (Nat.eqb n 1) then Err EValue (* reshape *)
    else if Nat.ltb (List.length shape) r then Err EValue (* broadcast *)
    else let target := (List.length shape - r + p)%nat in
         if Nat.eqb n 1 then Ok (fun _ => lambda1 1 0)
         else if Nat.eqb n (nth target shape 0%nat) then Ok (fun k => lambda1 n (nth target k 0%nat))
         else Err EValue
  end.
Fixpoint lambda_sum (shape : list nat) (r p : nat) (axes rest : list nat) (acc : arr R) : res (arr R) :=
  match rest with
  | [] => Ok acc
  | ax :: rest' => bindR (lambda_entry shape r p ax axes) (fun l => lambda_sum shape r (S p) axes rest' (fun k => acc k + l k))
  end.
Definition lambda (shape : list nat) (axis : option axis_arg) : res (arr R) :=
  match axis with
  | Some (AxInt _) => Err EType (* enumerate of an integer *)
  | None => let axes := seq 0 (List.length shape) in lambda_sum shape (List.length axes) 0 axes axes (fun _ => 0)
  | Some (AxTuple axes) => lambda_sum shape (List.length axes) 0 axes axes (fun _ => 0)
  end.

(* dctpls.py 165-249: gcv for smooth = 10 ** p, the score with Gamma.  y None is NaN; a vanishing
   denominator of the score is NaN or infinite: None.  (TrH is only returned.) *)
Definition gamma (s : R) (lam : arr R) (order : nat) (k : index) : R := 1 / (1 + s * lam k ^ order).
Definition np_isfinite {A} (v : option A) : bool := match v with Some _ => true | None => false end.
Definition gcv_rss (shape : list nat) (s : R) (lam : arr R) (dcty : arr R) (y : arr (option R)) (order : nat) (wtot : option (arr R)) : R :=
  match wtot with
  | None => norm2 (map (fun k => dcty k * (gamma s lam order k - 1)) (indices shape))
  | Some w =>
    let yhat := idctNd shape (fun k => gamma s lam order k * dcty k) in
    norm2 (flat_map (fun i => match y i with Some v => [sqrt (w i) * (v - yhat i)] | None => [] end) (indices shape))
  end.
Definition gcv (shape : list nat) (s : R) (lam : arr R) (dcty : arr R) (y : arr (option R)) (order : nat) (wtot : option (arr R)) : res (option R * arr R) :=
  if (Nat.eqb order 1 || Nat.eqb order 2)%bool then
    let nfin := countb (fun i => np_isfinite (y i)) (indices shape) in
    let trh := total shape (gamma s lam order) in
    Ok (obind (fdiv (gcv_rss shape s lam dcty y order wtot) (INR nfin)) (fun q => fdiv q ((1 - trh / INR (size shape)) ^ 2)),
        gamma s lam order)
  else Err EValue.

(* dctpls.py 277-347: RobustWeights with the method "cauchy".  `mask` True marks residuals to ignore when the
   spread is estimated; without mask every residual is marked.  A spread of zero or NaN, and h = 1, make the
   studentised residuals NaN or infinite: weight 0 *)
Definition robust_spread (shape : list nat) (res : arr R) (mask : option (arr bool)) : option R :=
  let used := filter (fun i => negb (match mask with Some m => m i | None => true end)) (indices shape) in
  obind (np_median (map res used)) (fun med => np_median (map (fun i => Rabs (res i - med)) used)).
Definition robust_weights (shape : list nat) (res : arr R) (h : R) (mask : option (arr bool)) (i : index) : R :=
  match robust_spread shape res mask with
  | None => 0
  | Some mad =>
    if Req_EM_T mad 0 then 0 else
    if Rlt_dec h 1 then
      let u := Rabs (res i / (14826 / 10000 * mad)) / sqrt (1 - h) in 1 / (1 + (u / (2385 / 1000)) ^ 2)
    else 0
  end.
(* the methods: cauchy, others that are named but not implemented, unknown ones *)
Definition RobustWeights (shape : list nat) (res : arr R) (h : R) (mask : option (arr bool)) (method : string) : Base.res (arr R) :=
  if String.eqb method "cauchy" then Ok (robust_weights shape res h mask)
  else if (String.eqb method "talworth" || String.eqb method "bisquare")%bool then Err ENotImpl
  else Err EValue.

(* dctpls.py 699-703: the leverage h *)
Definition leverage (order : nat) (s : R) : R :=
  if Nat.eqb order 1 then 1 / sqrt (1 + 4 * s)
  else let h := sqrt (1 + 16 * s) in sqrt (1 + h) / sqrt 2 / h.

(* dctpls.py 552-562: the bounds of the smoothing parameter *)
Definition s_bound (order ndim : nat) (h : R) : R :=
  let q := Rpower h (2 / INR ndim) in
  if Nat.eqb order 1 then (1 / q - 1) / 4 else (((1 + sqrt (1 + 8 * q)) / 4 / q) ^ 2 - 1) / 16.
Definition log10 (x : R) : R := ln x / ln 10.

Section Smoothn.
(* scipy.optimize.fminbound(f, x1, x2, xtol): the best parameter found *)
Variable fminbound : (R -> option R) -> R -> R -> R -> R.
(* scipy.ndimage.distance_transform_edt(mask, sampling): the nearest position that is not marked *)
Variable nearest : list nat -> arr bool -> index -> index.
(* np.ceil(n * 0.1): the number of coefficients kept by the coarse initial smoothing *)
Variable keep : nat -> nat.

(* dctpls.py 48-122: calc_init_guess with mask *)
Fixpoint inside (shape : list nat) (k : index) : bool :=
  match shape, k with
  | n :: rest, k0 :: ks => Nat.ltb k0 (keep n) && inside rest ks
  | _, _ => true
  end.
Definition calc_init_guess (shape : list nat) (y : arr R) (mask : arr bool) : arr R :=
  let filled i := if mask i then y (nearest shape mask i) else y i in
  let c := dctNd shape filled in
  idctNd shape (fun k => if inside shape k then c k else 0).

Record options := Opts {
  o_smooth : option R;  o_axis : option axis_arg;  o_weights : option (list nat * arr R);  o_order : nat;
  o_init : option (list nat * arr R);  o_robust : bool;  o_maxiter : nat;  o_tolz : R;  o_gap : option R;
  o_exclude : option (arr bool) }.

(* the tolerance: a number, infinite (x / 0), or NaN (0 / 0) *)
Inductive tolerance := TolNum (t : R) | TolInf | TolNaN.
Definition exceeds (t : tolerance) (tolz : R) : bool :=
  match t with TolNum t => if Rlt_dec tolz t then true else false | TolInf => true | TolNaN => false end.

(* the variables of the iteration *)
Record state := St { z : arr R; z0 : arr R; tol : tolerance; pbest : R; smooth : option R; wtot : arr R; score : option R; isweighted : bool }.

(* dctpls.py 679-682: tol *)
Definition next_tol (shape : list nat) (weighted : bool) (valid : arr bool) (znew zold : arr R) : tolerance :=
  let pos := filter valid (indices shape) in
  let dz := if weighted then sqrt (norm2 (map (fun i => znew i - zold i) pos)) else 0 in
  let nz := sqrt (norm2 (map znew pos)) in
  if Req_EM_T nz 0 then (if Req_EM_T dz 0 then TolNaN else TolInf) else TolNum (dz / nz).

(* np.log2(j).is_integer() for j >= 1 *)
Definition power_of_two (j : nat) : bool := Nat.eqb (2 ^ Nat.log2 j) j.

Section Iteration.
Variable shape : list nat.
Variable order : nat.
Variable lam : arr R.
Variable data : arr R.        (* after the gaps have been set to 0 *)
Variable valid : arr bool.
Variable weights : arr R.
Variable rf : R.
Variable given : option R.    (* the argument smooth *)
Variable tolz : R.

(* dctpls.py 622-623: weights are passed on unless their mean is at least one *)
Definition weights_arg (w : arr R) : option (arr R) :=
  if Rle_dec 1 (total shape w / INR (size shape)) then None else Some w.
(* 10 ** p *)
Definition pow10 (p : R) : R := Rpower 10 p.

(* dctpls.py 608-688: one pass of the inner loop; the error on p is 0.1.  A given smoothing parameter is
   taken as 10 ** (log smooth / log 10): 0 stays 0 *)
Definition inner_step (j : nat) (st : state) : res state :=
  let c := dctNd shape (fun i => wtot st i * (data i - z st i) + z st i) in
  let w := weights_arg (wtot st) in
  let y := fun i => Some (data i) in
  let objective p := match gcv shape (pow10 p) lam c y order w with Ok r => fst r | Err _ => None end in
  let p := match given with
           | Some s => log10 s
           | None => if (Nat.eqb j 0 || power_of_two j)%bool
                     then fminbound objective (log10 (s_bound order (List.length shape) (99 / 100))) (log10 (s_bound order (List.length shape) (1 / 1000000))) (1 / 10)
                     else pbest st
           end in
  let s := match given with Some s => if Req_EM_T s 0 then 0 else pow10 p | None => pow10 p end in
  bindR (gcv shape s lam c y order w) (fun sg =>
  let zi := idctNd shape (fun k => snd sg k * c k) in
  let znew i := rf * zi i + (1 - rf) * z st i in
  Ok (St znew znew (next_tol shape (isweighted st) valid znew (z0 st)) p (Some s) (wtot st) (fst sg) (isweighted st))).

(* dctpls.py 604: while tol > TolZ and j < MaxIter *)
Fixpoint inner (fuel j : nat) (st : state) : res state :=
  match fuel with
  | O => Ok st
  | S f => if exceeds (tol st) tolz then bindR (inner_step j st) (inner f (S j)) else Ok st
  end.

(* dctpls.py 599-723: the robust process; exit_flag becomes 3 if the index i of the outer loop has reached
   MaxIter *)
Fixpoint outer (robust : bool) (maxiter : nat) (rounds i : nat) (flag : Z) (st : state) : res (state * Z) :=
  match rounds with
  | O => Ok (st, flag)
  | S r =>
    bindR (inner maxiter 0 st) (fun st =>
    let flag := if (Nat.leb maxiter i && exceeds (tol st) tolz)%bool then 3%Z else flag in
    if robust then
      match smooth st with
      | None => Err EType (* arithmetic with None *)
      | Some s =>
        let w := robust_weights shape (fun i => data i - z st i) (leverage order s) (Some (fun i => negb (valid i))) in
        outer robust maxiter r (S i) flag
          (St (z st) (z0 st) (TolNum 1) (pbest st) (smooth st) (fun i => weights i * w i) (score st) true)
      end
    else Ok (st, flag))
  end.
End Iteration.

(* what smoothn returns: z (None if nothing was computed; its values None for NaN), smooth, exit_flag, the
   statistics, and the content of the argument `data` afterwards *)
Record outcome := Out { r_z : option (arr (option R)); r_smooth : option R; r_flag : Z;
  r_init : option (arr R); r_distance : option (arr R); r_weights : option (arr R); r_score : option R; r_data : arr (option R) }.

Definition arr_max (shape : list nat) (w : arr R) : R :=
  match indices shape with [] => 0 | i :: r => fold_left (fun m j => Rmax m (w j)) r (w i) end.
(* dctpls.py 512-515: np.isfinite(data), or data != gap_value for a number, and not excluded *)
Definition valid_at (o : options) (data : arr (option R)) (i : index) : bool :=
  (match o_gap o with
   | None => np_isfinite (data i)
   | Some g => match data i with Some v => if Req_EM_T v g then false else true | None => true end
   end && match o_exclude o with Some m => negb (m i) | None => true end)%bool.
(* NaN everywhere but at the excluded positions, which get the gap value (743-745) *)
Definition all_nan (o : options) : arr (option R) := fun i => match o_exclude o with Some m => if m i then o_gap o else None | None => None end.

(* dctpls.py 350-750: smoothn; every statistic is requested, exit messages and debugging are left out.
   NaN that stays in data (a number as gap_value), in the weights (largest weight 0) or comes from a negative
   smoothing parameter spreads over all values of the result through the transform: that branch is short-cut here
   (for TolZ below 1 and MaxIter at least 1), with the smoothing parameter not determined *)
Definition smoothn (shape : list nat) (data : arr (option R)) (o : options) : res outcome :=
  bindR (match o_weights o with
         | None => Ok (fun _ : index => Some 1)
         | Some (sh, w) =>
           if list_eq_dec Nat.eq_dec sh shape then
             if Nat.eqb (size shape) 0 then Err EValue (* maximum of nothing *)
             else Ok (fun i => fdiv (w i) (arr_max shape w))
           else Err EValue
         end) (fun weights =>
  if Nat.ltb (size shape) 2 then Ok (Out None (o_smooth o) 2 None None None None data) else
  let valid := valid_at o data in
  let cleared i := if valid i then data i else Some 0 in
  let weight i := if valid i then weights i else Some 0 in
  let negative i := match weight i with
                    | Some w => if Rlt_dec w 0 then true else false
                    | None => match o_weights o with Some (_, w) => if Rlt_dec (w i) 0 then true else false | None => false end (* -inf *)
                    end in
  if existsb negative (indices shape) then Err EValue else
  bindR (lambda shape (o_axis o)) (fun lam =>
  let y i := match cleared i with Some v => v | None => 0 end in
  let w i := match weight i with Some v => v | None => 0 end in
  let weighted := existsb (fun i => if Req_EM_T (w i) 1 then false else true) (indices shape) in
  bindR (match o_init o with
         | Some (sh, g) => if list_eq_dec Nat.eq_dec sh shape then Ok g else Err EOther (* AssertionError *)
         | None => Ok (if weighted then calc_init_guess shape y (fun i => negb (valid i)) else (fun _ => 0))
         end) (fun start =>
  if (Nat.eqb (List.length shape) 0 || Nat.ltb 3 (List.length shape))%bool then Err EValue (* dctNd *) else
  let nan_left := (existsb (fun i => is_nan (cleared i) || is_nan (weight i)) (indices shape) ||
                   match o_smooth o with Some s => if Rlt_dec s 0 then true else false | None => false end)%bool in
  if nan_left then (if (Nat.eqb (o_order o) 1 || Nat.eqb (o_order o) 2)%bool then Ok (Out (Some (all_nan o)) None 1 None None None None cleared) else Err EValue) else
  let rf := if weighted then 7 / 4 else 1 in
  bindR (outer shape (o_order o) lam y valid w rf (o_smooth o) (o_tolz o) (o_robust o) (o_maxiter o) 3 0 1
           (St start start (TolNum 1) 0 (o_smooth o) w None weighted)) (fun sf =>
  let st := fst sf in
  bindR (match o_smooth o, smooth st with None, None => Err EType (* log10(None) *) | _, _ => Ok tt end) (fun _ =>
  let zout i := match o_exclude o with Some m => if m i then o_gap o else Some (z st i) | None => Some (z st i) end in
  Ok (Out (Some zout) (smooth st) (snd sf) (Some start) None (Some (wtot st)) (score st) cleared)))))).
End Smoothn.
