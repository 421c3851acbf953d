(* Model of src/pytesmo/cdf_matching.py over exact rationals.  Inputs are lists of cells; infinite
   values are not modelled, so "finite" means "not missing". *)
From Verif Require Export Base.
From Coq Require Export Qminmax Qround.
#[global] Open Scope Z_scope.

(* ------------------------------------------------------ numeric toolkit *)

(* np.sort *)
Fixpoint q_insert (x : Q) (l : list Q) : list Q :=
  match l with
  | [] => [x]
  | y :: r => if Qle_bool x y then x :: l else y :: q_insert x r
  end.
Definition q_sort (l : list Q) : list Q := fold_right q_insert [] l.

(* the line through two points *)
Definition seg (a b : Q * Q) (x : Q) : Q :=
  (snd a + (x - fst a) * ((snd b - snd a) / (fst b - fst a)))%Q.

(* scipy.interpolate.InterpolatedUnivariateSpline(k=1, ext=0): piecewise linear through all
   points, the first and last segments extended *)
Fixpoint lin_interp (a : Q * Q) (r : list (Q * Q)) (x : Q) : Q :=
  match r with
  | [] => snd a
  | b :: r' => match r' with
               | [] => seg a b x
               | _ => if Qle_bool x (fst b) then seg a b x else lin_interp b r' x
               end
  end.

Fixpoint strictly_incb (l : list Q) : bool :=
  match l with
  | [] => true
  | x :: r => match r with [] => true | y :: _ => negb (Qle_bool y x) && strictly_incb r end
  end.

(* the spline object: ValueError unless x is strictly increasing, the lengths agree and there are
   at least two points *)
Definition spline (xs ys : list Q) : res (Q -> Q) :=
  if Nat.eqb (List.length xs) (List.length ys) && strictly_incb xs
  then match combine xs ys with
       | a :: b :: r => Ok (lin_interp a (b :: r))
       | _ => Err EValue
       end
  else Err EValue.

(* np.interp(p, xp, fp, left=fp[0], right=fp[-1]) for increasing xp *)
Definition np_interp (a : Q * Q) (r : list (Q * Q)) (p : Q) : Q :=
  if Qle_bool p (fst a) then snd a
  else if Qle_bool (fst (last r a)) p then snd (last r a)
  else lin_interp a r p.

(* np.linalg.lstsq for one column: minimum-norm least squares *)
Definition dotq (l m : list Q) : Q := qsum (map2 Qmult l m).
Definition lstsq1 (l m : list Q) : res Q :=
  if Nat.eqb (List.length l) (List.length m)
  then Ok (if Qeq_bool (dotq l l) 0 then 0%Q else (dotq l m / dotq l l)%Q)
  else Err EOther (* LinAlgError *).

Definition qnat (n : nat) : Q := inject_Z (Z.of_nat n).

(* np.arange(n + 1) / n * 100 *)
Definition uniform_percentiles (n : nat) : list Q :=
  map (fun i => (qnat i / qnat n * 100)%Q) (seq 0 (S n)).

Fixpoint diffs (l : list Q) : list Q :=
  match l with
  | x :: r => match r with [] => [] | y :: _ => (y - x)%Q :: diffs r end
  | [] => []
  end.
Definition q_minimum (l : list Q) : res Q :=
  match l with [] => Err EValue | x :: r => Ok (fold_left Qmin r x) end.
Definition q_maximum (l : list Q) : res Q :=
  match l with [] => Err EValue | x :: r => Ok (fold_left Qmax r x) end.

(* --------------------------------------------------------- percentiles *)

(* cdf_matching.py:65-79 *)
Record cdf_opts := mkCdf {
  c_nbins : nat; c_percentiles : option (list Q); c_minobs : option Z;
  c_linear_edges : bool; c_combine : bool }.
Definition self_nbins (o : cdf_opts) : nat :=
  match c_percentiles o with None => c_nbins o | Some p => (List.length p - 1)%nat end.

(* cdf_matching.py:160-181 _calc_percentiles *)
Definition calc_percentiles (o : cdf_opts) (nsamples : nat) : res (list Q * nat) :=
  let percentiles := match c_percentiles o with
                     | None => uniform_percentiles (self_nbins o)
                     | Some p => p end in
  bindR (q_minimum (diffs percentiles)) (fun minbinsize =>
  let asis := (percentiles, (List.length percentiles - 1)%nat) in
  Ok (match c_minobs o with
      | None => asis
      | Some m =>
          if Qle_bool (inject_Z m) (qnat nsamples * minbinsize / 100)
          then asis
          else
            let n0 := Z.to_nat (Z.of_nat nsamples / m) in
            let nbins := if Nat.eqb n0 0 then 1%nat
                         else if Nat.ltb (List.length percentiles - 1) n0
                              then (List.length percentiles - 1)%nat else n0 in
            (uniform_percentiles nbins, nbins)
      end)).

(* cdf_matching.py:253 p_rank *)
Definition p_rank (n i : nat) : Q := (100 * (qnat i + (1 # 2)) / qnat n)%Q.

(* cdf_matching.py:235-255 _matlab_percentile_values_from_sorted (data[0] of empty data: IndexError) *)
Definition matlab_percentiles (data percentiles : list Q) : res (list Q) :=
  match combine (map (p_rank (List.length data)) (seq 0 (List.length data))) data with
  | [] => Err EIndex
  | a :: r => Ok (map (np_interp a r) percentiles)
  end.

(* np.unique(perc, return_index=True) of sorted values: first occurrences *)
Fixpoint first_occurrences (last : option Q) (l : list (Q * Q)) : list (Q * Q) :=
  match l with
  | [] => []
  | (p, v) :: r =>
      if match last with Some w => Qeq_bool v w | None => false end
      then first_occurrences last r
      else (p, v) :: first_occurrences (Some v) r
  end.

(* new_percentiles[-1] = percentiles[-1] *)
Fixpoint set_last_fst (l : list (Q * Q)) (p : Q) : list (Q * Q) :=
  match l with
  | [] => []
  | (q, v) :: r => match r with [] => [(p, v)] | _ => (q, v) :: set_last_fst r p end
  end.

(* cdf_matching.py:258-280 _unique_percentile_interpolation *)
Definition unique_percentiles (perc percentiles : list Q) : res (list Q) :=
  let uniq := first_occurrences None (combine percentiles perc) in
  if negb (Nat.eqb (List.length uniq) (List.length percentiles)) && Nat.ltb 1 (List.length uniq)
  then
    let table := set_last_fst uniq (last percentiles 0%Q) in
    bindR (spline (map fst table) (map snd table)) (fun f => Ok (map f percentiles))
  else Ok perc.

(* cdf_matching.py:230-232 _percentile_values_from_sorted *)
Definition percentile_values (data percentiles : list Q) : res (list Q) :=
  bindR (matlab_percentiles data percentiles) (fun perc => unique_percentiles perc percentiles).

(* cdf_matching.py:221-227 _resample_ecdf: arange(n)/(n-1)*100; for n = 1 this is NaN and lstsq
   then fails *)
Definition resample_ecdf (x : list Q) (n : nat) : res (list Q) :=
  match n with
  | O => Ok []
  | S O => Err EOther
  | S m => percentile_values x (uniform_percentiles m)
  end.

(* slope of one edge: lstsq through the origin of the values beyond the edge *)
Definition edge_slope (x y : list Q) : res Q :=
  bindR (if Nat.eqb (List.length x) (List.length y) then Ok x else resample_ecdf x (List.length y)) (fun x' =>
  lstsq1 x' y).

Definition set_first (l : list Q) (v : Q) : list Q := match l with [] => [] | _ :: r => v :: r end.
Fixpoint set_last (l : list Q) (v : Q) : list Q :=
  match l with [] => [] | x :: r => match r with [] => [v] | _ => x :: set_last r v end end.
(* l[1] and l[-2] *)
Definition second (l : list Q) : Q := nth 1 l 0%Q.
Definition second_last (l : list Q) : Q := nth (List.length l - 2) l 0%Q.

(* cdf_matching.py:183-206 _linear_edge_scaling *)
Definition linear_edge_scaling (x y x_perc y_perc : list Q) : res (list Q) :=
  let xl := second x_perc in let yl := second y_perc in
  bindR (edge_slope (map (fun v => (v - xl)%Q) (filter (fun v => Qle_bool v xl) x))
                    (map (fun v => (v - yl)%Q) (filter (fun v => Qle_bool v yl) y))) (fun a =>
  let y_perc1 := set_first y_perc (yl + a * (hd 0%Q x_perc - xl))%Q in
  let xh := second_last x_perc in let yh := second_last y_perc1 in
  bindR (edge_slope (map (fun v => (v - xh)%Q) (filter (fun v => Qle_bool xh v) x))
                    (map (fun v => (v - yh)%Q) (filter (fun v => Qle_bool yh v) y))) (fun b =>
  Ok (set_last y_perc1 (yh + b * (last x_perc 0%Q - xh))%Q))).

(* cdf_matching.py:283-291 _linreg_percentiles.  Without observations the means, and so both entries
   of y_perc, are NaN: no entry is left for predict *)
Definition linreg_percentiles (x y : list Q) : res (list Q * list Q) :=
  let mx := qmean x in let my := qmean y in
  bindR (lstsq1 (map (fun v => (v - mx)%Q) x) (map (fun v => (v - my)%Q) y)) (fun slope =>
  let intercept := (my - mx * slope)%Q in
  Ok ([0%Q; 1%Q], match x with [] => [] | _ => [intercept; (intercept + slope)%Q] end)).

(* right padding with NaN to nbins + 1 entries *)
Definition pad (n : nat) (l : list Q) : list cell :=
  map Some l ++ repeat None (n - List.length l).

Record cdf_table := mkTable { x_perc : list cell; y_perc : list cell }.

(* cdf_matching.py:81-137 fit *)
Definition cdf_fit (o : cdf_opts) (X Y : list cell) : res cdf_table :=
  let both := Nat.eqb (List.length X) (List.length Y) && c_combine o in
  let mask := map2 (fun a b : cell => notna a && notna b) X Y in
  let xu := if both then vals (mask_select mask X) else vals X in
  let yu := if both then vals (mask_select mask Y) else vals Y in
  let x := q_sort xu in let y := q_sort yu in
  bindR (calc_percentiles o (Nat.min (List.length x) (List.length y))) (fun pn =>
  let '(percentiles, nbins) := pn in
  bindR (if Nat.eqb nbins 1 && c_linear_edges o
         then linreg_percentiles xu yu
         else bindR (percentile_values x percentiles) (fun xp =>
              bindR (percentile_values y percentiles) (fun yp =>
              if c_linear_edges o
              then mapR (fun yp' => (xp, yp')) (linear_edge_scaling x y xp yp)
              else Ok (xp, yp)))) (fun t =>
  Ok (mkTable (pad (S (self_nbins o)) (fst t)) (pad (S (self_nbins o)) (snd t))))).

(* cdf_matching.py:139-158 predict *)
Definition cdf_predict (t : cdf_table) (X : list cell) : list cell :=
  if existsb notna X
  then let xp := vals (x_perc t) in let yp := vals (y_perc t) in
       match xp, yp with
       | [], _ | _, [] => map (fun _ => None) X
       | _, _ => match spline xp yp with
                 | Ok f => map (option_map f) X
                 | Err _ => map (fun _ => None) X
                 end
       end
  else map (fun _ => None) X.
