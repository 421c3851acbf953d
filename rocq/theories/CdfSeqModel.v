(* cdf_matching.py when the percentiles are given as a python list instead of an array.  The class
   documents them as a sequence (cdf_matching.py:23-27, 67) and stores what it gets
   (cdf_matching.py:77); CDFStoreParamsScaler converts to an array first (data_scalers.py:131).
   Simplifications as in CdfModel. *)
From Verif Require Export CdfModel.
From Verif Require Import ScalingModel.
Open Scope Z_scope.

Inductive sequence := AsList | AsArray.

(* cdf_matching.py:258-280 _unique_percentile_interpolation: percentiles[uniq_ind] indexes with an
   array of more than one position, which a list answers with TypeError *)
Definition unique_percentiles_seq (k : sequence) (perc percentiles : list Q) : res (list Q) :=
  let uniq := first_occurrences None (combine percentiles perc) in
  if negb (Nat.eqb (List.length uniq) (List.length percentiles)) && Nat.ltb 1 (List.length uniq)
  then
    match k with
    | AsList => Err EType
    | AsArray =>
        let table := set_last_fst uniq (last percentiles 0%Q) in
        bindR (spline (map fst table) (map snd table)) (fun f => Ok (map f percentiles))
    end
  else Ok perc.

(* cdf_matching.py:230-232 _percentile_values_from_sorted; np.interp takes either *)
Definition percentile_values_seq (k : sequence) (data percentiles : list Q) : res (list Q) :=
  bindR (matlab_percentiles data percentiles) (fun perc => unique_percentiles_seq k perc percentiles).

(* cdf_matching.py:160-181 _calc_percentiles: percentiles made here are arrays *)
Definition calc_percentiles_seq (k : sequence) (o : cdf_opts) (nsamples : nat) : res (list Q * nat * sequence) :=
  let percentiles := match c_percentiles o with
                     | None => uniform_percentiles (self_nbins o)
                     | Some p => p end in
  let kind := match c_percentiles o with None => AsArray | Some _ => k end in
  bindR (q_minimum (diffs percentiles)) (fun minbinsize =>
  let asis := (percentiles, (List.length percentiles - 1)%nat, kind) in
  Ok (match c_minobs o with
      | None => asis
      | Some m =>
          if Qle_bool (inject_Z m) (qnat nsamples * minbinsize / 100)
          then asis
          else
            let n0 := Z.to_nat (Z.of_nat nsamples / m) in
            let nbins := if Nat.eqb n0 0 then 1%nat
                         else if Nat.ltb (List.length percentiles - 1) n0
                              then (List.length percentiles - 1)%nat else n0 in
            (uniform_percentiles nbins, nbins, AsArray)
      end)).

(* cdf_matching.py:81-137 fit; the edges resample with arrays of their own (221-227) *)
Definition cdf_fit_seq (k : sequence) (o : cdf_opts) (X Y : list cell) : res cdf_table :=
  let both := Nat.eqb (List.length X) (List.length Y) && c_combine o in
  let mask := map2 (fun a b : cell => notna a && notna b) X Y in
  let xu := if both then vals (mask_select mask X) else vals X in
  let yu := if both then vals (mask_select mask Y) else vals Y in
  let x := q_sort xu in let y := q_sort yu in
  bindR (calc_percentiles_seq k o (Nat.min (List.length x) (List.length y))) (fun pn =>
  let '(percentiles, nbins, kind) := pn in
  bindR (if Nat.eqb nbins 1 && c_linear_edges o
         then linreg_percentiles xu yu
         else bindR (percentile_values_seq kind x percentiles) (fun xp =>
              bindR (percentile_values_seq kind y percentiles) (fun yp =>
              if c_linear_edges o
              then mapR (fun yp' => (xp, yp')) (linear_edge_scaling x y xp yp)
              else Ok (xp, yp)))) (fun t =>
  Ok (mkTable (pad (S (self_nbins o)) (fst t)) (pad (S (self_nbins o)) (snd t))))).

(* scaling.py:258-322 cdf_match *)
Definition cdf_match_seq (k : sequence) (o : cdf_opts) (max_val min_val : option Q) (src ref : list cell) : res (list cell) :=
  mapR (fun t => map (fun c => clamp_below min_val (clamp_above max_val c)) (cdf_predict t src))
       (cdf_fit_seq k o src ref).
