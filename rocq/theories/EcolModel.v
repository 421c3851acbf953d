(* Model of the interface of the extended collocation: /repo/src/pytesmo/metrics/tcol.py 164-391, ecol, for a
   data frame with named columns: the rows that are used, the vector operations behind the solution of the
   normal equations and the dictionary of the results.  The design matrix and the observations are those of
   TcolModel.v.

   Simplifications: all columns are numeric and have different names; real numbers, a value that is NaN or infinite is None;
   `correlated=None` is the empty list (every branch then does the same). *)
From Verif Require Export Base.
From Verif Require Import NamesModel GroupingModel TcolModel DfMetricsModel.
From Coq Require Import Reals Qreals.
Open Scope R_scope.

(* tcol.py 244: data.dropna(inplace=True): the rows without NaN stay *)
Definition nrows (f : frame) : nat := match f with [] => 0%nat | c :: _ => List.length (snd c) end.
Definition complete_row (f : frame) (t : nat) : bool := forallb (fun c => notna (nth t (snd c) None)) f.
Definition dropna (f : frame) : frame :=
  map (fun c => (fst c, mask_select (map (complete_row f) (seq 0 (nrows f))) (snd c))) f.

(* the rows as the covariances see them *)
Definition row (f : frame) (t : nat) : nat -> R :=
  fun j => match nth t (col f j) None with Some q => Q2R q | None => 0 end.
Definition rows (f : frame) : list (nat -> R) := map (row f) (seq 0 (nrows f)).

(* cov[name], np.where(cols == name)[0][0] *)
Fixpoint position (cols : list string) (s : string) : option nat :=
  match cols with
  | [] => None
  | c :: r => if String.eqb c s then Some 0%nat else omap S (position r s)
  end.
Definition known (cols : list string) (s : string) : res nat :=
  match position cols s with Some i => Ok i | None => Err EKey end.
Definition pair_of (cols : list string) (p : string * string) : res (nat * nat) :=
  bindR (known cols (fst p)) (fun a => bindR (known cols (snd p)) (fun b => Ok (a, b))).

(* the covariances tcol.py 301-304 and 336-341 divide by *)
Definition divisors (n : nat) (C : matrix) (co : list (nat * nat)) : list R :=
  flat_map (fun c => map (fun ab => C (fst ab) (snd ab))
    (filter (fun ab => negb (check_if_biased [(c, fst ab); (c, snd ab); ab] co))
            (comb2 (filter (fun k => negb (Nat.eqb k c)) (seq 0 n))))) (seq 0 n)
  ++ flat_map (fun p : nat * nat => map (fun ab => C (fst ab) (snd ab))
       (filter (fun ab => negb (check_if_biased [(fst p, fst ab); (snd p, snd ab); ab] co))
               (perm2 (filter (fun k => andb (negb (Nat.eqb k (fst p))) (negb (Nat.eqb k (snd p)))) (seq 0 n))))) co.
Definition zerob (x : R) : bool := if Req_EM_T x 0 then true else false.

Section Ecol.
Variable lstsq : list (nat -> R) -> list R -> nat -> option (nat -> R).

(* tcol.py 345-346: x = (A.T * A).I * A.T * y.  The inverse is that of a matrix of 0 and 1 and exists or not
   whatever y is; an observation that is NaN or infinite makes every entry of the product NaN or infinite *)
Definition solution (n : nat) (C0 : option matrix) (co : list (nat * nat)) (ec : option (nat * nat * R)) : res (list (option R)) :=
  let h := (n + List.length co)%nat in
  let solve C := let os := all_obs n C co in lstsq (design h os) (totals n C co ++ map snd os) (2 * h) in
  let not_finite := match solve (fun _ _ => 0) with None => Err EOther | Some _ => Ok (repeat None (2 * h)) end in
  match C0 with
  | None => not_finite
  | Some C0 =>
      let C := subtract C0 ec in
      if existsb zerob (divisors n C co) then not_finite
      else match solve C with None => Err EOther | Some x => Ok (map (fun i => Some (x i)) (seq 0 (2 * h))) end
  end.

(* numpy arithmetic with values that are not finite *)
Definition n_at (x : list (option R)) (i : nat) : option R := nth i x None.
Definition n_corr (cov e1 e2 : option R) : option R :=
  obind cov (fun c => obind e1 (fun a => obind e2 (fun b => obind (np_sqrt (a * b)) (fun s => fdiv c s)))).
Definition n_db (s e : option R) : option R :=
  obind s (fun s => obind e (fun e => obind (fdiv s e) (fun q => omap (fun l => 10 * l) (np_log10 q)))).

(* tcol.py 355-356: np.delete(x, np.arange(k) + n) *)
Definition delete_cross (n k : nat) (x : list (option R)) : list (option R) := firstn n x ++ skipn (n + k) x.
(* tcol.py 358-367: the correlations, appended one after the other *)
Definition append_corr (n : nat) (x : list (option R)) (ip : nat * (nat * nat)) : list (option R) :=
  x ++ [n_corr (n_at x (2 * n + fst ip)) (n_at x (n + fst (snd ip))) (n_at x (n + snd (snd ip)))].
(* tcol.py 380-383: x[0:2n] = np.abs(x[0:2n]) *)
Definition absolute (n : nat) (abs_est : bool) (x : list (option R)) : list (option R) :=
  if abs_est then map (omap Rabs) (firstn (2 * n) x) ++ skipn (2 * n) x else x.
(* tcol.py 386-390: np.insert(x, 2n, 10 * np.log10(x[0:n] / x[n:2n])) *)
Definition insert_snr (n : nat) (x : list (option R)) : list (option R) :=
  firstn (2 * n) x ++ map2 n_db (firstn n x) (firstn n (skipn n x)) ++ skipn (2 * n) x.

(* tcol.py 355-390 *)
Definition arrange (n : nat) (co : list (nat * nat)) (abs_est : bool) (x : list (option R)) : list (option R) :=
  let x := delete_cross n (List.length co) x in
  let x := fold_left (append_corr n) (combine (seq 0 (List.length co)) co) x in
  insert_snr n (absolute n abs_est x).

(* tcol.py 350, 370-377 *)
Definition tags (cols : list string) (correlated : list (string * string)) : list string :=
  map (fun c => "sig_" ++ c)%string cols ++ map (fun c => "err_" ++ c)%string cols ++ map (fun c => "snr_" ++ c)%string cols
   ++ map (fun p => "err_cov_" ++ fst p ++ "_" ++ snd p)%string correlated
   ++ map (fun p => "err_corr_" ++ fst p ++ "_" ++ snd p)%string correlated.

(* dict(zip(tags, x)): a later value replaces an earlier one of the same key *)
Definition to_dict (l : list (string * option R)) : list (string * option R) :=
  fold_left (fun d kv => dict_set String.eqb d (fst kv) (snd kv)) l [].

(* tcol.py 247-391 from the covariances of the columns; an unknown name raises KeyError *)
Definition ecol_cov (cols : list string) (C0 : option matrix) (correlated : list (string * string))
    (err_cov : option (string * string * R)) (abs_est : bool) : res (list (string * option R)) :=
  bindR (match err_cov with
         | None => Ok None
         | Some (a, b, v) => mapR (fun p : nat * nat => Some (fst p, snd p, v)) (pair_of cols (a, b))
         end) (fun ec =>
  bindR (seqR (map (pair_of cols) correlated)) (fun co =>
  let n := List.length cols in
  bindR (solution n C0 co ec) (fun x =>
  Ok (to_dict (combine (tags cols correlated) (arrange n co abs_est x)))))).

(* tcol.py 164-391: the result, and the caller's frame afterwards *)
Definition ecol (f : frame) (correlated : list (string * string)) (err_cov : option (string * string * R)) (abs_est : bool)
  : res (list (string * option R)) * frame :=
  let g := dropna f in
  (ecol_cov (map fst g) (np_cov (rows g)) correlated err_cov abs_est, g).
End Ecol.
