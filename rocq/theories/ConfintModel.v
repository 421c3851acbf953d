(* Model of pytesmo/metrics/confidence_intervals.py and of the analytical confidence intervals of
   pytesmo/metrics/pairwise.py and deprecated.py over the reals.

   The distributions of scipy.stats are Section variables, as are the random draws of
   np.random.choice: every theorem holds for all of them. *)
From Coq Require Import Reals List Lra.
From Verif Require Import Base RStats MetricsModel TcolModel.
Open Scope R_scope.

(* ---- numpy ---- *)

(* np.quantile (method "linear") of a non-empty array at a level q in [0, 1]: sort, take the virtual
   index q (n - 1) and interpolate between its two neighbours *)
Definition quantile (l : list R) (q : R) : R :=
  let s := r_sort l in
  let h := q * INR (List.length l - 1) in
  let i := Z.to_nat (Int_part h) in
  let lo := nth i s 0 in
  let hi := nth (Nat.min (i + 1) (List.length l - 1)) s 0 in
  lo + (h - INR i) * (hi - lo).

(* np.nanquantile: a level that is NaN or outside [0, 1] raises ValueError; NaN values are dropped and
   no remaining value gives NaN *)
Definition nanquantile (l : list (option R)) (q : option R) : res (option R) :=
  match q with
  | None => Err EValue
  | Some q =>
      if Rlt_dec q 0 then Err EValue else if Rlt_dec 1 q then Err EValue
      else match vals l with [] => Ok None | v => Ok (Some (quantile v q)) end
  end.

Definition bind2 {A B} (x y : res A) (f : A -> A -> B) : res B :=
  bindR x (fun a => bindR y (fun b => Ok (f a b))).

(* x[idx]: integer indexing; every index np.random.choice(n, size=n) draws is below n *)
Definition take (x : list R) (idx : list nat) : list R := map (fun i => nth i x 0) idx.

(* ---- the three bootstrap intervals ---- *)

(* confidence_intervals.py 329-333: _percentile_bs_ci *)
Definition percentile_bs_ci (bs : list (option R)) (m : option R) (alpha : R) : res (option R * option R) :=
  bind2 (nanquantile bs (Some (alpha / 2))) (nanquantile bs (Some (1 - alpha / 2))) pair.

(* confidence_intervals.py 336-340: _basic_bs_ci *)
Definition reflect (m q : option R) : option R := obind m (fun m => omap (fun q => 2 * m - q) q).
Definition basic_bs_ci (bs : list (option R)) (m : option R) (alpha : R) : res (option R * option R) :=
  bind2 (nanquantile bs (Some (1 - alpha / 2))) (nanquantile bs (Some (alpha / 2)))
    (fun u l => (reflect m u, reflect m l)).

Section Distributions.
(* stats.norm.ppf, None where it is infinite or NaN (an argument outside (0, 1)), and stats.norm.cdf *)
Variable ppf : R -> option R.
Variable cdf : R -> R.

(* confidence_intervals.py 351: np.mean(bs_m <= m); comparisons with NaN are False *)
Definition not_above (m : option R) (b : option R) : R :=
  match m, b with Some m, Some b => if Rle_dec b m then 1 else 0 | _, _ => 0 end.
Definition share_not_above (bs : list (option R)) (m : option R) : option R :=
  np_mean (map (not_above m) bs).

Fixpoint all_some (l : list (option R)) : option (list R) :=
  match l with
  | [] => Some []
  | Some v :: r => omap (cons v) (all_some r)
  | None :: _ => None
  end.
(* confidence_intervals.py 354-357: the acceleration; NaN if a jackknife value is NaN or all are equal *)
Definition acceleration (jk : list (option R)) : option R :=
  obind (all_some jk) (fun v =>
  obind (np_mean v) (fun jm =>
  let s2 := rsum (map (fun j => (jm - j) ^ 2) v) in
  fdiv (rsum (map (fun j => (jm - j) ^ 3) v)) (6 * (s2 * sqrt s2)))).

(* confidence_intervals.py 360-365: the adjusted level; a vanishing denominator gives an infinite
   argument, whose cdf is 0 or 1 *)
Definition adjusted (z0 a z : R) : R :=
  let u := z0 + z in
  let den := 1 - a * u in
  if Req_EM_T den 0 then (if Rlt_dec 0 u then 1 else 0) else cdf (z0 + u / den).

(* confidence_intervals.py 343-368: _BCa_bs_ci.  An infinite normal quantile makes the argument of
   cdf NaN (inf / inf or 0 * inf), as does a NaN acceleration. *)
Definition BCa_bs_ci (bs : list (option R)) (m : option R) (alpha : R) (jk : list (option R))
  : res (option R * option R) :=
  let z0 := obind (share_not_above bs m) ppf in
  let a := acceleration jk in
  let level z := obind z0 (fun z0 => obind a (fun a => omap (adjusted z0 a) z)) in
  bind2 (nanquantile bs (level (ppf alpha))) (nanquantile bs (level (ppf (1 - alpha)))) pair.

(* x[mask] with a mask that is False at one position *)
Definition leave_out {A} (i : nat) (x : list A) : list A := firstn i x ++ skipn (S i) x.

(* confidence_intervals.py 319-326: _jackknife.  The buffer has the type of x; the truncation that
   happens for an array of integers is the argument `store`. *)
Definition jackknife (store : option R -> option R) (metric : list R -> list R -> option R) (x y : list R)
  : list (option R) :=
  map (fun i => store (metric (leave_out i x) (leave_out i y))) (seq 0 (List.length x)).

(* confidence_intervals.py 75-164: with_bootstrapped_ci.  `draws` are the nsamples index arrays that
   np.random.choice returns; it raises ValueError for an empty series. An unknown method leaves the
   bounds unassigned (UnboundLocalError). *)
Definition with_bootstrapped_ci (store : option R -> option R) (metric : list R -> list R -> option R)
    (x y : list R) (alpha : R) (method : string) (minimum : nat) (draws : list (list nat))
  : res (option R * option R * option R) :=
  let n := List.length x in
  if Nat.ltb n minimum then Err EValue else
  let orig := metric x y in
  match n, draws with
  | O, _ :: _ => Err EValue
  | _, _ =>
    let bs := map (fun idx => metric (take x idx) (take y idx)) draws in
    let ci := if String.eqb method "percentile" then percentile_bs_ci bs orig alpha
              else if String.eqb method "basic" then basic_bs_ci bs orig alpha
              else if String.eqb method "BCa" then BCa_bs_ci bs orig alpha (jackknife store metric x y)
              else Err EOther in
    mapR (fun lu => (orig, fst lu, snd lu)) ci
  end.

(* ---- triple collocation ---- *)

(* one of snr, err_std and beta: the estimates of the three datasets *)
Notation three := (list (option R)).
Definition component (k : nat) (t : tc_result) : three :=
  match k with 0%nat => fst (fst t) | 1%nat => snd (fst t) | _ => snd t end.

(* confidence_intervals.py 269-311: the interval of dataset i; the unknown method leaves np.empty
   uninitialised (`garbage`) *)
Definition tcol_interval (method : string) (garbage : option R * option R) (bs : list three) (orig : three)
    (jk : list three) (alpha : R) (i : nat) : res (option R * option R) :=
  let column := map (fun t => nth i t None) bs in
  let m := nth i orig None in
  if String.eqb method "percentile" then percentile_bs_ci column m alpha
  else if String.eqb method "basic" then basic_bs_ci column m alpha
  else if String.eqb method "BCa" then BCa_bs_ci column m alpha (List.concat jk)
  else Ok garbage.

(* the scaling parameter (k = 2) of the reference dataset is not bootstrapped *)
Definition tcol_part (method : string) (garbage : option R * option R) (ref : nat) (alpha : R)
    (bs : list tc_result) (orig : tc_result) (jk : list tc_result) (k i : nat) : res (option R * option R) :=
  if andb (andb (Nat.eqb k 2) (Nat.eqb i ref))
       (orb (String.eqb method "percentile") (orb (String.eqb method "basic") (String.eqb method "BCa")))
  then Ok (Some 1, Some 1)
  else tcol_interval method garbage (map (component k) bs) (component k orig) (map (component k) jk) alpha i.

(* x[idx], y[idx], z[idx] for the three series held as rows *)
Definition take_rows (rows : list (nat -> R)) (idx : list nat) : list (nat -> R) :=
  map (fun i => nth i rows (fun _ => 0)) idx.

(* confidence_intervals.py 167-316: tcol_metrics_with_bootstrapped_ci.  The result lists, for snr,
   err_std and beta, the estimates and the three intervals. *)
Definition tcol_with_bootstrapped_ci (rows : list (nat -> R)) (ref : nat) (alpha : R) (method : string)
    (garbage : option R * option R) (minimum : nat) (draws : list (list nat))
  : res (list (three * list (option R * option R))) :=
  let n := List.length rows in
  if Nat.ltb n minimum then Err EValue else
  bindR (tcol_metrics rows ref) (fun orig =>
  bindR (if String.eqb method "BCa" then seqR (map (fun i => tcol_metrics (leave_out i rows) ref) (seq 0 n))
         else Ok []) (fun jk =>
  match n, draws with
  | O, _ :: _ => Err EValue
  | _, _ =>
    bindR (seqR (map (fun idx => tcol_metrics (take_rows rows idx) ref) draws)) (fun bs =>
    seqR (map (fun k => mapR (fun cis => (component k orig, cis))
                          (seqR (map (tcol_part method garbage ref alpha bs orig jk k) [0; 1; 2]%nat))) [0; 1; 2]%nat))
  end)).

End Distributions.

(* ---- analytical intervals ---- *)

(* IEEE values: finite, infinite and NaN *)
Inductive ext := Fin (r : R) | PInf | NInf | NaN.

Definition e_add (a b : ext) : ext :=
  match a, b with
  | Fin a, Fin b => Fin (a + b)
  | NaN, _ | _, NaN | PInf, NInf | NInf, PInf => NaN
  | PInf, _ | _, PInf => PInf
  | NInf, _ | _, NInf => NInf
  end.
Definition e_opp (a : ext) : ext := match a with Fin a => Fin (- a) | PInf => NInf | NInf => PInf | NaN => NaN end.
Definition e_sub (a b : ext) : ext := e_add a (e_opp b).
(* a / b with b >= 0 *)
Definition e_div (a b : R) : ext :=
  if Req_EM_T b 0 then (if Rlt_dec 0 a then PInf else if Rlt_dec a 0 then NInf else NaN) else Fin (a / b).
Definition arctanh (r : R) : R := ln ((1 + r) / (1 - r)) / 2.
Definition e_arctanh (r : R) : ext :=
  if Req_EM_T r 1 then PInf else if Req_EM_T r (-1) then NInf
  else if Rlt_dec (Rabs r) 1 then Fin (arctanh r) else NaN.
Definition e_tanh (a : ext) : option R :=
  match a with Fin a => Some (tanh a) | PInf => Some 1 | NInf => Some (-1) | NaN => None end.

(* q / np.sqrt(n - 3) *)
Definition over_sqrt (q : R) (n : nat) : ext :=
  match np_sqrt (INR n - 3) with Some s => e_div q s | None => NaN end.
Definition fisher_ci (r q : R) (n : nat) : option R * option R :=
  let v := e_arctanh r in
  (e_tanh (e_sub v (over_sqrt q n)), e_tanh (e_add v (over_sqrt q n))).

Section Quantiles.
(* stats.norm.ppf at a level inside (0, 1), stats.t.ppf(level, df) and stats.chi2.ppf(level, df) *)
Variable norm_ppf : R -> R.
Variable t_ppf chi2_ppf : R -> nat -> R.

(* pairwise.py 372-377: pearson_r_ci *)
Definition pearson_r_ci (n : nat) (r alpha : R) := fisher_ci r (norm_ppf (1 - alpha / 2)) n.
(* pairwise.py 429-435: spearman_r_ci *)
Definition spearman_r_ci (n : nat) (r alpha : R) := fisher_ci r (norm_ppf (1 - alpha / 2) * sqrt (1 + r ^ 2 / 2)) n.
(* pairwise.py 488-494: kendall_tau_ci *)
Definition kendall_tau_ci (n : nat) (tau alpha : R) := fisher_ci tau (norm_ppf (1 - alpha / 2) * (431 / 1000)) n.

(* deprecated.py 362-376: pearson_conf; c is a percentage *)
Definition pearson_conf (r : R) (n : nat) (c : R) : option R * option R :=
  let z := e_arctanh r in
  let std_err := over_sqrt 1 n in
  let q := norm_ppf (1 - (1 - c / 100) / 2) in
  let d := match std_err with
           | Fin e => Fin (e * q)
           | NaN => NaN
           | PInf => if Rlt_dec 0 q then PInf else if Rlt_dec q 0 then NInf else NaN
           | NInf => if Rlt_dec 0 q then NInf else if Rlt_dec q 0 then PInf else NaN
           end in
  (e_tanh (e_sub z d), e_tanh (e_add z d)).

(* np.std(l, ddof=1) *)
Definition std1 (l : list R) : option R :=
  obind (np_mean l) (fun m =>
  obind (fdiv (rsum (map (fun v => (v - m) ^ 2) l)) (rlen l - 1)) np_sqrt).

(* pairwise.py 102-104: bias_ci *)
Definition bias_ci (d : pairs) (b alpha : R) : option (R * R) :=
  let n := List.length d in
  obind (std1 (map (fun p => fst p - snd p) d)) (fun s =>
  omap (fun e => let delta := e * t_ppf (1 - alpha / 2) (n - 1) in (b - delta, b + delta))
    (fdiv s (sqrt (INR n)))).

(* pairwise.py 107-116: _bias_ci_from_moments *)
Definition bias_ci_from_moments (alpha : R) (m : moments) (n : nat) : option (R * R) :=
  obind (fdiv (INR n) (INR n - 1)) (fun f =>
  obind (np_sqrt (f * (m_vx m + m_vy m - 2 * m_cov m))) (fun s =>
  omap (fun e => let delta := e * t_ppf (1 - alpha / 2) (n - 1) in
                 let b := m_x m - m_y m in (b - delta, b + delta))
    (fdiv s (sqrt (INR n))))).

(* pairwise.py 318-322: ubrmsd_ci *)
Definition ubrmsd_ci (n : nat) (ub alpha : R) : option R * option R :=
  (obind (fdiv (INR n * ub ^ 2) (chi2_ppf (1 - alpha / 2) (n - 1))) np_sqrt,
   obind (fdiv (INR n * ub ^ 2) (chi2_ppf (alpha / 2) (n - 1))) np_sqrt).
End Quantiles.

(* confidence_intervals.py 8-24 and 66-72: a metric has an analytical interval if `pairwise` has an
   attribute called <name>_ci *)
Definition has_analytical_ci (attributes : list string) (name : string) : bool :=
  existsb (String.eqb (name ++ "_ci")%string) attributes.
Definition with_analytical_ci (attributes : list string) (name : string) (m : option R)
    (ci : option R -> option R * option R) : res (option R * option R * option R) :=
  if has_analytical_ci attributes name then Ok (m, fst (ci m), snd (ci m)) else Err EValue.
