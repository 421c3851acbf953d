(* Model of the triple and extended collocation: /repo/src/pytesmo/metrics/tcol.py and the deprecated
   variants in deprecated.py 17-197.

   Simplifications: real numbers; a value that is NaN or infinite is None; the data are rows
   (functions from the column number to the value). *)
From Verif Require Import Base NamesModel.
From Verif Require Export MetricsModel.
From Coq Require Import Reals List.
Open Scope R_scope.

Definition matrix := nat -> nat -> R.

(* np.cov(np.vstack((x, y, z))) (tcol.py 103) and DataFrame.cov (tcol.py 245): divisor n - 1 *)
Definition cov1 (rows : list (nat -> R)) (j k : nat) : R :=
  let mj := rmean (map (fun r => r j) rows) in
  let mk := rmean (map (fun r => r k) rows) in
  rsum (map (fun r => (r j - mj) * (r k - mk)) rows) / (rlen rows - 1).
Definition np_cov (rows : list (nat -> R)) : option matrix :=
  match rows with
  | [] | [_] => None
  | _ => Some (cov1 rows)
  end.

Definition log10 (x : R) : R := ln x / ln 10.
(* np.log10: finite for positive arguments *)
Definition np_log10 (x : R) : option R := if Rlt_dec 0 x then Some (log10 x) else None.

(* tcol.py 111: ind = (0, 1, 2, 0, 1, 2) *)
Definition cyc (i : nat) : nat := nth i [0; 1; 2; 0; 1; 2]%nat 0%nat.

(* tcol.py 116-126 *)
Definition tc_snr (C : matrix) (i : nat) : option R :=
  obind (fdiv (C i i * C (cyc (i + 1)) (cyc (i + 2))) (C i (cyc (i + 1)) * C i (cyc (i + 2)))) (fun q =>
  obind (fdiv 1 (Rabs (Rabs q - 1))) (fun v => omap (fun l => 10 * l) (np_log10 v))).

(* tcol.py 127-134 *)
Definition tc_err_var (C : matrix) (i : nat) : option R :=
  omap (fun q => C i i - q) (fdiv (C i (cyc (i + 1)) * C i (cyc (i + 2))) (C (cyc (i + 1)) (cyc (i + 2)))).

(* tcol.py 112, 138-139: no_ref_ind[no_ref_ind != i][0] *)
Definition third (ref i : nat) : nat :=
  hd 0%nat (filter (fun k => negb (Nat.eqb k i)) (filter (fun k => negb (Nat.eqb k ref)) [0; 1; 2]%nat)).

(* tcol.py 136-144 *)
Definition tc_beta (C : matrix) (ref i : nat) : option R :=
  if Nat.eqb i ref then Some 1 else fdiv (C ref (third ref i)) (C i (third ref i)).

Definition tc_result := (list (option R) * list (option R) * list (option R))%type.

(* tcol.py 146: np.sqrt(err_var) * beta *)
Definition tc_err_std (C : matrix) (ref i : nat) : option R :=
  obind (obind (tc_err_var C i) np_sqrt) (fun s => omap (fun b => s * b) (tc_beta C ref i)).

(* tcol.py 107-146: _tcol_metrics_from_cov; a reference index outside the matrix raises IndexError *)
Definition tcol_metrics_from_cov (C : matrix) (ref : nat) : res tc_result :=
  if Nat.ltb ref 3 then
    Ok (map (tc_snr C) [0; 1; 2]%nat, map (tc_err_std C ref) [0; 1; 2]%nat, map (tc_beta C ref) [0; 1; 2]%nat)
  else Err EIndex.

(* tcol.py 16-104: tcol_metrics (fewer than two rows: all values NaN) *)
Definition tcol_metrics (rows : list (nat -> R)) (ref : nat) : res tc_result :=
  match np_cov rows with
  | Some C => tcol_metrics_from_cov C ref
  | None => if Nat.ltb ref 3 then
              Ok ([None; None; None], [None; None; None], map (fun i => if Nat.eqb i ref then Some 1 else None) [0; 1; 2]%nat)
            else Err EIndex
  end.

(* deprecated.py 160-171: the SNR of tcol_snr, without absolute values; a negative power or logarithm
   argument gives NaN *)
Definition old_snr (C : matrix) (i : nat) : option R :=
  obind (fdiv (C i i * C (cyc (i + 1)) (cyc (i + 2))) (C i (cyc (i + 1)) * C i (cyc (i + 2)))) (fun q =>
  obind (fdiv 1 (q - 1)) (fun v => omap (fun l => 10 * l) (np_log10 v))).

(* deprecated.py 63-67: tcol_error *)
Definition tc_product (rows : list (nat -> R)) (i j k : nat) : option R :=
  omap (fun m => sqrt (Rabs m)) (np_mean (map (fun r => (r i - r j) * (r i - r k)) rows)).
Definition tcol_error (rows : list (nat -> R)) : option R * option R * option R :=
  (tc_product rows 0 1 2, tc_product rows 1 0 2, tc_product rows 2 0 1).

(* ---- extended collocation ---- *)

(* tcol.py 149-161: check_if_biased: some pair of `combs` is, in either order, a pair of `correlated` *)
Definition pair_eqb (p q : nat * nat) : bool := andb (Nat.eqb (fst p) (fst q)) (Nat.eqb (snd p) (snd q)).
Definition check_if_biased (combs correlated : list (nat * nat)) : bool :=
  existsb (fun corr => existsb (fun comb => orb (pair_eqb comb corr) (pair_eqb comb (snd corr, fst corr))) combs) correlated.

(* itertools.combinations(l, 2) and itertools.permutations(l, 2) (of distinct elements) *)
Fixpoint comb2 (l : list nat) : list (nat * nat) :=
  match l with [] => [] | x :: r => map (fun y => (x, y)) r ++ comb2 r end.
Definition perm2 (l : list nat) : list (nat * nat) :=
  flat_map (fun a => map (fun b => (a, b)) (filter (fun b => negb (Nat.eqb a b)) l)) l.

(* one line of the design matrix below its first block has a single 1: (its position, the observation) *)
Definition obs := (nat * R)%type.

(* tcol.py 283-304: the classical estimators of the signal variance of column c; for a covariance 0 the
   division gives inf or NaN, the theorems assume that the covariances are not 0 *)
Definition signal_obs (n : nat) (C : matrix) (correlated : list (nat * nat)) (c : nat) : list obs :=
  let others := filter (fun k => negb (Nat.eqb k c)) (seq 0 n) in
  map (fun ab => (c, C c (fst ab) * C c (snd ab) / C (fst ab) (snd ab)))
      (filter (fun ab => negb (check_if_biased [(c, fst ab); (c, snd ab); ab] correlated)) (comb2 others)).

(* tcol.py 310-339: the cross-biased estimators for the i-th correlated pair *)
Definition cross_obs (n : nat) (C : matrix) (correlated : list (nat * nat)) (i : nat) (p : nat * nat) : list obs :=
  let others := filter (fun k => andb (negb (Nat.eqb k (fst p))) (negb (Nat.eqb k (snd p)))) (seq 0 n) in
  map (fun ab => ((n + i)%nat, C (fst p) (fst ab) * C (snd p) (snd ab) / C (fst ab) (snd ab)))
      (filter (fun ab => negb (check_if_biased [(fst p, fst ab); (snd p, snd ab); ab] correlated)) (perm2 others)).

Definition all_obs (n : nat) (C : matrix) (correlated : list (nat * nat)) : list obs :=
  flat_map (signal_obs n C correlated) (seq 0 n)
  ++ flat_map (fun ip => cross_obs n C correlated (fst ip) (snd ip)) (combine (seq 0 (List.length correlated)) correlated).

(* tcol.py 255-267: the totals: variances, then the covariances of the correlated pairs *)
Definition totals (n : nat) (C : matrix) (correlated : list (nat * nat)) : list R :=
  map (fun i => C i i) (seq 0 n) ++ map (fun p => C (fst p) (snd p)) correlated.

(* tcol.py 269-276, 292-299, 327-334: design matrix as a list of lines over n_x = 2h columns, where
   h = number of columns + number of correlated pairs *)
Definition unit_line (a : nat) : nat -> R := fun c => if Nat.eqb c a then 1 else 0.
Definition top_line (h i : nat) : nat -> R := fun c => if orb (Nat.eqb c i) (Nat.eqb c (h + i)) then 1 else 0.
Definition design (h : nat) (os : list obs) : list (nat -> R) :=
  map (top_line h) (seq 0 h) ++ map (fun o => unit_line (fst o)) os.

(* a priori known error covariance (tcol.py 248-250) *)
Definition subtract (C : matrix) (ec : option (nat * nat * R)) : matrix :=
  match ec with
  | None => C
  | Some (a, b, v) =>
      let sub (C : matrix) a b : matrix := fun i j => if andb (Nat.eqb i a) (Nat.eqb j b) then C i j - v else C i j in
      sub (sub C a b) b a
  end.

Record ecol_result := Ecol { e_sig : list R; e_err : list R; e_snr : list (option R); e_cov : list R; e_corr : list (option R) }.

Section Ecol.
(* tcol.py 345: (A.T * A).I * A.T * y, None if A.T * A is singular (LinAlgError) *)
Variable lstsq : list (nat -> R) -> list R -> nat -> option (nat -> R).

(* tcol.py 345-391 applied to the covariance matrix of n columns *)
Definition ecol_from_cov (n : nat) (C0 : matrix) (correlated : list (nat * nat)) (ec : option (nat * nat * R)) (abs_est : bool)
  : res ecol_result :=
  let C := subtract C0 ec in
  let h := (n + List.length correlated)%nat in
  let os := all_obs n C correlated in
  match lstsq (design h os) (totals n C correlated ++ map snd os) (2 * h) with
  | None => Err EOther
  | Some x =>
      let sig := map x (seq 0 n) in
      let err := map (fun i => x (h + i)%nat) (seq 0 n) in
      let ecov := map (fun i => x (h + n + i)%nat) (seq 0 (List.length correlated)) in
      let ecorr := map (fun pv => obind (np_sqrt (x (h + fst (fst pv))%nat * x (h + snd (fst pv))%nat)) (fun s => fdiv (snd pv) s))
                       (combine correlated ecov) in
      let fix_abs l := if abs_est then map Rabs l else l in
      let sig := fix_abs sig in
      let err := fix_abs err in
      Ok (Ecol sig err
            (map (fun se => obind (fdiv (fst se) (snd se)) (fun q => omap (fun l => 10 * l) (np_log10 q))) (combine sig err))
            ecov ecorr)
  end.
End Ecol.
