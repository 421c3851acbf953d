(* Model of src/pytesmo/scaling.py.  Arrays without missing values are lists of numbers; results
   are cells (a division by zero gives NaN). *)
From Verif Require Export CdfModel.
From Coq Require Import Qabs.
#[global] Open Scope Z_scope.

(* q / r as numpy computes it element-wise for the divisions below: NaN for a zero divisor
   (the dividends are then zero as well) *)
Definition qdiv_cell (a b : Q) : cell := if Qeq_bool b 0 then None else Some (a / b)%Q.
Definition affine (c : cell) (m q : Q) : cell := option_map (fun v => (v * m + q)%Q) c.

(* scaling.py:143-162 min_max; np.min of an empty array raises ValueError *)
Definition min_max (src ref : list Q) : res (list cell) :=
  bindR (q_minimum src) (fun smin => bindR (q_maximum src) (fun smax =>
  bindR (q_maximum ref) (fun rmax => bindR (q_minimum ref) (fun rmin =>
  Ok (map (fun v => affine (qdiv_cell (v - smin) (smax - smin)) (rmax - rmin) rmin) src))))).

(* scipy.stats.linregress slope and intercept: ValueError for different lengths, no data, or
   identical x values *)
Definition centred (l : list Q) : list Q := map (fun v => (v - qmean l)%Q) l.
Definition linreg_params (src ref : list Q) : res (Q * Q) :=
  if Nat.eqb (List.length src) (List.length ref)
  then let sxx := dotq (centred src) (centred src) in
       if Qeq_bool sxx 0 then Err EValue
       else let slope := (dotq (centred src) (centred ref) / sxx)%Q in
            Ok (slope, (qmean ref - slope * qmean src)%Q)
  else Err EValue.

(* scaling.py:165-184 linreg_stored_params *)
Definition linreg_stored_params (src : list Q) (slope intercept : Q) : list Q :=
  map (fun v => (Qabs slope * v + intercept)%Q) src.

(* scaling.py:212-230 linreg *)
Definition linreg (src ref : list Q) : res (list cell) :=
  mapR (fun p => map Some (linreg_stored_params src (fst p) (snd p))) (linreg_params src ref).

(* scaling.py:258-322 cdf_match: fit, predict, clamp from above, then from below *)
Definition clamp_above (b : option Q) (c : cell) : cell :=
  match b, c with Some m, Some v => if Qle_bool v m then c else Some m | _, _ => c end.
Definition clamp_below (b : option Q) (c : cell) : cell :=
  match b, c with Some m, Some v => if Qle_bool m v then c else Some m | _, _ => c end.
Definition cdf_match (o : cdf_opts) (max_val min_val : option Q) (src ref : list cell) : res (list cell) :=
  mapR (fun t => map (fun c => clamp_below min_val (clamp_above max_val c)) (cdf_predict t src))
       (cdf_fit o src ref).

(* --------------------------------------------------- columns of a frame *)

(* a data frame: named columns (column names are distinct) *)
Definition frame := list (string * list cell).

Definition lookup (df : frame) (n : string) : option (list cell) :=
  option_map snd (find (fun c => String.eqb (fst c) n) df).

Section Scale.
(* a scaling function, with the keyword arguments bound *)
Variable scaler : list cell -> list cell -> res (list cell).

Fixpoint insert_at {A} (i : nat) (a : A) (l : list A) : list A :=
  match i, l with
  | O, _ => a :: l
  | S i', x :: r => x :: insert_at i' a r
  | S _, [] => [a]
  end.

(* scaling.py:81-92: scale with a resolved scaling function.  Negative indices select a column but
   DataFrame.insert then raises ValueError *)
Definition scale_with (df : frame) (reference_index : Z) : res frame :=
  let n := Z.of_nat (List.length df) in
  let i := if reference_index <? 0 then reference_index + n else reference_index in
  if (0 <=? i) && (i <? n)
  then match nth_error df (Z.to_nat i) with
       | None => Err EIndex
       | Some (rname, rvalues) =>
           let rest := filter (fun c => negb (String.eqb (fst c) rname)) df in
           bindR (seqR (map (fun c => mapR (fun v => (fst c, v)) (scaler (snd c) rvalues)) rest)) (fun scaled =>
           if reference_index <? 0 then Err EValue
           else Ok (insert_at (Z.to_nat reference_index) (rname, rvalues) scaled))
       end
  else Err EIndex.

(* frame item assignment: overwrite or append *)
Fixpoint set_column (df : frame) (n : string) (v : list cell) : frame :=
  match df with
  | [] => [(n, v)]
  | (m, w) :: r => if String.eqb m n then (n, v) :: r else (m, w) :: set_column r n v
  end.

(* scaling.py:16-55 add_scaled *)
Definition add_scaled (df : frame) (method : string) (label_in label_scale : option string) : res frame :=
  let nth_name k := option_map fst (nth_error df k) in
  match (match label_in with None => nth_name 0%nat | s => s end),
        (match label_scale with None => nth_name 1%nat | s => s end) with
  | Some lin, Some lsc =>
      match lookup df lin, lookup df lsc with
      | Some src, Some ref =>
          mapR (fun v => set_column df (lin ++ "_scaled_" ++ method)%string v) (scaler src ref)
      | _, _ => Err EKey
      end
  | _, _ => Err EIndex
  end.
End Scale.

(* scaling.py:95-140: the names that are accepted *)
Definition scaling_methods : list string :=
  ["linreg"; "mean_std"; "min_max"; "cdf_match"; "cdf_beta_match"]%string.

Section Lut.
(* the functions behind the names *)
Variable impl : string -> list cell -> list cell -> res (list cell).

(* scaling.py:58-92 scale *)
Definition scale (df : frame) (method : string) (reference_index : Z) : res frame :=
  if existsb (String.eqb method) scaling_methods
  then scale_with (impl method) df reference_index
  else Err EKey.
End Lut.
