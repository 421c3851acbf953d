(* Model of the numpy types of the result arrays: metric_calculators.py 95-223, 1325-1376 and the conversion at the end
   of Validation.calc (validation.py 300-319).  Numbers are IEEE 754 numbers (Flocq).

   Conversions that occur in neither place (text to number and the like) are the parameter `other`. *)
From Coq Require Import ZArith.
From Flocq Require Import Core IEEE754.BinarySingleNaN.
From Verif Require Import Base MatchersModel ValidationModel.
Open Scope Z_scope.

Definition p53 : Prec_gt_0 53 := eq_refl.
Definition e1024 : Prec_lt_emax 53 1024 := eq_refl.
Definition p24 : Prec_gt_0 24 := eq_refl.
Definition e128 : Prec_lt_emax 24 128 := eq_refl.
Notation double := (binary_float 53 1024).
Notation single := (binary_float 24 128).

(* the C conversions between double and float: to nearest, ties to even *)
Definition convert {p e} (p' e' : Z) (Hp : Prec_gt_0 p') (He : Prec_lt_emax p' e') (x : binary_float p e) : binary_float p' e' :=
  match x with
  | B754_zero s => B754_zero s
  | B754_infinity s => B754_infinity s
  | B754_nan => B754_nan
  | B754_finite s m ex _ => binary_normalize p' e' Hp He mode_NE (cond_Zopp s (Zpos m)) ex s
  end.
Definition to_single (x : double) : single := convert 24 128 p24 e128 x.
Definition to_double (x : single) : double := convert 53 1024 p53 e1024 x.

(* the types that occur: np.int32, np.float32, np.float64, text of a fixed width (U256), datetime64 *)
Inductive dtype := Int32 | Float32 | Float64 | Text (width : nat) | Time.
(* scalars: python int, numpy int64, float32, float64 (and python float), text, time stamp *)
Inductive item := PyInt (z : Z) | NpInt (z : Z) | F32 (x : single) | F64 (x : double) | Str (s : string) | Stamp (t : Z).

(* the low 32 bits, as a signed number *)
Definition wrap32 (z : Z) : Z := (z + 2 ^ 31) mod 2 ^ 32 - 2 ^ 31.
Definition int32_range (z : Z) : bool := (- 2 ^ 31 <=? z) && (z <? 2 ^ 31).

Section Typed.
(* a python int beyond the type: OverflowError, or wrapped, depending on the version of numpy *)
Variable big_int : Z -> res item.
Variable other : dtype -> item -> res item.

(* a[0] = x for an array of type d (numpy casts without checking) *)
Definition store (d : dtype) (x : item) : res item :=
  match d, x with
  | Int32, PyInt z => if int32_range z then Ok (NpInt z) else big_int z
  | Int32, NpInt z => Ok (NpInt (wrap32 z))
  | Float32, F64 x => Ok (F32 (to_single x))
  | Float32, F32 x => Ok (F32 x)
  | Float64, F64 x => Ok (F64 x)
  | Float64, F32 x => Ok (F64 (to_double x))
  | Text n, Str s => Ok (Str (substring 0 n s))
  | Time, Stamp t => Ok (Stamp t)
  | d, x => other d x
  end.

(* an array with its type; an element is a scalar or, for two dimensions, a row *)
Inductive elem := One (x : item) | Row (l : list item).
Record tarray := TArr { a_type : dtype; a_elems : list elem }.
Notation tdict := (list (string * tarray)).

(* dataset[key][0] = x *)
Definition put0 (d : tdict) (k : string) (x : item) : res tdict :=
  match dict_get d k with
  | None => Err EKey
  | Some (TArr t []) => Err EIndex
  | Some (TArr t (Row _ :: _)) => Err EValue
  | Some (TArr t (One _ :: r)) => mapR (fun y => dict_set String.eqb d k (TArr t (One y :: r))) (store t x)
  end.
Fixpoint puts (d : tdict) (l : list (string * item)) : res tdict :=
  match l with
  | [] => Ok d
  | (k, x) :: r => bindR (put0 d k x) (fun d' => puts d' r)
  end.

(* metric_calculators.py 176-190: the template; the user's fields replace those of the same name *)
Definition nan64 : item := F64 B754_nan.
Definition nan32 : item := F32 B754_nan.
Definition base_fields : tdict :=
  [("gpi", TArr Int32 [One (NpInt (-1))]); ("lon", TArr Float64 [One nan64]); ("lat", TArr Float64 [One nan64]);
   ("status", TArr Int32 [One (NpInt UNCAUGHT)])]%string.
Definition template (meta : tdict) : tdict := fold_left (fun d e => dict_set String.eqb d (fst e) (snd e)) meta base_fields.

(* (gpi, lon, lat[, metadata]) *)
Record job_info := Job { j_gpi : item; j_lon : item; j_lat : item; j_meta : option (list (string * item)) }.

(* metric_calculators.py 192-223: MetadataMetrics.calc_metrics *)
Definition meta_calc (tmpl : tdict) (meta : tdict) (j : job_info) : res tdict :=
  bindR (puts tmpl [("gpi", j_gpi j); ("lon", j_lon j); ("lat", j_lat j)]%string) (fun d =>
  fold_left (fun acc e => bindR acc (fun d =>
    match j_meta j with
    | None => Err EOther
    | Some m => match dict_get m (fst e) with None => Err EKey | Some x => put0 d (fst e) x end
    end)) meta (Ok d)).

(* metric_calculators.py 1325-1376: RollingMetrics; the series are computed by rolling_pr_rmsd *)
Definition rolling_template (meta : tdict) : tdict :=
  fold_left (fun d m => dict_set String.eqb d m (TArr Float32 [One nan32])) ["R"; "p_R"; "RMSD"]%string (template meta).
Definition rolling_calc (meta : tdict) (j : job_info) (min_obs : nat) (times : list Z) (series : list (double * double * double)) : res tdict :=
  bindR (meta_calc (rolling_template meta) meta j) (fun d =>
  if Nat.ltb (List.length times) min_obs then put0 d "status" (PyInt INSUFFICIENT_DATA) else
  let d := dict_set String.eqb d "time"%string (TArr Time [Row (map Stamp times)]) in
  let d := dict_set String.eqb d "R"%string (TArr Float64 [Row (map (fun r => F64 (fst (fst r))) series)]) in
  let d := dict_set String.eqb d "p_R"%string (TArr Float64 [Row (map (fun r => F64 (snd (fst r))) series)]) in
  let d := dict_set String.eqb d "RMSD"%string (TArr Float64 [Row (map (fun r => F64 (snd r)) series)]) in
  put0 d "status" (PyInt OK)).

(* np.array(entries, dtype=d): scalars, or rows of the same length; otherwise ValueError *)
Fixpoint all_ones (l : list elem) : option (list item) :=
  match l with
  | [] => Some []
  | One x :: r => option_map (cons x) (all_ones r)
  | Row _ :: _ => None
  end.
Fixpoint all_rows (l : list elem) : option (list (list item)) :=
  match l with
  | [] => Some []
  | Row x :: r => option_map (cons x) (all_rows r)
  | One _ :: _ => None
  end.
Definition np_array (d : dtype) (entries : list elem) : res tarray :=
  match all_ones entries, all_rows entries with
  | Some xs, _ => mapR (fun ys => TArr d (map One ys)) (seqR (map (store d) xs))
  | None, Some rows =>
      if forallb (fun r => Nat.eqb (List.length r) (List.length (hd [] rows))) rows
      then mapR (fun ys => TArr d (map Row ys)) (seqR (map (fun r => seqR (map (store d) r)) rows))
      else Err EValue
  | None, None => Err EValue
  end.

(* result[field_name][0] *)
Definition first_elem (m : tdict) (k : string) : res elem :=
  match dict_get m k with
  | None => Err EKey
  | Some (TArr _ []) => Err EIndex
  | Some (TArr _ (x :: _)) => Ok x
  end.
(* validation.py 306-317: the results of one combination *)
Definition compact (ms : list tdict) : res tdict :=
  match ms with
  | [] => Err EIndex
  | m :: _ => seqR (map (fun f => bindR (seqR (map (fun r => first_elem r (fst f)) ms)) (fun es =>
                                  mapR (fun a => (fst f, a)) (np_array (a_type (snd f)) es))) m)
  end.
End Typed.
