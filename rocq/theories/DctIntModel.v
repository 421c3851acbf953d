(* Model of the conversions to the number type of the data in pytesmo.interpolate.dctpls: three quantities that are
   computed as doubles are stored with `astype(data.dtype)`.  DctModel leaves these conversions out, which is right for
   arrays of doubles; for arrays of integers they cut off the decimals. *)
From Verif Require Import Base RStats MetricsModel DctModel.
Open Scope R_scope.

(* ndarray.astype of a double to a signed integer type: towards zero (numbers outside of the range of the type are not
   modelled) *)
Definition to_integer (x : R) : R := if Rle_dec 0 x then IZR (Int_part x) else - IZR (Int_part (- x)).
(* astype to double *)
Definition to_double (x : R) : R := x.

Section Typed.
Variable cast : R -> R.
Variable fminbound : (R -> option R) -> R -> R -> R -> R.
Variable nearest : list nat -> arr bool -> index -> index.
Variable keep : nat -> nat.

(* dctpls.py 538-549: Lambda += _lambda.astype(data.dtype).reshape(_shp).  An eigenvalue that is an integer (0, 1, 2, 3)
   is taken as exact; as a double it may be slightly smaller, e.g. 2 - 2 * np.cos(np.pi / 2) < 2 *)
Fixpoint lambda_sum_cast (shape : list nat) (r p : nat) (axes rest : list nat) (acc : arr R) : res (arr R) :=
  match rest with
  | [] => Ok acc
  | ax :: rest' => bindR (lambda_entry shape r p ax axes) (fun l => lambda_sum_cast shape r (S p) axes rest' (fun k => acc k + cast (l k)))
  end.
Definition lambda_cast (shape : list nat) (axis : option axis_arg) : res (arr R) :=
  match axis with
  | Some (AxInt _) => Err EType
  | None => let axes := seq 0 (List.length shape) in lambda_sum_cast shape (List.length axes) 0 axes axes (fun _ => 0)
  | Some (AxTuple axes) => lambda_sum_cast shape (List.length axes) 0 axes axes (fun _ => 0)
  end.
(* dctpls.py 122: return z.astype(y.dtype) *)
Definition init_guess_cast (shape : list nat) (y : arr R) (mask : arr bool) : arr R :=
  fun i => cast (calc_init_guess nearest keep shape y mask i).
(* dctpls.py 628-634: p_best = p_best.astype(data.dtype) *)
Definition fminbound_cast (f : R -> option R) (a b tol : R) : R := cast (fminbound f a b tol).

(* dctpls.py 350-750: smoothn as in DctModel, with the three conversions.  An array of integers holds no NaN; a NaN as
   gap_value can only be stored in the result after an iteration, when it is an array of doubles (MaxIter at least 1,
   TolZ below 1) *)
Definition smoothn_cast (shape : list nat) (data : arr (option R)) (o : options) : res outcome :=
  bindR (match o_weights o with
         | None => Ok (fun _ : index => Some 1)
         | Some (sh, w) =>
           if list_eq_dec Nat.eq_dec sh shape then
             if Nat.eqb (size shape) 0 then Err EValue
             else Ok (fun i => fdiv (w i) (arr_max shape w))
           else Err EValue
         end) (fun weights =>
  if Nat.ltb (size shape) 2 then Ok (Out None (o_smooth o) 2 None None None None data) else
  let valid := valid_at o data in
  let cleared i := if valid i then data i else Some 0 in
  let weight i := if valid i then weights i else Some 0 in
  let negative i := match weight i with
                    | Some w => if Rlt_dec w 0 then true else false
                    | None => match o_weights o with Some (_, w) => if Rlt_dec (w i) 0 then true else false | None => false end
                    end in
  if existsb negative (indices shape) then Err EValue else
  bindR (lambda_cast shape (o_axis o)) (fun lam =>
  let y i := match cleared i with Some v => v | None => 0 end in
  let w i := match weight i with Some v => v | None => 0 end in
  let weighted := existsb (fun i => if Req_EM_T (w i) 1 then false else true) (indices shape) in
  bindR (match o_init o with
         | Some (sh, g) => if list_eq_dec Nat.eq_dec sh shape then Ok g else Err EOther
         | None => Ok (if weighted then init_guess_cast shape y (fun i => negb (valid i)) else (fun _ => 0))
         end) (fun start =>
  if (Nat.eqb (List.length shape) 0 || Nat.ltb 3 (List.length shape))%bool then Err EValue else
  let nan_left := (existsb (fun i => is_nan (cleared i) || is_nan (weight i)) (indices shape) ||
                   match o_smooth o with Some s => if Rlt_dec s 0 then true else false | None => false end)%bool in
  if nan_left then (if (Nat.eqb (o_order o) 1 || Nat.eqb (o_order o) 2)%bool then Ok (Out (Some (all_nan o)) None 1 None None None None cleared) else Err EValue) else
  let rf := if weighted then 7 / 4 else 1 in
  bindR (outer fminbound_cast shape (o_order o) lam y valid w rf (o_smooth o) (o_tolz o) (o_robust o) (o_maxiter o) 3 0 1
           (St start start (TolNum 1) 0 (o_smooth o) w None weighted)) (fun sf =>
  let st := fst sf in
  bindR (match o_smooth o, smooth st with None, None => Err EType | _, _ => Ok tt end) (fun _ =>
  let zout i := match o_exclude o with Some m => if m i then o_gap o else Some (z st i) | None => Some (z st i) end in
  Ok (Out (Some zout) (smooth st) (snd sf) (Some start) None (Some (wtot st)) (score st) cleared)))))).
End Typed.
