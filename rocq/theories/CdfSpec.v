(* Specification vocabulary for CDF matching. *)
From Verif Require Export CdfModel.

Definition increasing (l : list Q) : Prop := StronglySorted Qlt l.
Definition non_decreasing (l : list Q) : Prop := StronglySorted Qle l.

(* an increasing percentile list from 0 to 100 *)
Definition percentile_list (l : list Q) : Prop :=
  increasing l /\ (hd 1 l == 0)%Q /\ (last l 0 == 100)%Q.

Definition is_min (l : list Q) (m : Q) : Prop := (exists v, In v l /\ v == m)%Q /\ forall v, In v l -> (m <= v)%Q.
Definition is_max (l : list Q) (m : Q) : Prop := (exists v, In v l /\ v == m)%Q /\ forall v, In v l -> (v <= m)%Q.

(* a mapping of cells that keeps gaps and does not reverse the order of values *)
Definition order_preserving (xs ys : list cell) : Prop :=
  List.length ys = List.length xs /\
  (forall i, nth_error xs i = Some None <-> nth_error ys i = Some None) /\
  forall i j u v u' v', nth_error xs i = Some (Some u) -> nth_error xs j = Some (Some v) ->
    nth_error ys i = Some (Some u') -> nth_error ys j = Some (Some v') -> (u <= v)%Q -> (u' <= v')%Q.

(* all values missing *)
Definition all_missing (ys : list cell) : Prop := forall y, In y ys -> y = None.

Definition non_constant (xs : list Q) : Prop := exists u v, In u xs /\ In v xs /\ ~ (u == v)%Q.

(* usable constructor arguments *)
Definition sane_opts (o : cdf_opts) : Prop :=
  match c_percentiles o with None => (1 <= c_nbins o)%nat | Some p => percentile_list p end.

(* the number of bins asked for *)
Definition requested_bins (o : cdf_opts) : nat :=
  match c_percentiles o with None => c_nbins o | Some p => (List.length p - 1)%nat end.

(* the observations a fit uses: all present values, or with combine_invalid (and equally long
   inputs) the values at positions where both are present *)
Definition both_present (X Y : list cell) : list (Q * Q) :=
  flat_map (fun ab => match ab with (Some a, Some b) => [(a, b)] | _ => [] end) (combine X Y).
Definition fit_source (o : cdf_opts) (X Y : list cell) : list Q :=
  if c_combine o && Nat.eqb (List.length X) (List.length Y) then map fst (both_present X Y)
  else flat_map (fun c => match c with Some v => [v] | None => [] end) X.
Definition fit_reference (o : cdf_opts) (X Y : list cell) : list Q :=
  if c_combine o && Nat.eqb (List.length X) (List.length Y) then map snd (both_present X Y)
  else flat_map (fun c => match c with Some v => [v] | None => [] end) Y.

(* the fitted table, without the padding *)
Definition present (l : list cell) : list Q := flat_map (fun c => match c with Some v => [v] | None => [] end) l.

(* equal spacing from 0 to 100 in k steps *)
Definition equally_spaced (k : nat) (ps : list Q) : Prop :=
  List.length ps = S k /\
  forall i p, nth_error ps i = Some p -> (p == inject_Z (Z.of_nat i) * 100 / inject_Z (Z.of_nat k))%Q.
