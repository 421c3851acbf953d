(* Model of the arguments of Validation.calc: utils.py ensure_iterable, validation.py args_to_iterable and the zip over
   the locations.  The items (numbers, strings, dictionaries of metadata) are of any type A. *)
From Verif Require Export ValidationModel.
Open Scope Z_scope.

Section Args.
Variable A : Type.
(* what a caller can pass: an object that cannot be indexed (a number) or a string; a list, tuple or array; a dictionary
   with the value stored for the key 0 if there is one; a pandas Series with integer labels *)
Inductive arg := Atom (a : A) | Seq (l : list A) | Dict (has_zero : bool) (keys : list A) | Series (l : list (Z * A)).
(* what zip takes from an argument: an item, or the empty sequence itself *)
Inductive item := It (a : A) | EmptySeq.

(* utils.py 129-150 element_iterable: el[0]; TypeError and IndexError are caught, KeyError is not.
   utils.py 153-173 ensure_iterable; the items of the result *)
Definition ensure_iterable (x : arg) : res (list item) :=
  match x with
  | Atom a => Ok [It a]
  | Seq [] => Ok [EmptySeq]
  | Seq l => Ok (map It l)
  | Dict z keys => if z then Ok (map It keys) else Err EKey
  | Series l => if existsb (fun e => fst e =? 0) l then Ok (map (fun e => It (snd e)) l) else Err EKey
  end.

(* zip( *ls) *)
Definition min_length {X} (ls : list (list X)) : nat :=
  match ls with [] => 0%nat | l :: r => fold_left (fun n l => Nat.min n (List.length l)) r (List.length l) end.
Definition zip {X} (ls : list (list X)) : list (list X) :=
  map (fun i => flat_map (fun l => match nth_error l i with Some x => [x] | None => [] end) ls) (seq 0 (min_length ls)).

(* validation.py 768-793 args_to_iterable: every argument is converted before the first one is returned; the last
   entry holds the arguments after the first n, if there are more than n *)
Definition args_to_iterable (args : list arg) (n : nat) : res (list (option (list item)) * option (list (list item))) :=
  mapR (fun ls => (map (fun i => nth_error ls i) (seq 0 n), if Nat.ltb n (List.length args) then Some (skipn n ls) else None))
       (seqR (map ensure_iterable args)).

(* validation.py 247-255: the locations, (gpi, lon, lat, *args) each *)
Definition locations (gpis lons lats : arg) (args : list arg) : res (list (list item)) :=
  bindR (args_to_iterable (gpis :: lons :: lats :: args) 3) (fun r =>
  match r with
  | ([Some g; Some lo; Some la], rest) => Ok (zip (g :: lo :: la :: match rest with Some l => l | None => [] end))
  | _ => Err EType
  end).
End Args.
Arguments Atom {A}. Arguments Seq {A}. Arguments Dict {A}. Arguments Series {A}. Arguments It {A}. Arguments EmptySeq {A}.
Arguments ensure_iterable {A}. Arguments args_to_iterable {A}. Arguments locations {A}.

(* validation.calc( *job): the positional arguments gpis, lons, lats, *args; fewer than three: TypeError *)
Definition call_calc {A} (job : list (arg A)) : res (list (list (item A))) :=
  match job with
  | g :: lo :: la :: rest => locations g lo la rest
  | _ => Err EType
  end.
(* numbers: a grid point index or a coordinate *)
Inductive number := Index (z : Z) | Coord (q : Q).
(* the arguments in calc( *job) for a job as get_processing_jobs returns it *)
Definition job_args (j : job) : list (arg number) :=
  match j with
  | JobTriple t => let '(gpis, lons, lats) := t in [Seq (map Index gpis); Seq (map Coord lons); Seq (map Coord lats)]
  | JobInts l => map (fun z => Atom (Index z)) l
  | JobFloats l => map (fun q => Atom (Coord q)) l
  end.
(* the arguments in calc( *jobs) *)
Definition whole_args (js : list job) : list (arg number) :=
  map (fun j => match j with JobTriple _ => Atom (Index 0) (* not of use *) | JobInts l => Seq (map Index l) | JobFloats l => Seq (map Coord l) end) js.
