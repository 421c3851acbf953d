(* Model of src/pytesmo/utils.py:88-126 interp_uniq.  The element type is a parameter, so that the same
   text is the function on exact numbers, on integer arrays (assignments truncate), on doubles and on numbers with
   missing values.  np.unique takes two NaN for the same value, the comparison src == v does not, so that there
   are two equalities. *)
From Verif Require Export Base.

(* l[i]; IndexError outside *)
Definition item {A} (l : list A) (i : nat) : res A := match nth_error l i with Some x => Ok x | None => Err EIndex end.
(* l[i] = v, for an index of the list *)
Fixpoint put {A} (i : nat) (v : A) (l : list A) : list A :=
  match l, i with
  | [], _ => []
  | _ :: r, O => v :: r
  | x :: r, S k => x :: put k v r
  end.

Section Uniq.
Context {T : Type}.
(* same: the equality of np.unique; eqb: the comparison ==; ltb: the order of np.unique, NaN last *)
Variables same eqb ltb : T -> T -> bool.
(* (a + b) / 2.0, converted to the type of the array when it is stored *)
Variable half : T -> T -> T.

(* np.unique(src, return_index=True)[1]: the positions of first occurrences, ordered by value *)
Fixpoint firsts (seen : list T) (i : nat) (l : list T) : list (T * nat) :=
  match l with
  | [] => []
  | x :: r => (if existsb (same x) seen then [] else [(x, i)]) ++ firsts (x :: seen) (S i) r
  end.
Fixpoint insert (p : T * nat) (l : list (T * nat)) : list (T * nat) :=
  match l with
  | [] => [p]
  | q :: r => if ltb (fst p) (fst q) then p :: l else q :: insert p r
  end.
Definition unique_index (src : list T) : list nat := map snd (fold_right insert [] (firsts [] 0 src)).

(* np.where(src == v)[0] *)
Definition positions (v : T) (src : list T) : list nat :=
  map fst (filter (fun ix => eqb (snd ix) v) (combine (seq 0 (List.length src)) src)).

(* utils.py:115-124: the run of one repeated value; the index pos[0] - 1 is -1, the last element, if the
   run starts at 0 *)
Definition fix_run (src : list T) (pos : list nat) : res (list T) :=
  let size := List.length src in
  match pos with
  | p0 :: p1 :: _ =>
      let pl := last pos p0 in
      let before := nth (List.length pos - 2) pos p0 in
      let prev := match p0 with O => (size - 1)%nat | S k => k end in
      if (Nat.eqb p0 0 && Nat.ltb pl (size - 1))%bool then
        bindR (item src before) (fun a => bindR (item src (S pl)) (fun b => Ok (put pl (half a b) src)))
      else if Nat.eqb pl (size - 1) then
        bindR (item src p1) (fun a => bindR (item src prev) (fun b => Ok (put p0 (half a b) src)))
      else
        bindR (item src p1) (fun a => bindR (item src prev) (fun b =>
        let s := put p0 (half a b) src in
        bindR (item s p0) (fun a => bindR (item s (S p1)) (fun b => Ok (put p1 (half a b) s)))))
  | _ => Ok src
  end.
(* utils.py:113-125: one round of the for loop *)
Definition round (st : list T * list nat) (i : nat) : res (list T * list nat) :=
  bindR (item (snd st) i) (fun u => bindR (item (fst st) u) (fun v =>
  mapR (fun s => (s, unique_index s)) (fix_run (fst st) (positions v (fst st))))).
Definition sweep (st : list T * list nat) : res (list T * list nat) :=
  fold_left (fun acc i => bindR acc (fun st => round st i)) (seq 0 (List.length (snd st))) (Ok st).
(* utils.py:107-126: None if the while loop is still running after the given number of sweeps *)
Fixpoint while (fuel : nat) (st : list T * list nat) : option (res (list T)) :=
  if Nat.eqb (List.length (snd st)) (List.length (fst st)) then Some (Ok (fst st))
  else match fuel with
       | O => None
       | S f => match sweep st with Ok st' => while f st' | Err e => Some (Err e) end
       end.
Definition interp_uniq (fuel : nat) (src : list T) : option (res (list T)) := while fuel (src, unique_index src).
End Uniq.
