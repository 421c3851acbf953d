(* Models of src/pytesmo/utils.py (array_dropna) and of the result-name enumeration in
   src/pytesmo/validation_framework/data_manager.py.  Dataset and column names are strings. *)
From Verif Require Export Base.

(* ------------------------------------------------------------------ utils *)

(* np.logical_or(a, b[, out]) on equally long arrays; a third array is only the output buffer.
   One array, or more than three, is a TypeError.  Broadcasting of length-1 arrays is not modelled. *)
Definition logical_or (masks : list (list bool)) : res (list bool) :=
  match masks with
  | [a; b] => if Nat.eqb (List.length a) (List.length b) then Ok (map2 orb a b) else Err EValue
  | [a; b; c] => if Nat.eqb (List.length a) (List.length b) && Nat.eqb (List.length a) (List.length c)
                 then Ok (map2 orb a b) else Err EValue
  | _ => Err EType
  end.

(* utils.py:176-197 array_dropna.  (The unpacking for a single array is unreachable.) *)
Definition array_dropna (arrs : list (list cell)) : res (list (list cell)) :=
  mapR (fun m => map (mask_select (map negb m)) arrs) (logical_or (map (map is_nan) arrs)).

(* ------------------------------------------------------------- sorting *)

Section Sort.
Context {A : Type} (leb : A -> A -> bool).
Fixpoint s_insert (x : A) (l : list A) : list A :=
  match l with
  | [] => [x]
  | y :: r => if leb x y then x :: l else y :: s_insert x r
  end.
Definition s_sort (l : list A) : list A := fold_right s_insert [] l.
End Sort.

(* python compares strings by code points and tuples lexicographically *)
Definition str_leb (a b : string) : bool := String.leb a b.
Notation dscol := (string * string)%type.
Definition pair_leb (a b : dscol) : bool :=
  if String.eqb (fst a) (fst b) then str_leb (snd a) (snd b) else str_leb (fst a) (fst b).
Definition pair_eqb (a b : dscol) : bool := String.eqb (fst a) (fst b) && String.eqb (snd a) (snd b).
Fixpoint combo_leb (a b : list dscol) : bool :=
  match a, b with
  | [], _ => true
  | _ :: _, [] => false
  | x :: a', y :: b' => if pair_eqb x y then combo_leb a' b' else pair_leb x y
  end.

(* ------------------------------------------------------------ combinations *)

(* itertools.combinations(l, k) *)
Fixpoint combinations {A} (k : nat) (l : list A) : list (list A) :=
  match k with
  | O => [[]]
  | S k' => match l with
            | [] => []
            | x :: r => map (cons x) (combinations k' r) ++ combinations k r
            end
  end.
(* itertools.product of two lists *)
Definition product {A B} (l : list A) (m : list B) : list (A * B) :=
  flat_map (fun a => map (fun b => (a, b)) m) l.

(* -------------------------------------------------------------- data_manager.py *)

(* nested tuples and lists of strings *)
Inductive nested := Leaf (s : string) | Node (l : list nested).
(* data_manager.py:349-358 flatten *)
Fixpoint flatten (t : nested) : list string :=
  match t with
  | Leaf s => [s]
  | Node l => flat_map flatten l
  end.
Definition nest_pair (p : dscol) : nested := Node [Leaf (fst p); Leaf (snd p)].

(* [l[pos:pos+k] for pos in range(0, len(l), k)] *)
Fixpoint chunk_fuel {A} (fuel k : nat) (l : list A) : list (list A) :=
  match fuel with
  | O => []
  | S f => match l with [] => [] | _ => firstn k l :: chunk_fuel f k (skipn k l) end
  end.
Definition chunks {A} (k : nat) (l : list A) : list (list A) := chunk_fuel (List.length l) k l.

(* chunk[::2] and chunk[1::2] *)
Fixpoint evens {A} (l : list A) : list A :=
  match l with x :: _ :: r => x :: evens r | [x] => [x] | [] => [] end.
Definition odds {A} (l : list A) : list A := evens (tl l).

(* len(set(l)) *)
Fixpoint str_nub (l : list string) : list string :=
  match l with [] => [] | x :: r => if existsb (String.eqb x) r then str_nub r else x :: str_nub r end.

(* a dictionary from dataset names to column lists, in insertion order *)
Definition ds_dict := list (string * list string).
Definition columns_of (d : ds_dict) (k : string) : option (list string) :=
  option_map snd (find (fun e => String.eqb (fst e) k) d).

(* data_manager.py:390-454 get_result_names (n >= 1; itertools.combinations raises ValueError for
   n = 0) *)
Definition get_result_names (d : ds_dict) (refkey : string) (n : nat) : res (list (list dscol)) :=
  match columns_of d refkey with
  | None => Err EKey
  | Some refcols =>
      let ref_columns := map (fun c => (refkey, c)) refcols in
      let other_names := filter (fun k => negb (String.eqb k refkey)) (map fst d) in
      let other_columns :=
        flat_map (fun o => map (fun c => (o, c)) (match columns_of d o with Some cs => cs | None => [] end))
                 (s_sort str_leb other_names) in
      match n with
      | O => Err EValue
      | S n' =>
          let results_names := product ref_columns (combinations n' other_columns) in
          let flat := flatten (Node (map (fun c => Node [nest_pair (fst c); Node (map nest_pair (snd c))]) results_names)) in
          Ok (flat_map (fun chunk =>
                let datasets := evens chunk in
                let columns := odds chunk in
                if Nat.eqb (List.length (str_nub datasets)) n
                then [s_sort pair_leb (combine datasets columns)]
                else [])
              (chunks (n * 2) flat))
      end
  end.

Definition combo_eqb (a b : list dscol) : bool := combo_leb a b && combo_leb b a.
(* sorted(list(set(l))) *)
Definition sorted_set (l : list (list dscol)) : list (list dscol) :=
  fold_right (fun x acc => if existsb (combo_eqb x) acc then acc else s_insert combo_leb x acc) [] l.

(* data_manager.py:361-387 get_result_combinations *)
Definition get_result_combinations (d : ds_dict) (n : nat) : res (list (list dscol)) :=
  mapR (fun ls => sorted_set (List.concat ls)) (seqR (map (fun k => get_result_names d k n) (map fst d))).
