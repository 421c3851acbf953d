(* Model of the data frame wrappers: /repo/src/pytesmo/df_metrics.py.

   Simplifications: a frame is the list of its numeric columns (name, values) of equal length
   (df._get_numeric_data() is not modelled); an infinite value counts as NaN (np.isfinite); the metric is a
   function of the list of its argument arrays that returns its values (np.atleast_1d) or raises. *)
From Verif Require Export Base.
From Verif Require Import NamesModel GroupingModel TcolModel.
From Coq Require Import Reals Qreals.
Local Open Scope nat_scope.

(* itertools.permutations(l, k): by positions, lexicographically *)
Fixpoint picks {A} (l : list A) : list (A * list A) :=
  match l with
  | [] => []
  | x :: r => (x, r) :: map (fun p => (fst p, x :: snd p)) (picks r)
  end.
Fixpoint permutations {A} (k : nat) (l : list A) : list (list A) :=
  match k with
  | O => [[]]
  | S k' => flat_map (fun p => map (cons (fst p)) (permutations k' (snd p))) (picks l)
  end.

(* the must_include argument: None, one element (not iterable, or a string), or a list *)
Inductive must (A : Type) := MNone | MOne (x : A) | MList (l : list A).
Arguments MNone {A}. Arguments MOne {A} x. Arguments MList {A} l.

(* df_metrics.py 48-85: n_combinations; `truthy` is python's truth value of an element *)
Definition n_combinations {A} (eqb : A -> A -> bool) (truthy : A -> bool) (items : list A) (n : nat) (mi : must A) (perm : bool) : list (list A) :=
  let required := match mi with
                  | MNone => []
                  | MOne x => if truthy x then [x] else []
                  | MList l => l
                  end in
  filter (fun c => forallb (fun i => existsb (eqb i) c) required) (if perm then permutations n items else combinations n items).

Definition frame := list (string * list cell).
Definition ncols (f : frame) : nat := List.length f.
Definition col (f : frame) (i : nat) : list cell := nth i (map snd f) [].
Definition colname (f : frame) (i : nat) : string := nth i (map fst f) ""%string.

Fixpoint set_at {A} (i : nat) (v : A) (l : list A) : list A :=
  match l, i with
  | [], _ => []
  | _ :: r, O => v :: r
  | x :: r, S i' => x :: set_at i' v r
  end.

(* df_metrics.py 530: np.logical_and(mask[i], mask[j][, out]); with three arrays the third one is the output
   buffer, a view of the mask array, which is overwritten; other numbers of arguments raise TypeError *)
Definition logical_and (masks : list (list bool)) (comb : list nat) : res (list bool * list (list bool)) :=
  match comb with
  | [i; j] => Ok (map2 andb (nth i masks []) (nth j masks []), masks)
  | [i; j; k] => let v := map2 andb (nth i masks []) (nth j masks []) in Ok (v, set_at k v masks)
  | _ => Err EType
  end.

Definition key_eqb (a b : list string) : bool := if list_eq_dec string_dec a b then true else false.

Section Nwise.
Context {V : Type}.
(* the method without (line 519) and with (lines 536-538) its keyword arguments *)
Variables method0 method : list (list cell) -> res (list V).

(* df_metrics.py 529-541: one row of values per combination *)
Fixpoint nwise_loop (f : frame) (nres : nat) (masks : list (list bool)) (combs : list (list nat)) : res (list (list nat * list (option V))) :=
  match combs with
  | [] => Ok []
  | comb :: rest =>
      bindR (logical_and masks comb) (fun vm =>
      let valid := fst vm in
      bindR (if existsb (fun b => b) valid then
               bindR (method (map (fun i => if forallb (fun b => b) valid then col f i else mask_select valid (col f i)) comb)) (fun c =>
               if Nat.ltb nres (List.length c) then Err EIndex else Ok (map Some c ++ repeat None (nres - List.length c)))
             else Ok (repeat None nres)) (fun row =>
      mapR (cons (comb, row)) (nwise_loop f nres (snd vm) rest)))
  end.

(* df_metrics.py 499-541 *)
Definition nwise_rows (f : frame) (n : nat) (comm : bool) (mi : must nat) : res (nat * list (list nat * list (option V))) :=
  let combs := n_combinations Nat.eqb (fun i => negb (Nat.eqb i 0)) (seq 0 (ncols f)) n mi (negb comm) in
  if Nat.ltb (ncols f) n then Err EIndex else
  bindR (array_dropna (map (col f) (seq 0 n))) (fun args =>
  bindR (method0 args) (fun c0 =>
  let nres := List.length c0 in
  mapR (fun rows => (nres, rows)) (nwise_loop f nres (map (map notna) (map snd f)) combs))).

(* df_metrics.py 521-523, 541: the dictionary of the q-th value *)
Definition dict_of (q : nat) (rows : list (list nat * list (option V))) : list (list nat * option V) :=
  map (fun r => (fst r, nth q (snd r) None)) rows.

(* df_metrics.py 449-563 with as_df=False, ds_names=True; one dictionary per value of the method (a single
   dictionary is returned unpacked by the code) *)
Definition nwise_apply (f : frame) (n : nat) (comm : bool) (mi : must nat) : res (list (list (list string * option V))) :=
  mapR (fun nr => map (fun q => fold_left (fun d kv => dict_set key_eqb d (map (colname f) (fst kv)) (snd kv)) (dict_of q (snd nr)) []) (seq 0 (fst nr)))
       (nwise_rows f n comm mi).

(* np.triu_indices(K, 1) and np.tril_indices(K, -1), row by row *)
Definition triu (K : nat) : list (nat * nat) := flat_map (fun i => map (fun j => (i, j)) (seq (i + 1) (K - 1 - i))) (seq 0 K).
Definition tril (K : nat) : list (nat * nat) := flat_map (fun i => map (fun j => (i, j)) (seq 0 i)) (seq 0 K).

Definition mat := nat -> nat -> option V.
Definition mset (m : mat) (i j : nat) (v : option V) : mat := fun a b => if Nat.eqb a i && Nat.eqb b j then v else m a b.

Fixpoint lmax (l : list nat) : nat := match l with [] => 0 | x :: r => Nat.max x (lmax r) end.

(* df_metrics.py 583-594: the matrix of a dictionary with keys (i, j) *)
Definition fill (r : list (list nat * option V)) : mat :=
  fold_left (fun m kv => match fst kv with [i; j] => mset m i j (snd kv) | _ => m end) r (fun _ _ => None).
Definition copy_lower (K : nat) (m : mat) : mat :=
  fold_left (fun m' p => mset m' (fst (fst p)) (snd (fst p)) (m (fst (snd p)) (snd (snd p)))) (combine (tril K) (triu K)) m.

(* df_metrics.py 566-604: _to_df, as names and entries; `names i` is the entry of the lookup table.  A number
   without name raises KeyError, repeated names a length mismatch *)
Definition to_df (r : list (list nat * option V)) (comm : bool) (names : nat -> option string) : res (list string * mat) :=
  match r with
  | [] => Err EValue
  | _ =>
      let K := S (lmax (List.concat (map fst r))) in
      let m := if comm then copy_lower K (fill r) else fill r in
      bindR (seqR (map (fun i => match names i with Some s => Ok s | None => Err EKey end) (seq 0 K))) (fun ns =>
      if Nat.eqb (List.length (nodup string_dec ns)) K then Ok (ns, m) else Err EValue)
  end.

(* df_metrics.py 449-563 with as_df=True, ds_names=True *)
Definition nwise_df (f : frame) (n : nat) (comm : bool) (mi : must nat) : res (list (list string * mat)) :=
  bindR (nwise_rows f n comm mi) (fun nr =>
  if negb (Nat.eqb n 2) then Err EValue else
  let used := List.concat (map fst (snd nr)) in
  let names i := if existsb (Nat.eqb i) used then Some (colname f i) else None in
  seqR (map (fun q => to_df (dict_of q (snd nr)) comm names) (seq 0 (fst nr)))).

End Nwise.

(* ---- pairwise_apply (deprecated), df_metrics.py 383-446 ---- *)
Section Pairwise.
Variable method : list (list cell) -> res (list cell).

Definition cmat := nat -> nat -> cell.
Definition cset (m : cmat) (i j : nat) (v : cell) : cmat := fun a b => if Nat.eqb a i && Nat.eqb b j then v else m a b.

Definition pw_valid (f : frame) (i j : nat) : list bool := map2 andb (map notna (col f i)) (map notna (col f j)).
(* lines 425-437 *)
Definition pw_step (f : frame) (comm : bool) (ms : list cmat) (ij : nat * nat) : res (list cmat) :=
  let i := fst ij in let j := snd ij in
  if Nat.eqb i j then Ok ms else
  if comm && notna (hd (fun _ _ => None) ms i j) then Ok ms else
  let valid := pw_valid f i j in
  if negb (existsb (fun b => b) valid) then Ok ms else
  bindR (method (map (fun i => if forallb (fun b => b) valid then col f i else mask_select valid (col f i)) [i; j])) (fun c =>
  if Nat.ltb (List.length ms) (List.length c) then Err EIndex else
  Ok (map2 (fun m v => let m' := cset m i j v in if comm then cset m' j i v else m') (firstn (List.length c) ms) c ++ skipn (List.length c) ms)).

Fixpoint pw_loop (f : frame) (comm : bool) (ms : list cmat) (ijs : list (nat * nat)) : res (list cmat) :=
  match ijs with
  | [] => Ok ms
  | ij :: r => bindR (pw_step f comm ms ij) (fun ms' => pw_loop f comm ms' r)
  end.

Definition pairwise_apply (f : frame) (comm : bool) : res (list cmat) :=
  if Nat.eqb (ncols f) 0 then Err EIndex else
  bindR (method [col f 0; col f 0]) (fun c =>
  pw_loop f comm (map (fun _ => (fun _ _ => None) : cmat) c) (product (seq 0 (ncols f)) (seq 0 (ncols f)))).
End Pairwise.

(* ---- triple collocation of frames ---- *)

(* metrics.tcol_metrics on arrays; a NaN in an array makes every covariance with it NaN *)
Definition tcol_method (ref : nat) (args : list (list cell)) : res (list (list (option R))) :=
  match args with
  | [x; y; z] =>
      let nan := existsb (fun c => is_nan c) (x ++ y ++ z) in
      let rows := if nan then [] else map2 (fun a bc => fun i : nat => match i with O => a | 1 => fst bc | _ => snd bc end) (map Q2R (vals x)) (combine (map Q2R (vals y)) (map Q2R (vals z))) in
      mapR (fun r => [fst (fst r); snd (fst r); snd r]) (tcol_metrics rows ref)
  | _ => Err EType
  end.

(* df_metrics.py 302-311: one named tuple per triple; a NaN instead of an array is not iterable *)
Definition inner (d : list (list string * option (list (option R)))) : res (list (list (string * option R))) :=
  seqR (map (fun kv => match snd kv with Some v => Ok (combine (fst kv) v) | None => Err EType end) d).

(* df_metrics.py 261-311: tcol_metrics; the method is called without ref_ind first (default 0) *)
Definition df_tcol_metrics (f : frame) (ref : option nat) : res (list (list (list (string * option R)))) :=
  let mi := match ref with Some r => MList [r] | None => MNone end in
  let r := match ref with Some r => r | None => 0 end in
  bindR (nwise_apply (tcol_method 0) (tcol_method r) f 3 true mi) (fun ds => seqR (map inner ds)).
