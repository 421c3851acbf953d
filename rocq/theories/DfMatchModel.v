(* Model of the deprecated matching functions df_match and matching,
   src/pytesmo/temporal_matching.py:14-181.
   Distances are in the same tick as the times.  The KD-tree query
   (pykdtree, temporal_matching.py:72-83) is an oracle returning, for the list of
   times of the other frame and a reference time, the position of a nearest time. *)
From Verif Require Export Base TemporalModel.

Inductive asym := AsymNone | AsymLE | AsymGE | AsymOther.

(* one matched row: merge_key, distance, index (time in the other frame), data *)
Record mrow := mkMrow { m_key : nat; m_dist : Z; m_index : Z; m_cells : row }.

(* temporal_matching.py:103-121; None: asym_window is an unknown string, then
   invalid_dist is not bound *)
Definition valid_dist (a : asym) (w d : Z) : option bool :=
  match a with
  | AsymNone => Some (negb (w <? Z.abs d))
  | AsymLE => Some (((0 <=? d) && (d <=? w)) || ((d <=? 0) && (- w <? d)))
  | AsymGE => Some (((0 <=? d) && (d <? w)) || ((d <=? 0) && (- w <=? d)))
  | AsymOther => None
  end.

(* DataFrame.sort_index on the reference times (stable) *)
Fixpoint insert_row {A} (x : Z * A) (l : list (Z * A)) : list (Z * A) :=
  match l with
  | [] => [x]
  | y :: r => if fst x <=? fst y then x :: l else y :: insert_row x r
  end.
Definition sort_index {A} (l : list (Z * A)) : list (Z * A) := fold_right insert_row [] l.

(* first row with minimal |distance| (Series.abs().idxmin()) *)
Fixpoint argmin_dist (best : Z * mrow) (l : list (Z * mrow)) : Z * mrow :=
  match l with
  | [] => best
  | x :: r => if Z.abs (m_dist (snd x)) <? Z.abs (m_dist (snd best))
              then argmin_dist x r else argmin_dist best r
  end.

Section DfMatch.
Variable kd : list Z -> Z -> nat.

(* temporal_matching.py:83-100: match table merged with the other frame *)
Definition match_table (ref : list Z) (arg : frame) : list (Z * mrow) :=
  sort_index (map (fun t =>
    let i := kd (findex arg) t in
    let s := nth i (findex arg) 0 in
    (t, mkMrow i (s - t) s (nth i (map snd (frows arg)) []))) ref).

(* temporal_matching.py:102-122: rows outside of the window become NaN *)
Definition apply_window (window : option Z) (a : asym) (l : list (Z * mrow))
  : res (list (Z * option mrow)) :=
  match window with
  | None => Ok (map (fun x => (fst x, Some (snd x))) l)
  | Some w =>
    seqR (map (fun x => match valid_dist a w (m_dist (snd x)) with
                        | Some true => Ok (fst x, Some (snd x))
                        | Some false => Ok (fst x, None)
                        | None => Err EOther
                        end) l)
  end.

(* dropna(how="all"): a matched row always holds merge_key and distance *)
Definition drop_all_nan (l : list (Z * option mrow)) : list (Z * mrow) :=
  flat_map (fun x => match snd x with Some m => [(fst x, m)] | None => [] end) l.

Definition keys_sorted (l : list (Z * mrow)) : list Z :=
  sort_union (map (fun x => Z.of_nat (m_key (snd x))) l).

(* temporal_matching.py:127-131: groupby("merge_key"), idxmin label, .loc[labels] *)
Definition drop_dups (l : list (Z * mrow)) : list (Z * mrow) :=
  flat_map (fun k =>
    match filter (fun x => Z.of_nat (m_key (snd x)) =? k) l with
    | [] => []
    | x :: r => let best := argmin_dist x r in filter (fun y => fst y =? fst best) l
    end) (keys_sorted l).

(* temporal_matching.py:69-134 for one argument *)
Definition df_match (ref : list Z) (arg : frame) (window : option Z) (a : asym)
    (dropna dropduplicates : bool) : res (list (Z * option mrow)) :=
  match ref, frows arg with
  | [], _ => Err EIndex
  | _, [] => Err EOther
  | _, _ =>
    mapR (fun l =>
      let l1 := if dropna then map (fun x => (fst x, Some (snd x))) (drop_all_nan l) else l in
      if dropduplicates then map (fun x => (fst x, Some (snd x))) (drop_dups (drop_all_nan l1)) else l1)
    (apply_window window a (match_table ref arg))
  end.

(* matching, temporal_matching.py:142-181, for a reference without duplicated
   times: left join of the matched frames on the reference, rows with NaN dropped *)
Definition join_row (m : list (Z * option mrow)) (ncol : nat) (t : Z) : row :=
  match find (fun x => fst x =? t) m with
  | Some (_, Some r) => m_cells r
  | _ => nan_row ncol
  end.

Definition matching (reference : frame) (args : list frame) (window : option Z) (a : asym)
  : res frame :=
  bindR (seqR (map (fun arg => df_match (findex reference) arg window a true true) args))
  (fun ms => Ok (dropna_any
     (mkFrame (fcols reference ++ flat_map fcols args)
        (map (fun tr => (fst tr, snd tr ++
                 flat_map (fun am => join_row (snd am) (ncols (fst am)) (fst tr)) (combine args ms)))
             (frows reference))))).
End DfMatch.
