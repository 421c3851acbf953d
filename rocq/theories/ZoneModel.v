(* Time zones in temporal_matching.py: lines 283-305 (temporal_collocation) and 472-509
   (combined_temporal_collocation).

   An index with a time zone holds instants (UTC), an index without one holds wall-clock times.  A zone is
   identified by its name; `wall` gives the wall-clock time of an instant, `localize` the instant of a wall-clock
   time (None: the time does not exist or is ambiguous, pandas raises).  tz_convert keeps the instants.
   Warnings are dropped. *)
From Verif Require Export TemporalModel.

Record zframe := ZF { zone : option string; zdata : frame }.

Section Zones.
Variable wall : string -> Z -> Z.
Variable localize : string -> Z -> option Z.
Variable store : cell -> cell.
Variable oob : Z.

(* DatetimeIndex.tz_localize *)
Definition tz_localize (z : string) (l : list Z) : res (list Z) :=
  seqR (map (fun t => match localize z t with Some u => Ok u | None => Err EOther end) l).
(* the same data at other times *)
Definition with_index (f : frame) (ts : list Z) : frame := mkFrame (fcols f) (combine ts (map snd (frows f))).
Definition localize_frame (z : string) (f : frame) : res frame := mapR (with_index f) (tz_localize z (findex f)).

(* temporal_matching.py:285-305 *)
Definition align (rz : option string) (ref : list Z) (other : zframe) : res (option string * list Z * frame) :=
  match rz, zone other with
  | None, None => Ok (None, ref, zdata other)
  | None, Some z => mapR (fun ref => (Some z, ref, zdata other)) (tz_localize z ref)
  | Some z, None => mapR (fun d => (Some z, ref, d)) (localize_frame z (zdata other))
  | Some z, Some _ => Ok (Some z, ref, zdata other)
  end.

(* temporal_matching.py:184-380.  to_julian_date (345, 357) is computed from year, month, day, hour, ..., that is,
   from the wall-clock time. *)
Definition zoned_collocation (rz : option string) (ref : list Z) (other : zframe) (window : Z) (o : tc_opts) : res zframe :=
  bindR (eval_flag (o_flag o) (zdata other) (List.length ref)) (fun flagged =>
  bindR (align rz ref other) (fun a => let '(z, ref, other) := a in
  match o_method o, z with
  | MMean, Some zn =>
      let other := if o_dropduplicates o then mkFrame (fcols other) (dedup_first fst (frows other)) else other in
      let ref := if o_dropduplicates o then dedup_first (fun t => t) ref else ref in
      mapR (fun f => let f := with_index f ref in ZF z (if o_dropna o then dropna_all f else f))
        (collocate_mean store oob (map (wall zn) ref) (with_index other (map (wall zn) (findex other))) window flagged (o_use_invalid o))
  | MNearest, _ =>
      let other := mkFrame (fcols other) (dedup_first fst (frows other)) in
      let ref := dedup_first (fun t => t) ref in
      mapR (fun f => ZF z (if o_dropna o then dropna_all f else f))
        (collocate_nearest ref other window flagged (o_use_invalid o) (o_return_index o) (o_return_distance o))
  | MMean, None =>
      let other := if o_dropduplicates o then mkFrame (fcols other) (dedup_first fst (frows other)) else other in
      let ref := if o_dropduplicates o then dedup_first (fun t => t) ref else ref in
      mapR (fun f => ZF z (if o_dropna o then dropna_all f else f))
        (collocate_mean store oob ref other window flagged (o_use_invalid o))
  | MOther, _ => Err ENotImpl
  end)).

(* set(timezones) *)
Definition zone_eqb (a b : option string) : bool :=
  match a, b with None, None => true | Some x, Some y => String.eqb x y | _, _ => false end.
Fixpoint add_new (z : option string) (l : list (option string)) : list (option string) :=
  match l with [] => [z] | x :: r => if zone_eqb x z then l else x :: add_new z r end.
Definition zone_set (l : list (option string)) : list (option string) := fold_left (fun s z => add_new z s) l [].

(* temporal_matching.py:480-502: the zone to convert to (None: nothing to do) and the conversion of one frame *)
Definition target_zone (zs : list (option string)) : option string :=
  match zone_set zs with
  | [_] => None
  | _ => match zone_set (filter (fun z => match z with Some _ => true | None => false end) zs) with
         | [Some z] => Some z
         | _ => Some "UTC"%string
         end
  end.
Definition convert (z : string) (d : zframe) : res zframe :=
  match zone d with
  | None => mapR (ZF (Some z)) (localize_frame z (zdata d))
  | Some _ => Ok (ZF (Some z) (zdata d))
  end.

(* temporal_matching.py:457-509.  The result, and the reference after the call: `d.index = ...` changes the caller's
   object unless duplicates were removed from a copy. *)
Definition zoned_combined (reference : zframe) (others : list zframe) (window : Z) (o : tc_opts) (cd : combined_dropna)
    (add_ref_data : bool) : res (zframe * zframe) :=
  let o' := mkOpts (o_method o) false false (o_dropduplicates o) (o_dropna o) (o_flag o) (o_use_invalid o) in
  let r := zdata reference in
  bindR (seqR (map (fun f => zoned_collocation (zone reference) (findex r) f window o') others)) (fun dfs =>
  let own := if o_dropduplicates o then mkFrame (fcols r) (dedup_first fst (frows r)) else r in
  let dfs := if add_ref_data then ZF (zone reference) own :: dfs else dfs in
  bindR (match target_zone (map zone dfs) with
         | None => Ok (dfs, reference)
         | Some z => bindR (seqR (map (convert z) dfs)) (fun dfs' =>
                     if (add_ref_data && negb (o_dropduplicates o))%bool
                     then mapR (fun reference' => (dfs', reference')) (convert z reference)
                     else Ok (dfs', reference))
         end) (fun p => let '(dfs, reference) := p in
  mapR (fun merged => (ZF (match dfs with d :: _ => zone d | [] => None end)
                          (match cd with
                           | CDFalse => merged
                           | CDTrue | CDAny => dropna_any merged
                           | CDAll => dropna_all merged
                           end), reference))
       (concat_axis1 (map zdata dfs)))).
End Zones.
