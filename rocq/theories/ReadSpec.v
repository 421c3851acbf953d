(* Specification vocabulary for reading, upscaling and the data manager. *)
From Verif Require Export MatchersSpec ReadModel TemporalModel TemporalSpec.

(* How the data of a non-reference dataset are obtained for a reference point, with the reads
   this takes. *)
Inductive chosen reader period store oob unstable suffix (m : manager) (gpi : Z) (lon lat : Q) (d : dataset)
  : reads * option frame -> Prop :=
| ch_same o : d_compatible d = true ->                      (* same grid: same point *)
    accept_read period (reader (d_name d) gpi) = Ok o ->
    chosen reader period store oob unstable suffix m gpi lon lat d ([(d_name d, gpi)], o)
| ch_up p luts points l o : d_compatible d = false ->       (* the set of points of the table *)
    m_up m = Some (p, luts) -> luts (d_name d) = Some points ->
    get_upscaled_ts reader period store oob unstable suffix p points (d_columns d) (d_name d) gpi = (l, Ok o) ->
    chosen reader period store oob unstable suffix m gpi lon lat d (l, o)
| ch_lut lut g o : d_compatible d = false -> m_up m = None -> d_lut d = Some lut ->
    lut gpi = Ok g -> g <> -1 ->                            (* look-up table entry *)
    accept_read period (reader (d_name d) g) = Ok o ->
    chosen reader period store oob unstable suffix m gpi lon lat d ([(d_name d, g)], o)
| ch_lut_none lut : d_compatible d = false -> m_up m = None -> d_lut d = Some lut ->
    lut gpi = Ok (-1) ->                                    (* no entry: nothing is read *)
    chosen reader period store oob unstable suffix m gpi lon lat d ([], None)
| ch_near g dist o : d_compatible d = false -> m_up m = None -> d_lut d = None ->
    d_nearest d lon lat = (g, Some dist) ->                 (* nearest point within max_dist *)
    accept_read period (reader (d_name d) g) = Ok o ->
    chosen reader period store oob unstable suffix m gpi lon lat d ([(d_name d, g)], o)
| ch_near_none g : d_compatible d = false -> m_up m = None -> d_lut d = None ->
    d_nearest d lon lat = (g, None) ->                      (* no point in range *)
    chosen reader period store oob unstable suffix m gpi lon lat d ([], None).

(* datasets with data, in configuration order *)
Definition found (ds : list dataset) (outs : list (reads * option frame)) : df_dict :=
  List.concat (map (fun x => match snd (snd x) with Some f => [(d_name (fst x), f)] | None => [] end) (combine ds outs)).

(* the time series of one column of a station *)
Definition station_rows (column : string) (s : frame) (rows : list (Z * row)) : Prop :=
  exists i, col_pos column (fcols s) = Some i /\ rows = map (fun tr => (fst tr, [nth i (snd tr) None])) (frows s).

(* number of values of a station *)
Definition n_values (rows : list (Z * row)) : nat :=
  List.length (filter (fun tr => match snd tr with Some _ :: _ => true | _ => false end) rows).

(* the first of the longest series *)
Definition first_longest (ls : list (list (Z * row))) (l : list (Z * row)) : Prop :=
  exists before after, ls = before ++ l :: after /\
    (forall x, In x before -> (n_values x < n_values l)%nat) /\
    (forall x, In x after -> (n_values x <= n_values l)%nat).
