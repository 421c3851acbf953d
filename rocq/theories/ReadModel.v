(* Models of src/pytesmo/validation_framework/upscaling.py and of the reading part of
   data_manager.py.  Reading is an oracle; computations that read are written in a monad that
   records the reads in order and carries python exceptions as values. *)
From Verif Require Export MatchersModel TemporalModel.

(* what calling the reading method of a dataset may give *)
Inductive read_outcome :=
| RFrame (f : frame)              (* a DataFrame (a TS object is unwrapped) *)
| RObject (len : option nat)      (* another object; None: it has no len() *)
| RIOError
| RRuntime (msg : string)         (* RuntimeError(msg) *)
| RRaise (e : err).               (* any other exception *)

(* reads: (dataset, grid point) *)
Definition reads := list (string * Z).
Definition M (A : Type) := (reads * res A)%type.
Definition retM {A} (r : res A) : M A := ([], r).
Definition bindM {A B} (x : M A) (f : A -> M B) : M B :=
  match x with
  | (l, Ok a) => let (l', r) := f a in (l ++ l', r)
  | (l, Err e) => (l, Err e)
  end.
Fixpoint mapM {A B} (f : A -> M B) (l : list A) : M (list B) :=
  match l with
  | [] => retM (Ok [])
  | a :: r => bindM (f a) (fun b => bindM (mapM f r) (fun bs => retM (Ok (b :: bs))))
  end.

(* a label slice of a chronologically sorted index; both ends included.  [snd p] is the last
   instant of the end date's resolution *)
Definition period_slice (p : Z * Z) (f : frame) : frame :=
  mkFrame (fcols f) (filter (fun tr => (fst p <=? fst tr) && (fst tr <=? snd p)) (frows f)).

(* upscaling.py:66-115 MixinReadTs.read_ds after the call of the reader *)
Definition accept_read (period : option (Z * Z)) (o : read_outcome) : res (option frame) :=
  match o with
  | RIOError => Ok None
  | RRuntime msg => if String.eqb msg "No such file or directory" then Ok None else Err EOther
  | RRaise e => Err e
  | RObject None => Err EType
  | RObject (Some _) => Ok None
  | RFrame f =>
      if Nat.eqb (List.length (frows f)) 0 then Ok None
      else
        let f' := match period with Some p => period_slice p f | None => f end in
        if Nat.eqb (List.length (frows f')) 0 then Ok None else Ok (Some f')
  end.

Section Reading.
(* getattr(ds["class"], read_ts_names[name])(gpi, *args, **kwargs) *)
Variable reader : string -> Z -> read_outcome.
Variable period : option (Z * Z).

(* upscaling.py:43-115 *)
Definition read_ds (name : string) (gpi : Z) : M (option frame) :=
  ([(name, gpi)], accept_read period (reader name gpi)).

(* ------------------------------------------------------------- upscaling *)

Variable store : cell -> cell.
Variable oob : Z.

(* df.count().iloc[0]: non-missing values of the first column; IndexError without columns *)
Definition first_count (f : frame) : nat :=
  List.length (filter notna (col_values f 0)).
(* upscaling.py:208-217: the first series with the largest count *)
Definition longest (to_match : list frame) (f0 : frame) : frame :=
  fold_left (fun ref df => if Nat.leb (first_count df) (first_count ref) then ref else df) to_match f0.

(* DataFrame.dropna(axis="columns", how="all") *)
Definition column_missing (f : frame) (i : nat) : bool := forallb is_nan (col_values f i).
Definition keep_columns (p : nat -> bool) (f : frame) : frame :=
  let m := map p (seq 0 (ncols f)) in
  mkFrame (mask_select m (fcols f)) (map (fun tr => (fst tr, mask_select m (snd tr))) (frows f)).

(* upscaling.py:189-234 Upscaling.temporal_match (a window of [window] ticks) *)
Definition up_match (window : Z) (drop_missing : bool) (to_match : list frame) : res frame :=
  match to_match with
  | [] => Err EIndex
  | f0 :: _ =>
      let ref := longest to_match f0 in
      mapR (fun matched => keep_columns (fun i => negb (column_missing matched i)) matched)
        (combined_temporal_collocation store oob ref to_match window
           (mkOpts MNearest false false false false NoFlag false)
           (if drop_missing then CDAny else CDFalse) false)
  end.

(* df.mean(axis=1) (missing values skipped) *)
Definition row_means (f : frame) : list cell := map (fun tr => nanmean (snd tr)) (frows f).

(* scipy.stats.linregress(estimate, pm): whether rvalue < r_min or stderr > see_max *)
Variable unstable : list cell -> list cell -> bool.

(* upscaling.py:237-288 tstability_filter *)
Definition tstability_filter (min_n : nat) (f : frame) : frame :=
  if Nat.ltb (ncols f) min_n then f
  else
    let estimate := row_means f in
    keep_columns (fun i => negb (unstable estimate (col_values f i))) f.

(* upscaling.py:290-329: only "average" is known *)
Definition upscale (method : string) (column : string) (f : frame) : res frame :=
  if String.eqb method "average"
  then Ok (mkFrame [column] (map (fun tr => (fst tr, [nanmean (snd tr)])) (frows f)))
  else Err EKey.

Record up_parms := mkUp {
  u_method : string; u_stability : bool; u_window : Z; u_drop_missing : bool; u_min_n : nat }.

(* point_df[target_column].to_frame(name) ; KeyError without that column *)
Definition target_frame (column name : string) (f : frame) : res frame :=
  match col_pos column (fcols f) with
  | None => Err EKey
  | Some i => Ok (mkFrame [name] (map (fun tr => (fst tr, [nth i (snd tr) None])) (frows f)))
  end.

(* decimal digits of n, as str.format does; only their distinctness matters *)
Variable suffix : nat -> string.

Definition opt_list {A} (o : option A) : list A := match o with Some a => [a] | None => [] end.

(* upscaling.py:331-401 get_upscaled_ts; [points] is self.lut[other_name] *)
Definition get_upscaled_ts (p : up_parms) (points : list (Z * list Z)) (columns : list string)
    (name : string) (gpi : Z) : M (option frame) :=
  match find (fun e => fst e =? gpi) points with
  | None => retM (Ok None)
  | Some (_, other_points) =>
      bindM (mapM (read_ds name) other_points) (fun tss =>
      match List.concat (map opt_list tss) with
      | [] => retM (Ok None)
      | [one] => retM (Ok (Some one))
      | tss => match columns with [] => retM (Err EIndex) | column :: _ =>
          retM
            (bindR (seqR (map (fun nf => target_frame column (column ++ "_" ++ suffix (fst nf))%string (snd nf))
                       (combine (seq 0 (List.length tss)) tss))) (fun to_match =>
             bindR (up_match (u_window p) (u_drop_missing p) to_match) (fun matched =>
             let matched := if u_stability p then tstability_filter (u_min_n p) matched else matched in
             mapR Some (upscale (u_method p) column matched))))
      end end)
  end.

(* --------------------------------------------------------- data manager *)

(* a dataset other than the reference *)
Record dataset := mkDs {
  d_name : string;
  d_columns : list string;
  d_compatible : bool;                     (* grids_compatible *)
  d_lut : option (Z -> res Z);             (* calc_lut result if use_lut (data_manager.py:170-191) *)
  d_nearest : Q -> Q -> Z * option Q       (* grid.find_nearest_gpi within max_dist; None: inf *)
}.
(* [m_up]: upscaling parameters and, per dataset, the table of points *)
Record manager := mkMan {
  m_ref : string; m_others : list dataset;
  m_up : option (up_parms * (string -> option (list (Z * list Z)))) }.

(* data_manager.py:316-345: one pass of the loop; None: no entry for this dataset *)
Definition get_other (m : manager) (gpi : Z) (lon lat : Q) (d : dataset) : M (option frame) :=
  if d_compatible d then read_ds (d_name d) gpi
  else match m_up m with
  | Some (p, luts) =>
      match luts (d_name d) with
      | None => retM (Err EKey)
      | Some points => get_upscaled_ts p points (d_columns d) (d_name d) gpi
      end
  | None =>
      match d_lut d with
      | Some lut => bindM (retM (lut gpi)) (fun g => if g =? -1 then retM (Ok None) else read_ds (d_name d) g)
      | None =>
          let (g, dist) := d_nearest d lon lat in
          match dist with
          | None => retM (Ok None)
          | Some _ => read_ds (d_name d) g
          end
      end
  end.

Fixpoint other_loop (m : manager) (gpi : Z) (lon lat : Q) (ds : list dataset) (acc : df_dict) : M df_dict :=
  match ds with
  | [] => retM (Ok acc)
  | d :: rest =>
      bindM (get_other m gpi lon lat d) (fun o =>
      other_loop m gpi lon lat rest
        (match o with Some f => dict_set String.eqb acc (d_name d) f | None => acc end))
  end.

(* data_manager.py:253-290 get_data *)
Definition get_data (m : manager) (gpi : Z) (lon lat : Q) : M df_dict :=
  bindM (read_ds (m_ref m) gpi) (fun ref =>
  match ref with
  | None => retM (Ok [])
  | Some ref_df =>
      bindM (other_loop m gpi lon lat (m_others m) []) (fun others =>
      retM (Ok (match others with [] => [] | _ => dict_set String.eqb others (m_ref m) ref_df end)))
  end).
End Reading.
