(* Independent specification of temporal collocation. *)
From Verif Require Import Base TemporalModel.

(* observations whose time lies in the closed interval [t-w, t+w], in order *)
Definition window_obs {A} (t w : Z) (obs : list (Z * A)) : list (Z * A) :=
  filter (fun o => (t - w <=? fst o) && (fst o <=? t + w)) obs.

(* mean of the non-missing values in the window, missing if there are none *)
Definition window_mean (t w : Z) (obs : list (Z * cell)) : cell :=
  nanmean (map snd (window_obs t w obs)).

(* the time series held by column i of a frame *)
Definition series (f : frame) (i : nat) : list (Z * cell) :=
  map (fun tr => (fst tr, nth i (snd tr) None)) (frows f).

(* every row has one cell per column *)
Definition wf_frame (f : frame) : Prop :=
  forall t r, In (t, r) (frows f) -> List.length r = List.length (fcols f).

Definition chronological (l : list Z) : Prop := StronglySorted Z.le l.
Definition monotone_times (l : list Z) : Prop :=
  StronglySorted Z.lt l \/ StronglySorted Z.gt l.

(* [r] is what a user expects at reference time t: the row of a nearest observation (the
   later one of two equally near times, the first row among equal timestamps) if it is at most
   w away, and an all-missing row if nothing is within w. *)
Definition nearest_row (obs : list (Z * row)) (ncol : nat) (t w : Z) (r : row) : Prop :=
  (exists s,
      find (fun o => fst o =? s) obs = Some (s, r) /\ Z.abs (s - t) <= w /\
      forall s' r', In (s', r') obs ->
        Z.abs (s - t) < Z.abs (s' - t) \/ (Z.abs (s - t) = Z.abs (s' - t) /\ s' <= s))
  \/ (r = repeat None ncol /\ forall s' r', In (s', r') obs -> w < Z.abs (s' - t)).

(* keep the rows selected by a validity array *)
Definition keep_rows (m : list bool) (f : frame) : frame :=
  mkFrame (fcols f) (mask_select m (frows f)).

Definition has_time (f : frame) (t : Z) : Prop := exists r, In (t, r) (frows f).

(* cells of the frame at time t: those of its row, or all missing *)
Definition cells_at (f : frame) (t : Z) (r : row) : Prop :=
  In (t, r) (frows f) \/ (~ has_time f t /\ r = repeat None (List.length (fcols f))).

(* side-by-side row at time t of a list of frames *)
Inductive row_of : list frame -> Z -> row -> Prop :=
| row_nil t : row_of [] t []
| row_cons f fs t r rs : cells_at f t r -> row_of fs t rs -> row_of (f :: fs) t (r ++ rs).

Definition nearest_opts : tc_opts := mkOpts MNearest false false false false NoFlag false.
Definition mean_opts : tc_opts := mkOpts MMean false false false false NoFlag false.
Definition with_flag (o : tc_opts) (fl : list bool) (ui : bool) : tc_opts :=
  mkOpts (o_method o) (o_return_index o) (o_return_distance o) (o_dropduplicates o) (o_dropna o)
         (FlagArr fl) ui.

(* which rows survive the combined_dropna option *)
Definition combined_keep (cd : combined_dropna) (r : row) : Prop :=
  match cd with
  | CDFalse => True
  | CDTrue | CDAny => forall c, In c r -> c <> None
  | CDAll => exists c, In c r /\ c <> None
  end.
