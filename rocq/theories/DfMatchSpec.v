(* Independent specification for df_match. *)
From Verif Require Import Base TemporalModel DfMatchModel.

(* the nearest-neighbour search returns the position of a nearest time *)
Definition kd_correct (kd : list Z -> Z -> nat) : Prop :=
  forall times t, times <> [] ->
    (kd times t < List.length times)%nat /\
    forall s, In s times -> Z.abs (nth (kd times t) times 0 - t) <= Z.abs (s - t).

(* admissible signed distances (other minus reference) of the three window modes *)
Definition in_asym_window (a : asym) (w d : Z) : Prop :=
  match a with
  | AsymNone => - w <= d <= w
  | AsymLE => - w < d <= w
  | AsymGE => - w <= d < w
  | AsymOther => False
  end.

(* m is the row of a nearest observation of [arg] for reference time t *)
Definition nearest_match (arg : frame) (t : Z) (m : mrow) : Prop :=
  nth_error (frows arg) (m_key m) = Some (m_index m, m_cells m) /\
  m_dist m = m_index m - t /\
  forall s r, In (s, r) (frows arg) -> Z.abs (m_index m - t) <= Z.abs (s - t).
