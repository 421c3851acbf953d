(* C135: the same observations with time running backwards. *)
From Verif Require Import Base TemporalModel.

(* a series as seen with time running backwards: times change sign, the last observation comes first *)
Definition backwards (pts : list (Q * cell)) : list (Q * cell) := rev (map (fun p => ((- fst p)%Q, snd p)) pts).
Definition backwards_times (l : list Z) : list Z := rev (map Z.opp l).
Definition backwards_rows {A} (l : list (Z * A)) : list (Z * A) := rev (map (fun p => (- fst p, snd p)) l).
Definition backwards_frame (f : frame) : frame := mkFrame (fcols f) (backwards_rows (frows f)).
(* the same columns, the same times and equal numbers *)
Definition same_frame (f g : frame) : Prop :=
  fcols f = fcols g /\ Forall2 (fun p q => fst p = fst q /\ Forall2 ceq (snd p) (snd q)) (frows f) (frows g).
