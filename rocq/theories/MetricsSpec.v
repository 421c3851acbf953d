(* Vocabulary for the statements about the pairwise metrics. *)
From Coq Require Import Reals List.
From Verif Require Export RStats.

(* the pairs with the two series exchanged / linearly rescaled *)
Definition swap (d : pairs) : pairs := map (fun p => (snd p, fst p)) d.
Definition scale_x (a b : R) (d : pairs) : pairs := map (fun p => (a * fst p + b, snd p)) d.
Definition scale_y (a b : R) (d : pairs) : pairs := map (fun p => (fst p, a * snd p + b)) d.

(* the two series are the same *)
Definition same (d : pairs) : Prop := forall p, In p d -> fst p = snd p.

(* mean square difference *)
Definition mean_square_diff (d : pairs) : R := rmean (map (fun p => (fst p - snd p) * (fst p - snd p)) d).

(* textbook Pearson correlation *)
Definition correlation (d : pairs) : R := cov d / (std (xs d) * std (ys d)).

(* column j of a data matrix, and two columns side by side *)
Definition column (j : nat) (rows : list (nat -> R)) : list R := map (fun r => r j) rows.
Definition columns (j k : nat) (rows : list (nat -> R)) : pairs := map (fun r => (r j, r k)) rows.
