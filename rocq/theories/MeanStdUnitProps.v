(* C92: mean_std scaling and the units of source and reference. *)
From Coq Require Import Reals List Lra.
From Verif Require Import RStats RStatsProofs MeanStdModel.
Open Scope R_scope.

Theorem C92_mean_std a b c d src ref : 0 < a -> 0 < c -> ref <> [] ->
  mean_std (map (fun v => a * v + b) src) (map (fun v => c * v + d) ref) = map (option_map (fun v => c * v + d)) (mean_std src ref).
Proof.
  intros A C NR. destruct src as [|s0 src]; [unfold mean_std; cbn [map]; destruct (Req_EM_T _ _); reflexivity|].
  set (l := s0 :: src). assert (NL : l <> []) by discriminate. unfold mean_std.
  rewrite (std_affine a b l NL), (std_affine c d ref NR), (rmean_affine a b l NL), (rmean_affine c d ref NR), !Rabs_pos_eq by lra.
  destruct (Req_EM_T (std l) 0) as [E|E], (Req_EM_T (a * std l) 0) as [E'|E'].
  - rewrite !map_map. reflexivity.
  - exfalso. apply E'. rewrite E. ring.
  - exfalso. apply Rmult_integral in E' as [E'|E']; lra.
  - rewrite !map_map. apply map_ext. intros v. cbn [option_map]. f_equal. field. lra.
Qed.
Print Assumptions C92_mean_std.
Example C92_mean_std_ex : std [1; 3] <> 0 /\ ([5; 9] : list R) <> [].
Proof.
  split; [|discriminate]. intros E. apply std_zero in E; [|discriminate]. specialize (E 1 3 (or_introl eq_refl) (or_intror (or_introl eq_refl))). lra.
Qed.
