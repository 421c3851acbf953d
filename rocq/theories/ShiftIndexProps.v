(* C94: the index and the distance a collocation returns on another time axis. *)
From Verif Require Import Base TemporalModel ShiftProofs ShiftProps ShiftIndexProofs.
From Coq Require Import QArith.
Open Scope Z_scope.

(* the same frame on another time axis (k ticks for one, epoch moved by s) when behind its first n
   columns there is one of time stamps (index_other) and maybe one of time differences (distance_other) *)
Definition on_axis_with_times (k s : Z) (n : nat) (g : frame) : frame :=
  mkFrame (fcols g) (map (fun p => (k * fst p + s,
    match skipn n (snd p) with
    | [] => snd p
    | i :: d => firstn n (snd p) ++ option_map (fun q => inject_Z k * q + inject_Z s)%Q i :: map (option_map (fun q => inject_Z k * q)%Q) d
    end)) (frows g)).

Theorem C94_index_and_distance k s store oob oob' ref other window o : 0 < k ->
  o_method o = MNearest -> o_return_index o || o_return_distance o = true -> Forall (fun p => List.length (snd p) = List.length (fcols other)) (frows other) ->
  temporal_collocation store oob' (map (fun t => k * t + s) ref) (on_axis k s other) (k * window) o =
  mapR (on_axis_with_times k s (List.length (fcols other))) (temporal_collocation store oob ref other window o).
Proof. intros K M R W. exact (collocation_frw k s K store oob oob' ref other window o M R W). Qed.
Print Assumptions C94_index_and_distance.

(* means have no index and no distance, whatever is asked for *)
Theorem C94_mean k s store oob oob' ref other window o : 0 < k -> o_method o = MMean ->
  temporal_collocation store oob' (map (fun t => k * t + s) ref) (on_axis k s other) (k * window) o =
  mapR (on_axis k s) (temporal_collocation store oob ref other window o).
Proof.
  intros K M. pose proof (collocation_f k s K oob oob' store ref other window (mkOpts MMean false false (o_dropduplicates o) (o_dropna o) (o_flag o) (o_use_invalid o)) eq_refl eq_refl) as H.
  unfold temporal_collocation in *. rewrite M. exact H.
Qed.
Print Assumptions C94_mean.

Example C94_index_ex :
  let other := mkFrame ["x"]%string [(2, [Some 10%Q]); (23, [Some 20%Q]); (60, [None])] in
  let o := mkOpts MNearest true true true false NoFlag false in
  temporal_collocation (fun c => c) 0 [0; 24; 40; 59] other 3 o =
    Ok (mkFrame ["x"; "index_other"; "distance_other"]%string
      [(0, [Some 10; Some 2; Some 2]%Q); (24, [Some 20; Some 23; Some (-1)]%Q); (40, [None; None; None]); (59, [None; Some 60; Some 1]%Q)]) /\
  temporal_collocation (fun c => c) 7 [1000; 2440; 3400; 4540] (on_axis 60 1000 other) 180 o =
    Ok (mkFrame ["x"; "index_other"; "distance_other"]%string
      [(1000, [Some 10; Some 1120; Some 120]%Q); (2440, [Some 20; Some 2380; Some (-60)]%Q); (3400, [None; None; None]); (4540, [None; Some 4600; Some 60]%Q)]).
Proof. split; vm_compute; reflexivity. Qed.
