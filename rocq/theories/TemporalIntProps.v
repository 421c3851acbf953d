(* C01: collocation by means when the first column has an integer type. *)
From Coq Require Import QArith Qabs Lia.
From Verif Require Import Base BaseProofs TemporalModel TemporalSpec TemporalProofs TemporalProps.
Open Scope Z_scope.

(* z is q without its fraction: between 0 and q, less than one away *)
Definition cut_to (q : Q) (z : Z) : Prop :=
  ((0 <= q)%Q -> (inject_Z z <= q)%Q /\ (q < inject_Z (z + 1))%Q /\ 0 <= z) /\
  ((q <= 0)%Q -> (q <= inject_Z z)%Q /\ (inject_Z (z - 1) < q)%Q /\ z <= 0).
Lemma quot_cut q : cut_to q (Z.quot (Qnum q) (Zpos (Qden q))).
Proof.
  destruct q as [n d]. unfold cut_to, Qle, Qlt, inject_Z. cbn [Qnum Qden]. rewrite !Z.mul_1_r.
  pose proof (Z.quot_rem' n (Zpos d)) as E. split; intros H.
  - pose proof (Z.rem_bound_pos n (Zpos d) ltac:(lia) ltac:(lia)). pose proof (Z.quot_pos n (Zpos d) ltac:(lia) ltac:(lia)). nia.
  - pose proof (Z.rem_bound_pos (- n) (Zpos d) ltac:(lia) ltac:(lia)) as B. rewrite Z.rem_opp_l in B by lia.
    pose proof (Z.quot_pos (- n) (Zpos d) ltac:(lia) ltac:(lia)) as P. rewrite Z.quot_opp_l in P by lia. nia.
Qed.

(* Every mean loses its fraction, and a window without valid observations gets a number instead of a
   missing value: the whole result consists of integers. *)
Theorem C01_integer_columns :
  forall (nanint oob : Z) (ref : list Z) (other : frame) (w : Z),
    chronological (findex other) -> chronological ref -> fcols other <> [] ->
    exists g : Z -> nat -> Z,
      temporal_collocation (int_store nanint) oob ref other w mean_opts =
        Ok (mkFrame (fcols other)
              (map (fun t => (t, map (fun i => Some (inject_Z (g t i))) (seq 0 (List.length (fcols other))))) ref)) /\
      forall t i, match window_mean t w (series other i) with None => g t i = nanint | Some q => cut_to q (g t i) end.
Proof.
  intros nanint oob ref other w CO CR NC.
  exists (fun t i => match window_mean t w (series other i) with None => nanint | Some q => Z.quot (Qnum q) (Zpos (Qden q)) end). split.
  - rewrite (tc_mean_correct (int_store nanint) oob ref other w CO CR NC). f_equal. f_equal. apply map_ext. intros t. f_equal. apply map_ext. intros i.
    unfold int_store. destruct (window_mean t w (series other i)); reflexivity.
  - intros t i. destruct (window_mean t w (series other i)) as [q|]; [apply quot_cut|reflexivity].
Qed.
Print Assumptions C01_integer_columns.
Example C01_integer_columns_case :
  let other := mkFrame ["n"%string] [(0, [Some 1%Q]); (1, [Some 2%Q]); (9, [Some (-3)%Q]); (10, [Some (-2)%Q])] in
  chronological (findex other) /\ chronological [0; 5; 9] /\
  temporal_collocation (int_store 77) 0 [0; 5; 9] other 1 mean_opts =
    Ok (mkFrame ["n"%string] [(0, [Some 1%Q]); (5, [Some 77%Q]); (9, [Some (-2)%Q])]) /\
  window_mean 5 1 (series other 0) = None.
Proof. cbv zeta. split; [apply sortedb_spec; reflexivity|]. split; [apply sortedb_spec; reflexivity|]. split; vm_compute; reflexivity. Qed.
