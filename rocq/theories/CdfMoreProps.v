(* C24: the stored percentile tables. *)
From Verif Require Import CdfSpec ScalingModel CdfProofs CdfFitProofs ScalingProofs.
Open Scope Q_scope.

Lemma edges_length x y xp yp out : linear_edge_scaling x y xp yp = Ok out -> List.length out = List.length yp.
Proof.
  unfold linear_edge_scaling. cbv zeta. intros H.
  repeat match type of H with bindR ?e _ = _ => destruct e; [|discriminate]; cbn [bindR] in H; cbv zeta in H | (if ?b then _ else _) = _ => destruct b end; try discriminate;
  injection H as <-; rewrite set_last_length; apply set_first_length.
Qed.
Lemma pad_length n l : (List.length l <= n)%nat -> List.length (pad n l) = n.
Proof. intros L. unfold pad. rewrite app_length, map_length, repeat_length. lia. Qed.

(* both tables have one entry per edge of the requested bins: the values in use come first, the rest is missing *)
Theorem C24_table_width o X Y t : sane_opts o -> cdf_fit o X Y = Ok t -> fit_source o X Y <> [] ->
  List.length (x_perc t) = Datatypes.S (requested_bins o) /\ List.length (y_perc t) = Datatypes.S (requested_bins o) /\
  exists xs ys k, List.length xs = List.length ys /\ (2 <= List.length xs <= Datatypes.S (requested_bins o))%nat /\
    x_perc t = (map Some xs ++ repeat None k)%list /\ y_perc t = (map Some ys ++ repeat None k)%list.
Proof.
  intros So. rewrite fit_unfold. cbn zeta. intros H NE.
  set (xu := fit_source o X Y) in *. set (yu := fit_reference o X Y) in *.
  destruct (calc_spec o (Nat.min (List.length xu) (List.length yu)) So) as (ps & k & E & PL & Lk & Kr & _).
  rewrite E in H. cbn [bindR] in H. change (self_nbins o) with (requested_bins o) in H.
  assert (G : forall xs ys, List.length xs = List.length ys -> (2 <= List.length xs <= Datatypes.S (requested_bins o))%nat ->
    t = mkTable (pad (Datatypes.S (requested_bins o)) xs) (pad (Datatypes.S (requested_bins o)) ys) ->
    List.length (x_perc t) = Datatypes.S (requested_bins o) /\ List.length (y_perc t) = Datatypes.S (requested_bins o) /\
    exists xs ys k, List.length xs = List.length ys /\ (2 <= List.length xs <= Datatypes.S (requested_bins o))%nat /\
      x_perc t = (map Some xs ++ repeat None k)%list /\ y_perc t = (map Some ys ++ repeat None k)%list).
  { intros xs ys L R ->. cbn [x_perc y_perc]. rewrite !pad_length by lia. split; [reflexivity|]. split; [reflexivity|].
    exists xs, ys, (Datatypes.S (requested_bins o) - List.length xs)%nat. split; [exact L|]. split; [exact R|]. unfold pad. rewrite <- L. auto. }
  destruct (Nat.eqb k 1 && c_linear_edges o) eqn:Ek.
  - destruct (linreg_percentiles xu yu) as [tt|e] eqn:El'; [|discriminate]. cbn [bindR] in H. injection H as <-.
    unfold linreg_percentiles in El'. destruct (lstsq1 _ _); [|discriminate]. cbn [bindR] in El'. injection El' as <-. destruct xu as [|u xu]; [contradiction|].
    eapply G; [| |reflexivity]; cbn [List.length fst snd]; [reflexivity|lia].
  - destruct (list_eq_dec Q_eq_dec' (q_sort xu) []) as [Ex|Nx]; [rewrite Ex, pv_nil in H; discriminate|].
    destruct (percentile_values_list _ ps Nx (q_sort_sorted xu) PL) as (xs & E1 & L1 & _). rewrite E1 in H. cbn [bindR] in H.
    destruct (list_eq_dec Q_eq_dec' (q_sort yu) []) as [Ey|Ny]; [rewrite Ey, pv_nil in H; discriminate|].
    destruct (percentile_values_list _ ps Ny (q_sort_sorted yu) PL) as (ys & E2 & L2 & _). rewrite E2 in H. cbn [bindR] in H.
    destruct (c_linear_edges o).
    + destruct (linear_edge_scaling _ _ _ _) as [yp'|e] eqn:Ee; [|discriminate]. cbn [mapR bindR] in H. injection H as <-. pose proof (edges_length _ _ _ _ _ Ee).
      eapply G; [| |reflexivity]; cbn [fst snd]; lia.
    + injection H as <-. eapply G; [| |reflexivity]; cbn [fst snd]; lia.
Qed.
Print Assumptions C24_table_width.
Example C24_table_ex : let o := mkCdf 4 (Some [0; 50; 100]) None false true in sane_opts o /\ fit_source o [Some 1; Some 2; Some 3] [Some 4; Some 6; Some 8] <> [] /\
  exists t, cdf_fit o [Some 1; Some 2; Some 3] [Some 4; Some 6; Some 8] = Ok t /\ List.length (x_perc t) = 3%nat.
Proof. cbv zeta. split; [repeat split; try reflexivity; repeat constructor; reflexivity|]. split; [vm_compute; discriminate|]. eexists. split; [vm_compute; reflexivity|reflexivity]. Qed.

(* no observation to fit (and a single bin with linear edges): nothing is predicted *)
Theorem C22_no_observations o X Y m : sane_opts o -> c_linear_edges o = true -> c_minobs o = Some m -> (0 < m)%Z ->
  fit_source o X Y = [] -> fit_reference o X Y = [] ->
  exists t, cdf_fit o X Y = Ok t /\ forall Z, cdf_predict t Z = map (fun _ => None) Z.
Proof.
  intros So LE Em Pm EX EY. rewrite fit_unfold, EX, EY. cbn zeta. destruct (calc_single o m 0 So Em Pm) as [ps E]. change (Nat.min (List.length (@nil Q)) (List.length (@nil Q))) with 0%nat. rewrite E.
  cbn [bindR]. rewrite LE. cbn. eexists. split; [reflexivity|]. intros Z. unfold cdf_predict. cbn [x_perc y_perc].
  destruct (existsb notna Z); [|reflexivity]. change (None :: repeat None (self_nbins o)) with (pad (Datatypes.S (self_nbins o)) []). rewrite vals_pad. destruct (vals _); reflexivity.
Qed.
Print Assumptions C22_no_observations.
Example C22_no_observations_ex : let o := mkCdf 100 None (Some 20%Z) true true in
  sane_opts o /\ fit_source o [Some 1; None; Some 3] [None; Some 5; None] = [] /\ fit_reference o [Some 1; None; Some 3] [None; Some 5; None] = [].
Proof. cbv zeta. split; [repeat split; try reflexivity; repeat constructor|split; reflexivity]. Qed.
