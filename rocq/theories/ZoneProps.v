(* C96: time zones in temporal collocation. *)
From Verif Require Import ZoneSpec ZoneProofs ShiftProofs.
Open Scope string_scope.
Open Scope Z_scope.

Section Props.
Variable wall : string -> Z -> Z.
Variable localize : string -> Z -> option Z.
Variable store : cell -> cell.
Variable oob : Z.

(* a reference with a zone: the other series is compared at its instants, whatever its zone; times without zone
   are read in the zone of the reference; the result has the zone of the reference *)
Theorem C96_aware_reference : forall z ref other g w o, by_instants wall localize z o -> instants localize z other g ->
  zoned_collocation wall localize store oob (Some z) ref other w o = mapR (ZF (Some z)) (temporal_collocation store oob ref g w o).
Proof. exact (aware_reference wall localize store oob). Qed.
(* a reference without zone is read in the zone of the other series *)
Theorem C96_naive_reference : forall z ref ref' other w o, by_instants wall localize z o -> zone other = Some z ->
  Forall2 (fun t u => localize z t = Some u) ref ref' ->
  zoned_collocation wall localize store oob None ref other w o = mapR (ZF (Some z)) (temporal_collocation store oob ref' (zdata other) w o).
Proof. exact (naive_reference wall localize store oob). Qed.
Theorem C96_no_zones : forall ref other w o, zone other = None ->
  zoned_collocation wall localize store oob None ref other w o = mapR (ZF None) (temporal_collocation store oob ref (zdata other) w o).
Proof. exact (no_zones wall localize store oob). Qed.
(* writing the same instants of the other series, or of the reference, in another zone changes nothing else *)
Theorem C96_zone_of_other : forall z z1 z2 ref d w o,
  zoned_collocation wall localize store oob (Some z) ref (ZF (Some z1) d) w o = zoned_collocation wall localize store oob (Some z) ref (ZF (Some z2) d) w o.
Proof. reflexivity. Qed.
Theorem C96_zone_of_reference : forall z1 z2 zo ref d w o, by_instants wall localize z1 o -> by_instants wall localize z2 o ->
  mapR zdata (zoned_collocation wall localize store oob (Some z1) ref (ZF (Some zo) d) w o) =
  mapR zdata (zoned_collocation wall localize store oob (Some z2) ref (ZF (Some zo) d) w o).
Proof.
  intros z1 z2 zo ref d w o B1 B2. rewrite (aware_reference wall localize store oob z1 ref (ZF (Some zo) d) d w o B1 eq_refl), (aware_reference wall localize store oob z2 ref (ZF (Some zo) d) d w o B2 eq_refl).
  destruct (temporal_collocation _ _ _ _ _ _); reflexivity.
Qed.
(* a wall-clock time that does not exist or is ambiguous raises *)
Theorem C96_no_such_time : forall z ref other w o, o_flag o = NoFlag -> zone other = Some z -> Exists (fun t => localize z t = None) ref ->
  zoned_collocation wall localize store oob None ref other w o = Err EOther.
Proof.
  intros z ref other w o F Z X. unfold zoned_collocation. rewrite F. cbn [eval_flag bindR]. unfold align. rewrite Z.
  assert (E : tz_localize localize z ref = Err EOther).
  { clear F Z. unfold tz_localize. induction ref as [|x l IH]; [inversion X|]. cbn [map seqR]. destruct (localize z x) as [y|] eqn:E; [|reflexivity]. inversion X as [? ? H|? ? H]; subst; [congruence|]. cbn [bindR]. rewrite (IH H). reflexivity. }
  rewrite E. reflexivity.
Qed.

(* several series *)
Theorem C96_combined_aware : forall reference others gs w o cd add_ref z, zone reference = Some z -> by_instants wall localize z o ->
  Forall2 (instants localize z) others gs ->
  zoned_combined wall localize store oob reference others w o cd add_ref =
  mapR (fun f => (ZF (Some z) f, reference)) (combined_temporal_collocation store oob (zdata reference) gs w o cd add_ref).
Proof. exact (combined_aware wall localize store oob). Qed.
Theorem C96_combined_no_zones : forall reference others w o cd add_ref, zone reference = None -> Forall (fun f => zone f = None) others ->
  zoned_combined wall localize store oob reference others w o cd add_ref =
  mapR (fun f => (ZF None f, reference)) (combined_temporal_collocation store oob (zdata reference) (map zdata others) w o cd add_ref).
Proof. exact (combined_plain wall localize store oob). Qed.
(* a reference without zone, all others in one zone: the reference is read in that zone.  The second component is the
   reference frame of the caller after the call: it is changed if its data are added without removing duplicates *)
Theorem C96_combined_naive : forall reference reference' others w o cd add_ref z, zone reference = None -> others <> [] ->
  Forall (fun f => zone f = Some z) others -> by_instants wall localize z o -> sound_zone wall localize z ->
  read_in localize z (zdata reference) reference' ->
  zoned_combined wall localize store oob reference others w o cd add_ref =
  mapR (fun f => (ZF (Some z) f, if (add_ref && negb (o_dropduplicates o))%bool then ZF (Some z) reference' else reference))
    (combined_temporal_collocation store oob reference' (map zdata others) w o cd add_ref).
Proof. exact (combined_naive wall localize store oob). Qed.
(* some series without zone, all others in one zone with a fixed offset: everything is read in that zone *)
Theorem C96_combined_fixed : forall reference reference' others gs w o cd add_ref z c, fixed_zone wall localize z c -> zone reference = None ->
  Forall (fun f => zone f = None \/ zone f = Some z) others -> Exists (fun f => zone f = Some z) others ->
  instants localize z reference reference' -> Forall2 (instants localize z) others gs ->
  zoned_combined wall localize store oob reference others w o cd add_ref =
  mapR (fun f => (ZF (Some z) f, if (add_ref && negb (o_dropduplicates o))%bool then ZF (Some z) reference' else reference))
    (combined_temporal_collocation store oob reference' gs w o cd add_ref).
Proof.
  intros reference reference' others gs w o cd ad z c F Z A X IR IO.
  assert (G : forall f g, instants localize z f g -> g = at_instants c f).
  { intros f g H. unfold instants in H. unfold at_instants. destruct (zone f); [exact H|]. apply localize_frame_spec in H. rewrite (localize_fixed wall localize z c _ F) in H. congruence. }
  rewrite (combined_fixed wall localize store oob reference others w o cd ad z c F Z A X), <- (G _ _ IR).
  assert (E : gs = map (at_instants c) others). { clear A X. induction IO as [|x y l l' H IO IH]; cbn; [reflexivity|]. rewrite (G x y H), IH. reflexivity. }
  rewrite E. reflexivity.
Qed.
(* the caller's reference is left alone if duplicates are removed from a copy or its data are not added *)
Theorem C96_reference_kept : forall reference others w o cd add_ref f reference',
  zoned_combined wall localize store oob reference others w o cd add_ref = Ok (f, reference') ->
  add_ref = false \/ o_dropduplicates o = true -> reference' = reference.
Proof.
  intros reference others w o cd ad f r' H C. unfold zoned_combined in H. cbv zeta in H. destruct (seqR _) as [dfs|]; [|discriminate H]. cbn [bindR] in H.
  destruct (target_zone _) as [z|]; cbn [bindR] in H.
  - match type of H with bindR (bindR ?s _) _ = _ => destruct s as [dfs'|]; [|discriminate H] end. cbn [bindR] in H. replace (ad && negb (o_dropduplicates o))%bool with false in H by (destruct C as [->| ->]; [reflexivity|destruct ad; reflexivity]).
    cbn [bindR] in H. destruct (concat_axis1 _); [|discriminate H]. cbn in H. congruence.
  - destruct (concat_axis1 _); [|discriminate H]. cbn in H. congruence.
Qed.
End Props.

(* Non-vacuity: a zone two hours ahead, and one that loses an hour at instant 100 *)
Definition wall_ex (z : string) (t : Z) : Z := if String.eqb z "CEST" then t + 2 else if String.eqb z "DST" then (if t <? 100 then t else t + 1) else t.
Definition localize_ex (z : string) (t : Z) : option Z :=
  if String.eqb z "CEST" then Some (t - 2) else if String.eqb z "DST" then (if t <? 100 then Some t else if t <? 101 then None else Some (t - 1)) else Some t.
Lemma fixed_utc : fixed_zone wall_ex localize_ex "UTC" 0.
Proof. split; intros t; cbn; [lia|f_equal; lia]. Qed.
Lemma fixed_cest : fixed_zone wall_ex localize_ex "CEST" 2.
Proof. split; intros t; reflexivity. Qed.
Lemma sound_ex z : sound_zone wall_ex localize_ex z.
Proof.
  intros w u. unfold localize_ex, wall_ex. destruct (String.eqb z "CEST"); [intros H; injection H as <-; lia|]. destruct (String.eqb z "DST"); [|congruence].
  destruct (Z.ltb_spec w 100); [intros H1; injection H1 as <-; destruct (Z.ltb_spec w 100); lia|]. destruct (Z.ltb_spec w 101); [discriminate|]. intros H1. injection H1 as <-. destruct (Z.ltb_spec (w - 1) 100); lia.
Qed.
Definition opts (m : method) (dd : bool) : tc_opts := mkOpts m false false dd false NoFlag false.
Definition series (c : string) (l : list (Z * Q)) : frame := mkFrame [c] (map (fun p => (fst p, [Some (snd p)])) l).
Example C96_ex_aware : instants localize_ex "CEST" (ZF None (series "x" [(12, 1%Q); (20, 2%Q)])) (series "x" [(10, 1%Q); (18, 2%Q)]) /\
  zoned_collocation wall_ex localize_ex (fun c => c) 0 (Some "CEST") [10; 30] (ZF None (series "x" [(12, 1%Q); (20, 2%Q)])) 3 (opts MNearest false) =
  Ok (ZF (Some "CEST") (mkFrame ["x"] [(10, [Some 1%Q]); (30, [None])])).
Proof. split; [|reflexivity]. split; [reflexivity|]. repeat constructor. Qed.
Example C96_ex_mixed : exists f, zoned_combined wall_ex localize_ex (fun c => c) 0 (ZF None (series "r" [(12, 5%Q)]))
  [ZF (Some "CEST") (series "x" [(10, 1%Q)]); ZF None (series "y" [(13, 2%Q)])] 3 (opts MMean false) CDTrue true = Ok (ZF (Some "CEST") f, ZF (Some "CEST") (series "r" [(10, 5%Q)])) /\
  map fst (frows f) = [10] /\ fcols f = ["r"; "x"; "y"].
Proof. eexists. split; [vm_compute; reflexivity|split; reflexivity]. Qed.
Example C96_ex_no_such_time : Exists (fun t => localize_ex "DST" t = None) [50; 100] /\
  zoned_collocation wall_ex localize_ex (fun c => c) 0 None [50; 100] (ZF (Some "DST") (series "x" [(10, 1%Q)])) 3 (opts MNearest false) = Err EOther.
Proof. split; [right; left; reflexivity|reflexivity]. Qed.

(* Means: the window is measured on the wall clock, so that it is wrong around a change of the clock *)
Theorem C96_mean_clock_change_refuted :
  ~ (forall wall localize z ref other w, sound_zone wall localize z ->
     zoned_collocation wall localize (fun c => c) 0 (Some z) ref (ZF (Some z) other) w (opts MMean false) =
     mapR (ZF (Some z)) (temporal_collocation (fun c => c) 0 ref other w (opts MMean false))).
Proof.
  intros H. specialize (H wall_ex localize_ex "DST" [99] (series "x" [(100, 1%Q)]) 1 (sound_ex "DST")). vm_compute in H. discriminate H.
Qed.
(* Others in different zones: one time of a reference without zone is read as two instants and gives two rows *)
Theorem C96_zones_of_others_refuted :
  ~ (forall wall localize reference others w f reference', (forall z, sound_zone wall localize z) -> zone reference = None -> Forall (fun g => zone g <> None) others ->
     zoned_combined wall localize (fun c => c) 0 reference others w (opts MNearest false) CDFalse false = Ok (f, reference') ->
     (List.length (frows (zdata f)) <= List.length (frows (zdata reference)))%nat).
Proof.
  intros H. specialize (H wall_ex localize_ex (ZF None (series "r" [(12, 5%Q)])) [ZF (Some "CEST") (series "x" [(10, 1%Q)]); ZF (Some "UTC") (series "y" [(12, 2%Q)])] 3).
  specialize (H (ZF (Some "UTC") (mkFrame ["x"; "y"] [(10, [Some 1%Q; None]); (12, [None; Some 2%Q])])) (ZF None (series "r" [(12, 5%Q)])) sound_ex eq_refl).
  assert (C : (2 <= 1)%nat); [|lia]. apply H; [repeat constructor; discriminate|reflexivity].
Qed.
(* The docstring of combined_temporal_collocation: a reference without zone is read in UTC *)
Theorem C96_utc_assumed_refuted :
  ~ (forall wall localize reference others w f reference', (forall z, sound_zone wall localize z) -> fixed_zone wall localize "UTC" 0 -> zone reference = None ->
     Forall (fun g => zone g <> None) others -> zoned_combined wall localize (fun c => c) 0 reference others w (opts MNearest false) CDFalse false = Ok (f, reference') ->
     Ok (zdata f) = combined_temporal_collocation (fun c => c) 0 (zdata reference) (map zdata others) w (opts MNearest false) CDFalse false).
Proof.
  intros H. specialize (H wall_ex localize_ex (ZF None (series "r" [(12, 5%Q)])) [ZF (Some "CEST") (series "x" [(10, 1%Q)])] 1
    (ZF (Some "CEST") (series "x" [(10, 1%Q)])) (ZF None (series "r" [(12, 5%Q)])) sound_ex fixed_utc eq_refl).
  assert (A : Forall (fun g => zone g <> None) [ZF (Some "CEST") (series "x" [(10, 1%Q)])]) by (repeat constructor; discriminate).
  specialize (H A eq_refl). vm_compute in H. discriminate H.
Qed.
(* The caller's frame gets another index *)
Theorem C96_reference_changed_refuted :
  ~ (forall wall localize reference others w f reference', (forall z, sound_zone wall localize z) ->
     zoned_combined wall localize (fun c => c) 0 reference others w (opts MNearest false) CDFalse true = Ok (f, reference') -> reference' = reference).
Proof.
  intros H. specialize (H wall_ex localize_ex (ZF None (series "r" [(12, 5%Q)])) [ZF (Some "CEST") (series "x" [(10, 1%Q)])] 3 _ _ sound_ex eq_refl). discriminate H.
Qed.

Print Assumptions C96_aware_reference. Print Assumptions C96_combined_aware. Print Assumptions C96_combined_naive. Print Assumptions C96_combined_fixed. Print Assumptions C96_reference_kept.
Print Assumptions C96_mean_clock_change_refuted. Print Assumptions C96_zones_of_others_refuted. Print Assumptions C96_utc_assumed_refuted. Print Assumptions C96_reference_changed_refuted.
