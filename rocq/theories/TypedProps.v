(* C100: what the typed arrays of results keep of the values.  Every result is an array of a fixed numpy type: 32-bit
   integers for the location id, double precision for its coordinates, single precision for the metrics, text of a fixed
   width for metadata. *)
From Coq Require Import ZArith Reals List String Bool Lia Lra.
From Flocq Require Import Core IEEE754.BinarySingleNaN.
From Verif Require Import Base MatchersModel ValidationModel ResultsProofs MatchersProofs TypedModel TypedSpec TypedProofs TypedProofs2.
From Verif Require FloatModel FloatSpec FloatProps.
Import ListNotations.
Open Scope Z_scope.

(* ------------------------------------------------------------------ location and metadata *)
(* the id of a location that fits into 32 bits, its coordinates and metadata that fit their fields are kept exactly,
   and the fields of the template are neither added nor lost *)
Theorem C100_location :
  forall big_int other (meta : tdict) (j : job_info) (m : list (string * item)) z lo la,
    NoDup (map fst meta) ->
    (forall k, In k (map fst meta) -> k <> "gpi" /\ k <> "lon" /\ k <> "lat")%string ->
    - 2 ^ 31 <= z < 2 ^ 31 -> j_gpi j = NpInt z \/ j_gpi j = PyInt z ->
    j_lon j = F64 lo -> j_lat j = F64 la -> j_meta j = Some m ->
    (forall k a, In (k, a) meta -> exists t y0 x, a = TArr t [One y0] /\ dict_get m k = Some x /\ has_type t x) ->
    exists d, meta_calc big_int other (template meta) meta j = Ok d /\
      map fst d = map fst (template meta) /\
      dict_get d "gpi" = Some (TArr Int32 [One (NpInt z)]) /\
      dict_get d "lon" = Some (TArr Float64 [One (F64 lo)]) /\
      dict_get d "lat" = Some (TArr Float64 [One (F64 la)]) /\
      (forall k a, In (k, a) meta -> exists x, dict_get m k = Some x /\ dict_get d k = Some (TArr (a_type a) [One x])).
Proof.
  intros big_int other meta j m z lo la N NL Rz JG JO JA JM HM.
  assert (T0 : forall k, (k = "gpi" \/ k = "lon" \/ k = "lat")%string -> dict_get (template meta) k = dict_get base_fields k).
  { intros k E. unfold template. rewrite fold_set_get by exact N. replace (dict_get meta k) with (@None tarray); [reflexivity|].
    symmetry. apply dict_get_none. intros I. destruct (NL k I) as (A & B & C). destruct E as [E|[E|E]]; congruence. }
  destruct (meta_calc_ok big_int other (template meta) meta j m N NL) with (g := NpInt z) (lo := F64 lo) (la := F64 la) as (d & E & K & G & O & A & V & _).
  - intros k a I. unfold template. rewrite fold_set_get by exact N. apply dict_get_in in I; [|exact N]. now rewrite I.
  - rewrite T0 by auto. reflexivity.
  - rewrite T0 by auto. reflexivity.
  - rewrite T0 by auto. reflexivity.
  - exact JM.
  - destruct JG as [-> | ->]; cbn [store]; [now rewrite wrap32_id|]. apply int32_range_spec in Rz. now rewrite Rz.
  - rewrite JO. reflexivity.
  - rewrite JA. reflexivity.
  - intros k a I. destruct (HM k a I) as (t & y0 & x & -> & Gx & T). exists t, y0, x, x. split; [reflexivity|]. split; [exact Gx|]. now apply store_typed.
  - exists d. repeat split; auto. intros k a I. destruct (V k a I) as (t & y0 & x & y & Ea & Gx & S1 & R1).
    destruct (HM k a I) as (t' & y0' & x' & Ea' & Gx' & T). assert (x' = x) by congruence. subst x'. rewrite Ea in Ea'. injection Ea' as <- <-.
    exists x. split; [exact Gx|]. rewrite store_typed in S1 by exact T. injection S1 as <-. subst a. exact R1.
Qed.

Definition site_meta : tdict := [("network", TArr (Text 7) [One (Str "")]); ("depth", TArr Float32 [One (F32 B754_nan)])]%string.
Definition d_half : double := binary_normalize 53 1024 p53 e1024 mode_NE 1 (-1) false.
Definition site (z : Z) : job_info :=
  Job (NpInt z) (F64 d_half) (F64 d_half) (Some [("network", Str "ISMN"); ("depth", F32 (to_single d_half)); ("unused", PyInt 1)]%string).
Definition no_big : Z -> res item := fun _ => Err EOther.
Definition no_other : dtype -> item -> res item := fun _ _ => Err EOther.
Example C100_ex_location :
  meta_calc no_big no_other (template site_meta) site_meta (site 1814367) =
  Ok [("gpi", TArr Int32 [One (NpInt 1814367)]); ("lon", TArr Float64 [One (F64 d_half)]); ("lat", TArr Float64 [One (F64 d_half)]);
      ("status", TArr Int32 [One (NpInt UNCAUGHT)]); ("network", TArr (Text 7) [One (Str "ISMN")]);
      ("depth", TArr Float32 [One (F32 (to_single d_half))])]%string.
Proof. reflexivity. Qed.

(* an id (of numpy type) beyond 32 bits is replaced by another one, without an error: two locations whose ids differ by
   a multiple of 2^32 get the same entry in the results *)
Theorem C100_location_refuted :
  (forall big_int other z, store big_int other Int32 (NpInt z) = Ok (NpInt (wrap32 z))) /\
  (forall z, - 2 ^ 31 <= wrap32 z < 2 ^ 31 /\ (wrap32 z - z) mod 2 ^ 32 = 0) /\
  (forall z, wrap32 z = z <-> - 2 ^ 31 <= z < 2 ^ 31) /\
  forall big_int other meta lo la m i k, NoDup (map fst meta) -> ~ In "gpi"%string (map fst meta) ->
    meta_calc big_int other (template meta) meta (Job (NpInt (i + k * 2 ^ 32)) lo la m) = meta_calc big_int other (template meta) meta (Job (NpInt i) lo la m).
Proof.
  split; [reflexivity|]. split; [intros z; split; [apply wrap32_range|apply wrap32_eq, wrap32_id, wrap32_range]|].
  split; [intros z; split; [intros <-; apply wrap32_range|apply wrap32_id]|].
  intros big_int other meta lo la m i k N NI.
  assert (W : wrap32 (i + k * 2 ^ 32) = wrap32 i) by (apply wrap32_eq; replace (i + k * 2 ^ 32 - i) with (k * 2 ^ 32) by lia; apply Z_mod_mult).
  assert (T : dict_get (template meta) "gpi"%string = Some (TArr Int32 [One (NpInt (-1))])).
  { unfold template. rewrite fold_set_get by exact N. apply dict_get_none in NI. rewrite NI. reflexivity. }
  assert (P : put0 big_int other (template meta) "gpi"%string (NpInt (i + k * 2 ^ 32)) = put0 big_int other (template meta) "gpi"%string (NpInt i)) by (unfold put0; rewrite T; cbn [store mapR]; rewrite W; reflexivity).
  unfold meta_calc. cbn [j_gpi j_lon j_lat j_meta puts]. rewrite P. reflexivity.
Qed.

(* text is cut to the width of its field: the first characters stay; two texts with the same beginning become one *)
Theorem C100_text :
  forall big_int other n s, exists kept rest, store big_int other (Text n) (Str s) = Ok (Str kept) /\
    s = (kept ++ rest)%string /\ String.length kept = Nat.min n (String.length s).
Proof. intros big_int other n s. destruct (substring_prefix s n) as (rest & E & L). exists (substring 0 n s), rest. auto. Qed.
Theorem C100_text_refuted :
  exists n s1 s2, s1 <> s2 /\ forall big_int other, store big_int other (Text n) (Str s1) = store big_int other (Text n) (Str s2).
Proof. exists 7%nat, "Station12"%string, "Station34"%string. split; [discriminate|reflexivity]. Qed.
Example C100_ex_text : store no_big no_other (Text 7) (Str "Station12") = Ok (Str "Station").
Proof. reflexivity. Qed.

(* ------------------------------------------------------------------ metrics *)
Open Scope R_scope.
Lemma int_single z : (Z.abs z <= 2 ^ 24)%Z -> generic_format radix2 (SpecFloat.fexp 24 128) (IZR z).
Proof.
  intros H. replace (IZR z) with (F2R (Float radix2 z 0)) by (unfold F2R; cbn; ring).
  apply (generic_format_FLT radix2 (-149) 24).
  destruct (Z.eq_dec (Z.abs z) (2 ^ 24)) as [E|Ne].
  - assert (z = 2 ^ 24 \/ z = - 2 ^ 24)%Z as [-> | ->] by lia.
    + apply (FLT_spec _ _ _ _ (Float radix2 1 24)); [unfold F2R; cbn; ring|cbn; lia|cbn; lia].
    + apply (FLT_spec _ _ _ _ (Float radix2 (-1) 24)); [unfold F2R; cbn; ring|cbn; lia|cbn; lia].
  - apply (FLT_spec _ _ _ _ (Float radix2 z 0)); [reflexivity|cbn; lia|cbn; lia].
Qed.

(* storing a double precision metric: missing stays missing and only that becomes missing; the order of two metrics is
   never reversed; a metric between two integers up to 2^24 stays between them; the relative error is at most 2^-24 *)
Theorem C100_metric :
  (forall big_int other x, store big_int other Float32 (F64 x) = Ok (F32 (to_single x))) /\
  (forall x, BinarySingleNaN.is_nan (to_single x) = BinarySingleNaN.is_nan x) /\
  (forall x y, Bleb x y = true -> Bleb (to_single x) (to_single y) = true) /\
  (forall x a b, (Z.abs a <= 2 ^ 24)%Z -> (Z.abs b <= 2 ^ 24)%Z -> is_finite x = true -> IZR a <= B2R x <= IZR b ->
     is_finite (to_single x) = true /\ IZR a <= B2R (to_single x) <= IZR b) /\
  (forall x, is_finite x = true -> bpow radix2 (-126) <= Rabs (B2R x) <= bpow radix2 127 ->
     is_finite (to_single x) = true /\ Rabs (B2R (to_single x) - B2R x) <= bpow radix2 (-24) * Rabs (B2R x)) /\
  (forall x, to_single (to_double x) = x).
Proof.
  split; [reflexivity|]. split; [intros x; apply conv_nan|]. split; [intros x y; apply conv_le|]. split; [|split].
  - intros x a b A B F H. assert (P : IZR (2 ^ 24) <= bpow radix2 127) by (change (IZR (2 ^ 24)) with (bpow radix2 24); apply bpow_le; lia).
    apply to_single_range; auto using int_single.
    + assert (IZR (- 2 ^ 24) <= IZR a) by (apply IZR_le; lia). change (- 2 ^ 24)%Z with (Z.opp (2 ^ 24)) in H0. rewrite opp_IZR in H0. lra.
    + assert (IZR b <= IZR (2 ^ 24)) by (apply IZR_le; lia). lra.
  - intros x F [L U]. now apply to_single_error.
  - exact single_double_single.
Qed.
(* so the correlation in the results is a number from -1 to 1 or missing, for all data *)
Theorem C100_correlation :
  forall betainc (d : list (double * double)) big_int other, exists r,
    store big_int other Float32 (F64 (fst (FloatModel.f_pearson_of 53 1024 p53 e1024 betainc d))) = Ok (F32 r) /\
    FloatSpec.correlation_or_nan 24 128 r.
Proof.
  intros betainc d big_int other. set (x := fst _). exists (to_single x). split; [reflexivity|].
  destruct (FloatProps.C82_range 53 1024 p53 e1024 betainc d) as [H|[F H]]; fold x in H.
  - left. rewrite <- H. apply conv_nan.
  - right. fold x in F. pose proof (proj1 (proj2 (proj2 (proj2 C100_metric)))) as B. specialize (B x (-1)%Z 1%Z). apply B; try lia; auto.
Qed.
Example C100_ex_metric :
  to_double (to_single (FloatProps.dec 1 10)) <> FloatProps.dec 1 10 /\ is_finite (to_single (FloatProps.dec 1 10)) = true /\
  Bleb (to_single (FloatProps.dec 1 10)) (to_single (FloatProps.dec 2 10)) = true.
Proof. split; [intros E; apply (f_equal B2SF) in E; vm_compute in E; discriminate E|split; vm_compute; reflexivity]. Qed.
(* but a finite metric beyond the range of single precision becomes infinite, a small one zero, and different metrics
   become equal *)
Theorem C100_metric_refuted :
  (exists x : double, is_finite x = true /\ to_single x = B754_infinity false) /\
  (exists x : double, is_finite x = true /\ 0 < B2R x /\ B2R (to_single x) = 0) /\
  (exists x y : double, Bltb x y = true /\ to_single x = to_single y).
Proof.
  split; [|split].
  - exists (FloatProps.dyad 1 128). split; vm_compute; reflexivity.
  - exists (FloatProps.dyad 1 (-200)). split; [vm_compute; reflexivity|]. split; [|].
    + rewrite <- (SF2R_B2SF 53 1024). replace (B2SF (FloatProps.dyad 1 (-200))) with (SpecFloat.S754_finite false 4503599627370496 (-252)) by (vm_compute; reflexivity).
      cbn [SF2R cond_Zopp]. apply F2R_gt_0. reflexivity.
    + replace (to_single (FloatProps.dyad 1 (-200))) with (B754_zero false : single); [reflexivity|]. apply B2SF_inj. vm_compute. reflexivity.
  - exists (FloatProps.dec 1 10), (FloatProps.dyad 3602879701896398 (-55)). split; [vm_compute; reflexivity|]. apply B2SF_inj. vm_compute. reflexivity.
Qed.
Close Scope R_scope.

(* ------------------------------------------------------------------ joining the locations *)
(* Validation.calc joins the results of several locations: if they have the same fields of the same types, the joined
   arrays hold exactly the values of the single locations, in the order of the locations *)
Theorem C100_join :
  forall big_int other (m0 : tdict) rest, NoDup (map fst m0) ->
    (forall m k a, In m (m0 :: rest) -> dict_get m0 k = Some a -> exists x r, dict_get m k = Some (TArr (a_type a) (One x :: r)) /\ has_type (a_type a) x) ->
    exists res, compact big_int other (m0 :: rest) = Ok res /\ map fst res = map fst m0 /\
      forall k a, dict_get m0 k = Some a -> exists xs, dict_get res k = Some (TArr (a_type a) (map One xs)) /\ List.length xs = List.length (m0 :: rest) /\
        forall i m, nth_error (m0 :: rest) i = Some m -> exists x r, dict_get m k = Some (TArr (a_type a) (One x :: r)) /\ nth_error xs i = Some x.
Proof. exact compact_ok. Qed.
Definition ok_dict (r : res tdict) : tdict := match r with Ok d => d | Err _ => [] end.
Definition site_result (z : Z) : tdict := ok_dict (meta_calc no_big no_other (template site_meta) site_meta (site z)).
Example C100_ex_join :
  compact no_big no_other [site_result 5; site_result 9; site_result 7] =
  Ok [("gpi", TArr Int32 (map One [NpInt 5; NpInt 9; NpInt 7])); ("lon", TArr Float64 (map One [F64 d_half; F64 d_half; F64 d_half]));
      ("lat", TArr Float64 (map One [F64 d_half; F64 d_half; F64 d_half])); ("status", TArr Int32 (map One [NpInt UNCAUGHT; NpInt UNCAUGHT; NpInt UNCAUGHT]));
      ("network", TArr (Text 7) (map One [Str "ISMN"; Str "ISMN"; Str "ISMN"]));
      ("depth", TArr Float32 (map One [F32 (to_single d_half); F32 (to_single d_half); F32 (to_single d_half)]))]%string.
Proof. reflexivity. Qed.

(* with the moving-window metrics, whose results have the length of the series, joining works only if all locations
   have series of the same length: other lengths, or a location with too little data, lose the results of all *)
Section Rolling.
Variables (big_int : Z -> res item) (other : dtype -> item -> res item).
Notation rolling := (rolling_calc big_int other []).
Definition spot (z : Z) (lo la : double) : job_info := Job (NpInt z) (F64 lo) (F64 la) None.
Lemma rolling_long z lo la min_obs times series : (min_obs <= List.length times)%nat ->
  rolling (spot z lo la) min_obs times series =
  Ok [("gpi", TArr Int32 [One (NpInt (wrap32 z))]); ("lon", TArr Float64 [One (F64 lo)]); ("lat", TArr Float64 [One (F64 la)]); ("status", TArr Int32 [One (NpInt OK)]);
      ("R", TArr Float64 [Row (map (fun r => F64 (fst (fst r))) series)]); ("p_R", TArr Float64 [Row (map (fun r => F64 (snd (fst r))) series)]);
      ("RMSD", TArr Float64 [Row (map (fun r => F64 (snd r)) series)]); ("time", TArr Time [Row (map Stamp times)])]%string.
Proof. intros H. apply Nat.ltb_ge in H. unfold rolling_calc. rewrite H. reflexivity. Qed.
Lemma rolling_short z lo la min_obs times series : (List.length times < min_obs)%nat ->
  rolling (spot z lo la) min_obs times series =
  Ok [("gpi", TArr Int32 [One (NpInt (wrap32 z))]); ("lon", TArr Float64 [One (F64 lo)]); ("lat", TArr Float64 [One (F64 la)]); ("status", TArr Int32 [One (NpInt INSUFFICIENT_DATA)]);
      ("R", TArr Float32 [One nan32]); ("p_R", TArr Float32 [One nan32]); ("RMSD", TArr Float32 [One nan32])]%string.
Proof. intros H. apply Nat.ltb_lt in H. unfold rolling_calc. rewrite H. reflexivity. Qed.
Lemma seqR_f64 {A} (g : A -> double) l : seqR (map (store big_int other Float64) (map (fun r => F64 (g r)) l)) = Ok (map (fun r => F64 (g r)) l).
Proof. apply BaseProofs.seqR_ok. rewrite !map_map. reflexivity. Qed.
Lemma seqR_time l : seqR (map (store big_int other Time) (map Stamp l)) = Ok (map Stamp l).
Proof. apply BaseProofs.seqR_ok. rewrite !map_map. reflexivity. Qed.
End Rolling.

Theorem C100_rolling_same_length :
  forall big_int other z1 z2 lo1 la1 lo2 la2 min_obs t1 t2 s1 s2,
    - 2 ^ 31 <= z1 < 2 ^ 31 -> - 2 ^ 31 <= z2 < 2 ^ 31 ->
    (min_obs <= List.length t1)%nat -> List.length s1 = List.length t1 -> List.length t2 = List.length t1 -> List.length s2 = List.length t1 ->
    exists d1 d2 d, rolling_calc big_int other [] (spot z1 lo1 la1) min_obs t1 s1 = Ok d1 /\ rolling_calc big_int other [] (spot z2 lo2 la2) min_obs t2 s2 = Ok d2 /\
      compact big_int other [d1; d2] = Ok d /\
      dict_get d "gpi" = Some (TArr Int32 [One (NpInt z1); One (NpInt z2)]) /\
      dict_get d "time" = Some (TArr Time [Row (map Stamp t1); Row (map Stamp t2)]) /\
      dict_get d "R" = Some (TArr Float64 [Row (map (fun r => F64 (fst (fst r))) s1); Row (map (fun r => F64 (fst (fst r))) s2)]) /\
      dict_get d "p_R" = Some (TArr Float64 [Row (map (fun r => F64 (snd (fst r))) s1); Row (map (fun r => F64 (snd (fst r))) s2)]) /\
      dict_get d "RMSD" = Some (TArr Float64 [Row (map (fun r => F64 (snd r)) s1); Row (map (fun r => F64 (snd r)) s2)]).
Proof.
  intros big_int other z1 z2 lo1 la1 lo2 la2 min_obs t1 t2 s1 s2 R1 R2 M L1 L2 L3.
  eexists _, _, _. split; [apply rolling_long; lia|]. split; [apply rolling_long; lia|]. split.
  - unfold compact. cbn [map fst snd a_type]. unfold first_elem. cbn [dict_get find fst snd String.eqb Ascii.eqb Bool.eqb option_map seqR bindR].
    unfold np_array. cbn [all_ones all_rows option_map forallb hd]. rewrite !map_length, L1, L2, L3, !Nat.eqb_refl. cbn [andb mapR map seqR bindR].
    rewrite !seqR_f64, !seqR_time. cbn [store bindR mapR]. rewrite !wrap32_id by (try apply wrap32_range; lia). reflexivity.
  - repeat split; reflexivity.
Qed.
Theorem C100_rolling_refuted :
  forall big_int other z1 z2 lo1 la1 lo2 la2 min_obs t1 t2 s1 s2,
    (min_obs <= List.length t1)%nat -> List.length s1 = List.length t1 -> List.length s2 = List.length t2 -> List.length t1 <> List.length t2 ->
    exists d1 d2, rolling_calc big_int other [] (spot z1 lo1 la1) min_obs t1 s1 = Ok d1 /\ rolling_calc big_int other [] (spot z2 lo2 la2) min_obs t2 s2 = Ok d2 /\
      (* each location alone can be joined *)
      (exists r1, compact big_int other [d1] = Ok r1) /\ (exists r2, compact big_int other [d2] = Ok r2) /\
      (* but not both, in either order *)
      compact big_int other [d1; d2] = Err EValue /\ compact big_int other [d2; d1] = Err EValue.
Proof.
  intros big_int other z1 z2 lo1 la1 lo2 la2 min_obs t1 t2 s1 s2 M L1 L2 Ne.
  assert (B : Nat.eqb (List.length t1) (List.length t2) = false) by now apply Nat.eqb_neq.
  destruct (Nat.leb_spec min_obs (List.length t2)) as [M2|M2].
  - eexists _, _. split; [apply rolling_long; exact M|]. split; [apply rolling_long; exact M2|].
    unfold compact. cbn [map fst snd a_type]. unfold first_elem. cbn [dict_get find fst snd String.eqb Ascii.eqb Bool.eqb option_map seqR bindR].
    unfold np_array. cbn [all_ones all_rows option_map forallb hd]. rewrite !map_length, L1, L2, !Nat.eqb_refl, (Nat.eqb_sym (List.length t2)), B. cbn [andb mapR map seqR bindR store].
    rewrite !seqR_f64, !seqR_time. cbn [bindR mapR]. split; [eexists; reflexivity|]. split; [eexists; reflexivity|]. split; reflexivity.
  - eexists _, _. split; [apply rolling_long; exact M|]. split; [apply rolling_short; exact M2|].
    unfold compact. cbn [map fst snd a_type]. unfold first_elem. cbn [dict_get find fst snd String.eqb Ascii.eqb Bool.eqb option_map seqR bindR].
    unfold np_array. cbn [all_ones all_rows option_map forallb hd]. rewrite !map_length, L1, !Nat.eqb_refl. cbn [andb mapR map seqR bindR store].
    rewrite !seqR_f64, !seqR_time. cbn [bindR mapR]. split; [eexists; reflexivity|]. split; [eexists; reflexivity|]. split; reflexivity.
Qed.
Example C100_ex_rolling :
  let x := (d_half, d_half, d_half) in
  let a := ok_dict (rolling_calc no_big no_other [] (spot 1 d_half d_half) 2 [10; 11; 12] [x; x; x]) in
  let b := ok_dict (rolling_calc no_big no_other [] (spot 2 d_half d_half) 2 [10; 11; 13] [x; x; x]) in
  let c := ok_dict (rolling_calc no_big no_other [] (spot 3 d_half d_half) 2 [10; 11] [x; x]) in
  (exists r, compact no_big no_other [a; b] = Ok r) /\ compact no_big no_other [a; c] = Err EValue.
Proof. split; [eexists; reflexivity|reflexivity]. Qed.

Print Assumptions C100_location.
Print Assumptions C100_location_refuted.
Print Assumptions C100_text.
Print Assumptions C100_text_refuted.
Print Assumptions C100_metric.
Print Assumptions C100_correlation.
Print Assumptions C100_metric_refuted.
Print Assumptions C100_join.
Print Assumptions C100_rolling_same_length.
Print Assumptions C100_rolling_refuted.
