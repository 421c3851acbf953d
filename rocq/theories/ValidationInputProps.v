(* C73: what the metric calculators are given. *)
From Verif Require Import ValidationSpec MatchersSpec BaseProofs NamesProofs MatchersProofs ValidationProofs ValidationProofs2 MaskProofs ResultsProofs.
From Verif Require Import TemporalModel TemporalSpec.
Open Scope string_scope.
Open Scope list_scope.

Lemma untup_enc p : untup (enc p) = fst p.
Proof.
  destruct p as [a b]. unfold enc. cbn [fst snd]. unfold tup. induction a as [|ch a IH]; [reflexivity|]. cbn. rewrite <- IH at 2. reflexivity.
Qed.
Lemma mask_firstn {A} (n k : nat) (r : list A) : List.length r = (n + k)%nat -> mask_select (repeat true n ++ repeat false k) r = firstn n r.
Proof.
  revert r. induction n as [|n IH]; intros r L; cbn [repeat app firstn].
  - revert r L. induction k as [|k IHk]; intros r L; [destruct r; [reflexivity|discriminate]|]. destruct r as [|x r]; [discriminate|]. cbn. apply IHk. cbn in L. lia.
  - destruct r as [|x r]; [discriminate|]. cbn. f_equal. apply IH. cbn in L. lia.
Qed.

(* the short names: "ref", "k1", "k2", ... *)
Definition short_names (k : nat) : list string := map (fun i => match i with O => "ref" | _ => ("k" ++ decimal i)%string end) (seq 0 k).
Lemma rename_ok (key : list dscol) (f : frame) : NoDup (map fst key) -> fcols f = map fst key ->
  rename_columns key f = mkFrame (short_names (List.length key)) (frows f).
Proof.
  intros ND E. unfold rename_columns, set_columns. f_equal. rewrite E.
  assert (G : forall (l : list dscol) s (d0 : list (string * string)), NoDup (map fst l) ->
    let d := fold_left (fun d (ir : nat * dscol) => dict_set String.eqb d (fst (snd ir)) (short_name (fst ir))) (combine (seq s (List.length l)) l) d0 in
    (forall i n, nth_error (map fst l) i = Some n -> dict_get d n = Some (short_name (s + i))) /\ (forall n, ~ In n (map fst l) -> dict_get d n = dict_get d0 n)).
  { induction l as [|[n c] l IH]; intros s d0 N; cbn [map fst List.length seq combine fold_left snd].
    - split; [intros i m H; destruct i; discriminate|reflexivity].
    - cbn [map fst] in N. apply NoDup_cons_iff in N as [N1 N2]. destruct (IH (S s) (dict_set String.eqb d0 n (short_name s)) N2) as [A B]. split.
      + intros i m H. destruct i as [|i]; cbn [nth_error] in H.
        * injection H as <-. rewrite (B n N1), dict_get_set, String.eqb_refl, Nat.add_0_r. reflexivity.
        * rewrite (A i m H). f_equal. f_equal. lia.
      + intros m H. rewrite B by (intros C; apply H; right; exact C). rewrite dict_get_set. destruct (String.eqb_spec n m) as [->|]; [exfalso; apply H; left; reflexivity|reflexivity]. }
  destruct (G key 0%nat [] ND) as [A _]. cbv zeta in A.
  set (d := fold_left _ _ _) in *. clearbody d. unfold short_names.
  apply (nth_error_ext' _ _ (List.length key)); [rewrite !map_length; reflexivity|rewrite map_length, seq_length; reflexivity|].
  intros i L. rewrite nth_error_map. destruct (nth_error (map fst key) i) as [n|] eqn:EN.
  - cbn [option_map]. rewrite (A i n EN). rewrite nth_error_map, (nth_error_nth' _ 0%nat) by (rewrite seq_length; exact L). rewrite seq_nth by exact L.
    cbn [option_map]. f_equal. unfold short_name. destruct (0 + i)%nat; reflexivity.
  - apply nth_error_None in EN. rewrite map_length in EN. lia.
Qed.

Section Input.
Context {G V : Type}.
Variable code : Z -> V.
Notation config := (@config G V).

(* a scaling method that returns the columns and rows it was given, with other values *)
Definition scaling_keeps_shape (c : config) (g : G) : Prop :=
  forall scale, c_scale c = Some scale -> forall d i sc, scale d i g = Ok sc ->
    fcols sc = fcols d /\ Forall2 (fun r r' : Z * row => fst r' = fst r /\ List.length (snd r') = List.length (snd r)) (frows d) (frows sc).

(* the columns that are read for a combination *)
Definition read_columns (c : config) (key rt : list dscol) : Prop :=
  match c_scale c with
  | None => rt = key
  | Some _ => exists col rest, columns_of (c_ds c) (c_sref c) = Some (col :: rest) /\
      ((In (c_sref c, col) key /\ rt = key) \/ (~ In (c_sref c, col) key /\ rt = key ++ [(c_sref c, col)]))
  end.
Lemma extract_ok (c : config) matched key d : extract c true matched key = Ok (Some d) ->
  exists rt kf, read_columns c key rt /\ In kf matched /\ complete_rows (snd kf) rt d.
Proof.
  unfold extract, read_columns. intros H.
  assert (X : exists rt, get_data_for_result_tuple (c_tref c) matched rt = Ok (Some d) /\
    match c_scale c with None => rt = key | Some _ => exists col rest, columns_of (c_ds c) (c_sref c) = Some (col :: rest) /\
      ((In (c_sref c, col) key /\ rt = key) \/ (~ In (c_sref c, col) key /\ rt = key ++ [(c_sref c, col)])) end).
  { destruct (c_scale c); [|exists key; split; [exact H|reflexivity]]. unfold columns in H.
    destruct (columns_of (c_ds c) (c_sref c)) as [[|col rest]|]; cbn [bindR] in H; try discriminate.
    destruct (existsb (pair_eqb (c_sref c, col)) key) eqn:E.
    - apply existsb_exists in E as (x & I & E). apply pair_eqb_spec in E. subst x. exists key. split; [exact H|]. exists col, rest. auto.
    - exists (key ++ [(c_sref c, col)]). split; [exact H|]. exists col, rest. split; [reflexivity|]. right. split; [|reflexivity]. intros I.
      assert (existsb (pair_eqb (c_sref c, col)) key = true) by (apply existsb_exists; eexists; split; [exact I|apply pair_eqb_spec; reflexivity]). congruence. }
  destruct X as (rt & E & R). destruct (get_data_ok _ _ _ _ E) as (key' & f & I & C & _). exists rt, (key', f). auto.
Qed.
Lemma complete_widths f rt d t r : complete_rows f rt d -> In (t, r) (frows d) -> List.length r = List.length rt.
Proof.
  intros (_ & ps & F & E) I. rewrite E in I. apply filter_In in I as [I _]. apply in_map_iff in I as (x & EQ & _). injection EQ as _ <-. rewrite map_length.
  clear - F. induction F; cbn; congruence.
Qed.
Lemma drop_shape (sref : string) (names : list string) (sc : frame) : fcols sc = names ++ [sref] -> ~ In sref names ->
  (forall tr, In tr (frows sc) -> List.length (snd tr) = S (List.length names)) ->
  drop_column sref sc = mkFrame names (map (fun tr => (fst tr, firstn (List.length names) (snd tr))) (frows sc)).
Proof.
  intros E NI W. unfold drop_column. rewrite E.
  assert (M : map (fun x => negb (String.eqb x sref)) (names ++ [sref]) = repeat true (List.length names) ++ repeat false 1).
  { rewrite map_app. cbn [map]. rewrite String.eqb_refl. f_equal. clear - NI. induction names as [|n l IH]; [reflexivity|]. cbn [map List.length repeat].
    destruct (String.eqb_spec n sref) as [->|_]; [exfalso; apply NI; left; reflexivity|]. cbn [negb]. f_equal. apply IH. intros C. apply NI. right. exact C. }
  rewrite M. f_equal.
  - rewrite mask_firstn by (rewrite app_length; cbn; lia). rewrite firstn_app, firstn_all, Nat.sub_diag. cbn. apply app_nil_r.
  - apply map_ext_in. intros tr I. rewrite mask_firstn by exact (eq_trans (W tr I) (eq_sym (Nat.add_1_r _))). reflexivity.
Qed.

(* C73: the metrics of a combination are those of a frame with one column for each of its datasets, in their
   order, whose rows are the complete rows of a matched set, scaled if there is a scaling method; a scaling
   reference that does not belong to the combination is used for scaling only.  If the calculation fails or
   there are no data, they are those of an empty frame, with the status of the failure.
   Partial: a combination with a column of the scaling reference other than the first one is excluded. *)
Theorem C73_calculator_input_partial (c : config) ignore rename only_ref g f matched key m :
  validate_key code c ignore rename only_ref g f matched key = VOk (Some m) ->
  NoDup (map fst key) -> scaling_keeps_shape c g ->
  (c_scale c <> None -> forall col0 rest, columns_of (c_ds c) (c_sref c) = Some (col0 :: rest) -> forall col, In (c_sref c, col) key -> col = col0) ->
  (exists t s, f (mkFrame (map fst key) []) g = Ok t /\ set_status_name (code s) t = Ok m /\ In s [NO_TEMP_MATCHED_DATA; METRICS_CALCULATION_FAILED]) \/
  (exists input rt kf d, f input g = Ok m /\ fcols input = (if rename then short_names (List.length key) else map fst key) /\
     read_columns c key rt /\ In kf matched /\ complete_rows (snd kf) rt d /\ frows d <> [] /\
     match c_scale c with
     | None => frows input = frows d
     | Some scale => exists i sc, nth_error (map fst rt) i = Some (c_sref c) /\ scale (mkFrame (map fst rt) (frows d)) i g = Ok sc /\
         frows input = map (fun tr => (fst tr, firstn (List.length key) (snd tr))) (frows sc)
     end).
Proof.
  intros H ND KS SC. destruct (validate_key_cases code c ignore rename only_ref g f matched key m H) as (data & E & [(_ & _ & t & T1 & T2)|(d & s & -> & NE & SD & CALC)]).
  { left. exists t, NO_TEMP_MATCHED_DATA. split; [exact T1|]. split; [exact T2|]. left. reflexivity. }
  destruct CALC as [CALC|(_ & _ & t & T1 & T2)]; [|left; exists t, METRICS_CALCULATION_FAILED; split; [exact T1|split; [exact T2|right; left; reflexivity]]].
  right. destruct (extract_ok c matched key d E) as (rt & kf & RC & IK & CR).
  assert (DM : drop_multiindex d = mkFrame (map fst rt) (frows d)).
  { unfold drop_multiindex, set_columns. f_equal. rewrite (proj1 CR), map_map. apply map_ext. intros p. apply untup_enc. }
  assert (S : fcols s = map fst key /\ match c_scale c with
     | None => frows s = frows d
     | Some scale => exists i sc, nth_error (map fst rt) i = Some (c_sref c) /\ scale (mkFrame (map fst rt) (frows d)) i g = Ok sc /\
         frows s = map (fun tr => (fst tr, firstn (List.length key) (snd tr))) (frows sc)
     end).
  { unfold scaled_data in SD. unfold scaling_keeps_shape in KS. unfold read_columns in RC. destruct (c_scale c) as [scale|].
    - destruct SD as (i & sc & P & ES & SS). rewrite DM in P, ES. cbn [fcols] in P.
      destruct (KS scale eq_refl _ _ _ ES) as [FC FR]. cbn [fcols frows] in FC, FR.
      assert (PN : nth_error (map fst rt) i = Some (c_sref c)).
      { clear - P. revert i P. induction (map fst rt) as [|x l IH]; intros i P; [discriminate|]. cbn [col_pos] in P. destruct (String.eqb_spec (c_sref c) x) as [->|_]; [injection P as <-; reflexivity|].
        destruct (col_pos (c_sref c) l) as [j|]; [|discriminate]. injection P as <-. cbn. apply IH. reflexivity. }
      assert (W : forall tr, In tr (frows sc) -> List.length (snd tr) = List.length rt).
      { clear - FR CR. intros tr I. assert (X : exists r, In r (frows d) /\ List.length (snd tr) = List.length (snd r)).
        { clear CR. induction FR as [|r r' l l' [_ H] FR IH]; [destruct I|]. destruct I as [<-|I]; [exists r; split; [left; reflexivity|exact H]|]. destruct (IH I) as (x & X & L). exists x. split; [right; exact X|exact L]. }
        destruct X as ([t r] & IR & L). rewrite L. exact (complete_widths _ _ _ _ _ CR IR). }
      destruct RC as (col & rest & EC & [[IK0 ->]|[NI ->]]).
      + assert (X : existsb (String.eqb (c_sref c)) (map fst key) = true) by (apply existsb_exists; exists (c_sref c); split; [apply in_map_iff; exists (c_sref c, col); auto|apply String.eqb_refl]).
        rewrite X in SS. subst s. split; [exact FC|]. exists i, sc. split; [exact PN|]. split; [exact ES|].
        transitivity (map (fun tr => tr) (frows sc)); [symmetry; apply map_id|]. apply map_ext_in. intros tr I. rewrite <- (W tr I), firstn_all. apply surjective_pairing.
      + assert (NK : ~ In (c_sref c) (map fst key)).
        { intros C. apply in_map_iff in C as ([n col'] & EQ & I). cbn [fst] in EQ. subst n. assert (col' = col) by (apply (SC ltac:(discriminate) col rest EC); exact I). subst col'. contradiction. }
        assert (X : existsb (String.eqb (c_sref c)) (map fst key) = false).
        { destruct (existsb _ _) eqn:X; [|reflexivity]. apply existsb_exists in X as (x & I & EQ). apply String.eqb_eq in EQ. subst x. contradiction. }
        rewrite X in SS. rewrite map_app in FC. cbn [map fst] in FC.
        rewrite (drop_shape (c_sref c) (map fst key) sc FC NK) in SS by (intros tr I; refine (eq_trans (W tr I) _); rewrite app_length, map_length; cbn; lia).
        subst s. cbn [fcols frows]. split; [reflexivity|]. exists i, sc. split; [exact PN|]. split; [exact ES|]. rewrite map_length. reflexivity.
    - subst s rt. rewrite DM. split; reflexivity. }
  destruct S as [SF SR]. exists (if rename then rename_columns key s else s), rt, kf, d. split; [exact CALC|].
  split; [destruct rename; [rewrite (rename_ok key s ND SF); reflexivity|exact SF]|]. split; [exact RC|]. split; [exact IK|]. split; [exact CR|]. split; [exact NE|].
  destruct rename; [rewrite (rename_ok key s ND SF); exact SR|exact SR].
Qed.
End Input.
Print Assumptions C73_calculator_input_partial.

(* the excluded case: the scaling reference "a" has two columns and the second one is compared with "b".
   The calculator is given three columns, two of them called "ref", and the data are scaled to the second
   column instead of the first *)
Section Excluded.
Definition two_cols : list (list string * frame) := [(["a"; "b"], mkFrame [tup "a" "x"; tup "a" "y"; tup "b" "z"] [(1, [Some 1%Q; Some 2%Q; Some 3%Q])])].
Definition mark_scale (d : frame) (i : nat) (_ : unit) : res frame :=
  Ok (mkFrame (fcols d) (map (fun tr => (fst tr, map (fun v => nth i (snd tr) None) (snd tr))) (frows d))).
Definition two_cfg : @config unit (list string * list (Z * row)) :=
  mkCfg [("a", ["x"; "y"]); ("b", ["z"])] "a" "a" "a" (fun _ => Err EOther) (fun _ _ _ => Err EOther) (Some mark_scale) [] None.
Definition show (d : frame) (_ : unit) : res (list (field * fval (list string * list (Z * row)))) := Ok [(FName "data", Arr [(fcols d, frows d)])].
Theorem C73_second_column_refuted :
  validate_key (fun _ => ([], [])) two_cfg false true false tt show two_cols [("a", "y"); ("b", "z")] =
    VOk (Some [(FName "data", Arr [(["ref"; "k1"; "ref"], [(1, [Some 2%Q; Some 2%Q; Some 2%Q])])])]).
Proof. reflexivity. Qed.
(* with the first column, and with a scaling reference outside of the combination, the hypotheses are met *)
Example C73_ex :
  scaling_keeps_shape two_cfg tt /\
  validate_key (fun _ => ([], [])) two_cfg false true false tt show two_cols [("a", "x"); ("b", "z")] =
    VOk (Some [(FName "data", Arr [(["ref"; "k1"], [(1, [Some 1%Q; Some 1%Q])])])]) /\
  validate_key (fun _ => ([], [])) two_cfg false false false tt show two_cols [("b", "z")] = VOk (Some [(FName "data", Arr [(["b"], [(1, [Some 1%Q])])])]).
Proof.
  split; [|split; reflexivity]. intros scale E d i sc H. injection E as <-. unfold mark_scale in H. injection H as <-. cbn [fcols frows]. split; [reflexivity|].
  induction (frows d) as [|x l IH]; [constructor|]. cbn [map]. constructor; [|exact IH]. cbn [fst snd]. rewrite map_length. auto.
Qed.
End Excluded.
Print Assumptions C73_second_column_refuted.
