(* Further proofs about the results manager: single results, file names, writing all results. *)
From Coq Require Import Qround.
From Verif Require Import ResultsSpec BaseProofs NamesProofs MatchersProofs ValidationProofs2 ResultsProofs.
From Verif Require Import TemporalModel TemporalSpec.
Open Scope Z_scope.

(* ---- add_result: the location and its time series *)
Record result := mkResult { r_lon : Q; r_lat : Q; r_data : list (field * list cell); r_tsvars : list string; r_times : option (list Q) }.
Definition r_metrics (r : result) : list (field * list cell) := filter (fun e => negb (is_ts (r_tsvars r) (fst e))) (r_data r).
Definition r_ts (r : result) : list (string * list cell) := named (filter (fun e => is_ts (r_tsvars r) (fst e)) (r_data r)).
Definition store_result (s : ncfile) (r : result) : res ncfile := add_result s (r_lon r) (r_lat r) (r_data r) (r_tsvars r) (r_times r).
Definition store_results (s : ncfile) (rs : list result) : res ncfile := fold_left (fun acc r => bindR acc (fun s => store_result s r)) rs (Ok s).
(* the calls made for the results, the first of them being location k *)
Definition result_calls (k : nat) (r : result) : list call :=
  AddMetrics [r_lon r] [r_lat r] (r_metrics r) ::
  match r_ts r, r_times r with
  | _ :: _, Some times => [AddTs k times (r_ts r)]
  | _, _ => []
  end.
Fixpoint all_calls (k : nat) (rs : list result) : list call :=
  match rs with [] => [] | r :: rest => result_calls k r ++ all_calls (S k) rest end.

Lemma add_result_step s t r : inv s t -> ok_history t (result_calls (List.length (t_locs t)) r) ->
  (r_ts r <> [] -> r_times r <> None) ->
  exists s', store_result s r = Ok s' /\ inv s' (fold_left apply_call (result_calls (List.length (t_locs t)) r) t) /\
    List.length (t_locs (fold_left apply_call (result_calls (List.length (t_locs t)) r) t)) = S (List.length (t_locs t)).
Proof.
  intros I H TM. unfold store_result, add_result. fold (r_metrics r). change (map (fun r0 : field * list cell => (var_name (fst r0), snd r0)) (filter (fun e => is_ts (r_tsvars r) (fst e)) (r_data r))) with (r_ts r).
  unfold result_calls in *. destruct H as [H1 H2].
  destruct (step_metrics s t _ _ _ I H1) as (s1 & E1 & I1). cbn [List.length seq map] in E1.
  assert (LEN : List.length (t_locs (apply_call t (AddMetrics [r_lon r] [r_lat r] (r_metrics r)))) = S (List.length (t_locs t))).
  { cbn [apply_call t_locs]. rewrite app_length. cbn. lia. }
  destruct (r_ts r) as [|x l] eqn:ET; destruct (r_times r) as [times|] eqn:EM.
  - rewrite E1. cbn [bindR fst snd]. exists s1. cbn [fold_left]. auto.
  - rewrite E1. cbn [bindR fst snd]. exists s1. cbn [fold_left]. auto.
  - rewrite E1. cbn [bindR fst snd].
    assert (CI : cell_index (nat_num (List.length (t_locs t))) = Ok (List.length (t_locs t))).
    { unfold cell_index, nat_num, z_num. rewrite Qfloor_Z, Nat2Z.id. reflexivity. }
    rewrite CI. cbn [bindR]. destruct H2 as [H2 _]. destruct (step_ts s1 _ _ _ _ I1 H2) as (s2 & E2 & I2).
    exists s2. cbn [fold_left]. auto.
  - exfalso. apply TM; [discriminate|reflexivity].
Qed.
Lemma ok_history_app h1 : forall t h2, ok_history t (h1 ++ h2) <-> ok_history t h1 /\ ok_history (fold_left apply_call h1 t) h2.
Proof. induction h1 as [|c h1 IH]; intros t h2; cbn [app ok_history fold_left]; [tauto|]. rewrite IH. tauto. Qed.
Lemma store_results_ok rs : forall s t, inv s t -> ok_history t (all_calls (List.length (t_locs t)) rs) ->
  (forall r, In r rs -> r_ts r <> [] -> r_times r <> None) ->
  exists s', store_results s rs = Ok s' /\ inv s' (fold_left apply_call (all_calls (List.length (t_locs t)) rs) t).
Proof.
  unfold store_results. induction rs as [|r rs IH]; intros s t I H TM; cbn [fold_left all_calls]; [exists s; auto|].
  cbn [all_calls] in H. apply ok_history_app in H as [H1 H2].
  destruct (add_result_step s t r I H1) as (s1 & E1 & I1 & L1); [apply TM; left; reflexivity|]. cbn [bindR]. rewrite E1.
  rewrite fold_left_app. rewrite <- L1 in *. apply IH; [exact I1|exact H2|]. intros; apply TM; [right|]; assumption.
Qed.

(* ---- file names *)
Open Scope string_scope.
Definition avoids (w s : string) : Prop := forall a b, s <> a ++ w ++ b.
Lemma str_app_assoc (a b c : string) : (a ++ b) ++ c = a ++ b ++ c.
Proof. induction a as [|x a IH]; cbn; [reflexivity|rewrite IH; reflexivity]. Qed.
Lemma str_app_inv a : forall b c, a ++ b = a ++ c -> b = c.
Proof. induction a as [|x a IH]; cbn; intros b c H; [exact H|]. injection H as H. apply IH, H. Qed.
Lemma str_app_length a b : String.length (a ++ b) = (String.length a + String.length b)%nat.
Proof. induction a as [|x a IH]; cbn; [reflexivity|rewrite IH; reflexivity]. Qed.
Lemma str_app_nil_r a : a ++ "" = a.
Proof. induction a as [|x a IH]; cbn; [reflexivity|rewrite IH; reflexivity]. Qed.
Lemma str_app_inv_r a : forall b c, a ++ c = b ++ c -> a = b.
Proof.
  induction a as [|x a IH]; intros b c H.
  - destruct b as [|y b]; [reflexivity|]. apply (f_equal String.length) in H. cbn in H. rewrite str_app_length in H. lia.
  - destruct b as [|y b].
    + apply (f_equal String.length) in H. cbn in H. rewrite str_app_length in H. lia.
    + cbn in H. injection H as -> H. f_equal. exact (IH _ _ H).
Qed.
(* one of two equal concatenations starts with the other's first part *)
Lemma str_app_split a : forall b c d, a ++ c = b ++ d -> (exists z, b = a ++ z /\ c = z ++ d) \/ (exists z, a = b ++ z /\ d = z ++ c).
Proof.
  induction a as [|x a IH]; intros b c d H; cbn in *.
  - left. exists b. auto.
  - destruct b as [|y b]; cbn in *.
    + right. exists (String x a). cbn. auto.
    + injection H as -> H. destruct (IH _ _ _ H) as [(z & -> & ->)|(z & -> & ->)]; [left|right]; exists z; auto.
Qed.
Lemma with_prefix z s r : "_with_" ++ r = z ++ "_with_" ++ s -> z = "" \/ ~ avoids "with" z.
Proof.
  intros H. destruct z as [|c1 z]; [left; reflexivity|]. right. intros A.
  destruct z as [|c2 z]; [cbn in H; injection H; intros; congruence|].
  destruct z as [|c3 z]; [cbn in H; injection H; intros; congruence|].
  destruct z as [|c4 z]; [cbn in H; injection H; intros; congruence|].
  destruct z as [|c5 z]; [cbn in H; injection H; intros; congruence|].
  cbn in H. injection H as E1 E2 E3 E4 E5 H. subst. apply (A "_" z). reflexivity.
Qed.
Lemma avoids_suffix w a z : avoids w (a ++ z) -> avoids w z.
Proof. intros H x y E. apply (H (a ++ x) y). rewrite E, str_app_assoc. reflexivity. Qed.
Lemma join_head x y r s : avoids "with" x -> avoids "with" y -> x ++ "_with_" ++ r = y ++ "_with_" ++ s -> x = y /\ r = s.
Proof.
  intros Ax Ay H. destruct (str_app_split x y _ _ H) as [(z & -> & E)|(z & -> & E)].
  - destruct (with_prefix z s r E) as [->|C]; [|exfalso; apply C, avoids_suffix with (a := x), Ay].
    rewrite str_app_nil_r in *. split; [reflexivity|]. apply str_app_inv in H. apply str_app_inv in H. exact H.
  - destruct (with_prefix z r s E) as [->|C]; [|exfalso; apply C, avoids_suffix with (a := y), Ax].
    rewrite str_app_nil_r in *. split; [reflexivity|]. apply str_app_inv in H. apply str_app_inv in H. exact H.
Qed.
Lemma join_with_inj l : forall m, (forall x, In x l -> avoids "with" x) -> (forall x, In x m -> avoids "with" x) ->
  l <> [] -> m <> [] -> join_names "_with_" l = join_names "_with_" m -> l = m.
Proof.
  induction l as [|x l IH]; intros m Al Am Nl Nm H; [contradiction|]. destruct m as [|y m]; [contradiction|].
  assert (Ax : avoids "with" x) by (apply Al; left; reflexivity). assert (Ay : avoids "with" y) by (apply Am; left; reflexivity).
  destruct l as [|x2 l], m as [|y2 m].
  - cbn in H. congruence.
  - exfalso. cbn [join_names] in H. apply (Ax (y ++ "_") ("_" ++ join_names "_with_" (y2 :: m))). rewrite H, str_app_assoc. reflexivity.
  - exfalso. cbn [join_names] in H. apply (Ay (x ++ "_") ("_" ++ join_names "_with_" (x2 :: l))). rewrite <- H, str_app_assoc. reflexivity.
  - change (x ++ "_with_" ++ join_names "_with_" (x2 :: l) = y ++ "_with_" ++ join_names "_with_" (y2 :: m)) in H.
    apply join_head in H as [-> H]; [|exact Ax|exact Ay]. f_equal. apply IH; try discriminate; try exact H.
    + intros z Hz. apply Al. right. exact Hz.
    + intros z Hz. apply Am. right. exact Hz.
Qed.
Lemma dot_inj a b c d : avoids "." a -> avoids "." b -> a ++ "." ++ c = b ++ "." ++ d -> a = b /\ c = d.
Proof.
  intros Aa Ab H. destruct (str_app_split a b _ _ H) as [(z & -> & E)|(z & -> & E)].
  - destruct z as [|x z]; [rewrite str_app_nil_r in *; apply str_app_inv in H; injection H as H; auto|].
    cbn in E. injection E as <- _. exfalso. apply (Ab a z). reflexivity.
  - destruct z as [|x z]; [rewrite str_app_nil_r in *; apply str_app_inv in H; injection H as H; auto|].
    cbn in E. injection E as <- _. exfalso. apply (Aa b z). reflexivity.
Qed.
(* (dataset, column) pairs whose names can be told apart in a file name *)
Definition clear_pair (p : dscol) : Prop :=
  avoids "." (fst p) /\ avoids "with" (fst p ++ "." ++ snd p) /\ (forall s, fst p <> "/" ++ s).
Definition pair_key (key : list dscol) : list kelem := map (fun p => KTuple [fst p; snd p]) key.
Definition full_name (key : list dscol) : string := join_names "_with_" (map (fun p => fst p ++ "." ++ snd p) key).
Lemma full_name_eq key : join_names "_with_" (map elem_name (pair_key key)) = full_name key.
Proof. unfold full_name, pair_key. rewrite map_map. reflexivity. Qed.
Lemma full_name_inj k1 k2 : (forall p, In p k1 -> clear_pair p) -> (forall p, In p k2 -> clear_pair p) -> k1 <> [] -> k2 <> [] ->
  full_name k1 = full_name k2 -> k1 = k2.
Proof.
  intros C1 C2 N1 N2 H. apply join_with_inj in H.
  - revert k2 C2 N2 H. clear N1. induction k1 as [|p k1 IH]; intros [|q k2] C2 N2 H; try discriminate; [reflexivity|].
    cbn [map] in H. injection H as H1 H2. apply dot_inj in H1 as [E1 E2]; [|apply C1; left; reflexivity|apply C2; left; reflexivity].
    f_equal; [destruct p, q; cbn in *; congruence|].
    destruct k1 as [|p' k1], k2 as [|q' k2]; try discriminate; [reflexivity|]. apply IH; try discriminate; try exact H2.
    + intros x Hx. apply C1. right. exact Hx.
    + intros x Hx. apply C2. right. exact Hx.
  - intros x Hx. apply in_map_iff in Hx as (p & <- & Hp). apply C1, Hp.
  - intros x Hx. apply in_map_iff in Hx as (p & <- & Hp). apply C2, Hp.
  - destruct k1; [contradiction|discriminate].
  - destruct k2; [contradiction|discriminate].
Qed.
Definition relative (s : string) : Prop := forall r, s <> "/" ++ r.
Lemma path_join_relative root n : relative n -> path_join root n = (if String.eqb root "" then "" else if String.eqb (substring (String.length root - 1) 1 root) "/" then root else root ++ "/") ++ n.
Proof.
  intros R. unfold path_join.
  assert (X : match root with "" => n | String _ _ => if String.eqb (substring (String.length root - 1) 1 root) "/" then root ++ n else root ++ "/" ++ n end
     = (if String.eqb root "" then "" else if String.eqb (substring (String.length root - 1) 1 root) "/" then root else root ++ "/") ++ n).
  { destruct root as [|c root]; [reflexivity|]. change (String.eqb (String c root) "") with false. cbv iota. destruct (String.eqb (substring _ 1 (String c root)) "/"); [reflexivity|].
    rewrite str_app_assoc. reflexivity. }
  rewrite <- X. destruct n as [|c n]; [reflexivity|].
  destruct (ascii_dec c "/") as [->|N]; [exfalso; apply (R n); reflexivity|].
  destruct c as [[] [] [] [] [] [] [] []]; try reflexivity. exfalso. apply N. reflexivity.
Qed.
Lemma full_name_relative key : (forall p, In p key -> clear_pair p) -> relative (with_ext (full_name key)).
Proof.
  intros C r E. destruct key as [|p key]; [discriminate|].
  assert (H := C p (or_introl eq_refl)). destruct H as (A1 & A2 & A3). unfold full_name, with_ext in E. cbn [map] in E.
  destruct p as [ds col]. cbn [fst snd] in *.
  assert (exists rest, ds ++ "." ++ rest = "/" ++ r) as (rest & E').
  { destruct key as [|q key]; cbn [map join_names] in E; rewrite ?str_app_assoc in E; cbn [String.append] in E; eexists; exact E. }
  destruct ds as [|c ds]; [discriminate|]. cbn in E'. injection E' as -> _. apply (A3 ds). reflexivity.
Qed.
Lemma build_filename_full root key : (String.length (path_join root (with_ext (full_name key))) <= 255)%nat ->
  build_filename root (pair_key key) = Ok (path_join root (with_ext (full_name key))).
Proof.
  intros H. unfold build_filename. rewrite full_name_eq.
  assert (E : Nat.ltb 255 (String.length (path_join root (with_ext (full_name key)))) = false) by (apply Nat.ltb_ge; exact H). rewrite E. reflexivity.
Qed.
Lemma build_filename_inj root k1 k2 : (forall p, In p k1 -> clear_pair p) -> (forall p, In p k2 -> clear_pair p) -> k1 <> [] -> k2 <> [] ->
  (String.length (path_join root (with_ext (full_name k1))) <= 255)%nat -> (String.length (path_join root (with_ext (full_name k2))) <= 255)%nat ->
  build_filename root (pair_key k1) = build_filename root (pair_key k2) -> k1 = k2.
Proof.
  intros C1 C2 N1 N2 L1 L2 H. rewrite !build_filename_full in H by assumption.
  assert (E : path_join root (with_ext (full_name k1)) = path_join root (with_ext (full_name k2))) by congruence. clear H.
  rewrite !path_join_relative in E by (apply full_name_relative; assumption). apply str_app_inv in E. apply str_app_inv_r in E.
  apply full_name_inj; assumption.
Qed.
Lemma path_join_length root n : (String.length (path_join root n) <= String.length root + 1 + String.length n)%nat.
Proof.
  assert (H : forall a b, (String.length (a ++ "/" ++ b) <= String.length a + 1 + String.length b)%nat) by (intros a b; rewrite !str_app_length; cbn; lia).
  assert (H2 : forall a b, (String.length (a ++ b) <= String.length a + 1 + String.length b)%nat) by (intros a b; rewrite !str_app_length; lia).
  assert (X : (String.length match root with "" => n | String _ _ => if String.eqb (substring (String.length root - 1) 1 root) "/" then root ++ n else root ++ "/" ++ n end <= String.length root + 1 + String.length n)%nat).
  { destruct root as [|c root]; [cbn; lia|]. destruct (String.eqb _ _); [apply H2|apply H]. }
  unfold path_join. destruct n as [|c n]; [exact X|]. destruct c as [[] [] [] [] [] [] [] []]; try exact X. cbn; lia.
Qed.
Lemma build_filename_length root key f : build_filename root key = Ok f -> (String.length root <= 241)%nat -> (String.length f <= 255)%nat.
Proof.
  unfold build_filename. intros H R.
  destruct (Nat.ltb_spec 255 (String.length (path_join root (with_ext (join_names "_with_" (map elem_name key)))))) as [L1|L1].
  - destruct (all_some (map first_item key)) as [names|]; [|discriminate].
    destruct (Nat.ltb_spec 255 (String.length (path_join root (with_ext (join_names "_with_" names))))) as [L2|L2].
    + assert (f = path_join root (with_ext "validation")) by congruence. subst f. assert (X := path_join_length root (with_ext "validation")). cbn [with_ext] in X.
      change (String.length (with_ext "validation")) with 13%nat in X. lia.
    + assert (f = path_join root (with_ext (join_names "_with_" names))) by congruence. subst f. exact L2.
  - assert (f = path_join root (with_ext (join_names "_with_" (map elem_name key)))) by congruence. subst f. exact L1.
Qed.
Close Scope string_scope.

(* ---- writing all results *)
(* the results of one key: coordinates and metrics *)
Definition holds_content (r : list (field * list entry)) (lons lats : list Q) (ms : list (field * list cell)) : Prop :=
  NoDup (map fst r) /\
  In (FName "lon", map (fun q => Sc (Some q)) lons) r /\ In (FName "lat", map (fun q => Sc (Some q)) lats) r /\
  filter (fun e => negb (field_eqb (fst e) (FName "lon")) && negb (field_eqb (fst e) (FName "lat"))) r = map (fun m => (fst m, map Sc (snd m))) ms.
Lemma pop_spec k r v : NoDup (map fst r) -> In (FName k, v) r ->
  pop k r = Some (v, filter (fun e => negb (field_eqb (fst e) (FName k))) r).
Proof.
  induction r as [|[n w] r IH]; intros N H; [contradiction|]. cbn [map fst] in N. apply NoDup_cons_iff in N as [N1 N2]. cbn [pop filter fst].
  destruct (field_eqb n (FName k)) eqn:E.
  - apply field_eqb_spec in E. subst n. destruct H as [H|H]; [|exfalso; apply N1, in_map_iff; exists (FName k, v); auto].
    injection H as ->. cbn [negb]. rewrite (filter_all _ r); [reflexivity|]. intros [n' w'] H'. cbn [fst]. apply negb_true_iff.
    destruct (field_eqb n' (FName k)) eqn:E'; [|reflexivity]. apply field_eqb_spec in E'. subst n'. exfalso. apply N1, in_map_iff. exists (FName k, w'). auto.
  - destruct H as [H|H]; [injection H as -> ->; rewrite (proj2 (field_eqb_spec _ _) eq_refl) in E; discriminate|].
    rewrite (IH N2 H). reflexivity.
Qed.
Lemma numbers_ok l : numbers (map (fun q => Sc (Some q)) l) = Ok l.
Proof. unfold numbers. rewrite map_map. induction l as [|x l IH]; [reflexivity|]. cbn. rewrite IH. reflexivity. Qed.
Lemma flat_ok l : flat (map Sc l) = Ok l.
Proof. unfold flat. rewrite map_map. induction l as [|x l IH]; [reflexivity|]. cbn. rewrite IH. reflexivity. Qed.
Lemma filter_filter_and {A} (p q : A -> bool) l : filter q (filter p l) = filter (fun x => p x && q x) l.
Proof. induction l as [|x l IH]; [reflexivity|]. cbn. destruct (p x); cbn; [destruct (q x); rewrite IH; reflexivity|exact IH]. Qed.
Lemma write_key_metrics s time r lons lats ms : holds_content r lons lats ms ->
  write_key None s time r = mapR (fun s' => (s', time)) (exec s (AddMetrics lons lats ms)).
Proof.
  intros (N & H1 & H2 & H3). unfold write_key. rewrite (pop_spec _ _ _ N H1).
  assert (H2' : In (FName "lat", map (fun q => Sc (Some q)) lats) (filter (fun e => negb (field_eqb (fst e) (FName "lon"))) r)) by (apply filter_In; split; [exact H2|reflexivity]).
  assert (N' : NoDup (map fst (filter (fun e => negb (field_eqb (fst e) (FName "lon"))) r))).
  { clear -N. induction r as [|[n w] r IH]; [constructor|]. cbn [map filter fst] in *. apply NoDup_cons_iff in N as [N1 N2]. destruct (negb _); [|apply IH, N2].
    cbn [map fst]. constructor; [|apply IH, N2]. intros C. apply N1. apply in_map_iff in C as (y & E & C). apply filter_In in C as [C _]. apply in_map_iff. exists y. auto. }
  rewrite (pop_spec _ _ _ N' H2'), !numbers_ok. cbn [bindR]. rewrite filter_filter_and, H3.
  assert (E : seqR (map (fun kv : field * list entry => mapR (fun l => (fst kv, l)) (flat (snd kv))) (map (fun m : field * list cell => (fst m, map Sc (snd m))) ms)) = Ok ms).
  { clear. induction ms as [|[n l] ms IH]; [reflexivity|]. cbn [map seqR fst snd]. rewrite flat_ok. cbn [mapR bindR]. rewrite IH. reflexivity. }
  rewrite E. cbn [bindR exec]. destruct (add_metrics_results s lons lats ms) as [[s' ids]|e]; reflexivity.
Qed.

Definition content := (list kelem * (list Q * list Q * list (field * list cell)))%type.
Definition content_call (c : content) : call := let '(lons, lats, ms) := snd c in AddMetrics lons lats ms.
Lemma write_results_ok name_of results : forall d contents names time,
  Forall2 (fun kr c => fst c = fst kr /\ let '(lons, lats, ms) := snd c in holds_content (snd kr) lons lats ms) results contents ->
  Forall2 (fun kr n => name_of (fst kr) = Ok n) results names -> NoDup names ->
  (forall n, In n names -> dict_get d n = None) ->
  (forall c, In c contents -> ok_call empty_table (content_call c)) ->
  exists d', fold_left (fun acc kr => bindR acc (fun dt => bindR (name_of (fst kr)) (fun fname =>
      let s := match dict_get (fst dt) fname with Some s => s | None => new_file end in
      mapR (fun st => (dict_set String.eqb (fst dt) fname (fst st), snd st)) (write_key None s (snd dt) (snd kr))))) results (Ok (d, time)) = Ok (d', time) /\
    Forall2 (fun c n => exists s, dict_get d' n = Some s /\ exec new_file (content_call c) = Ok s) contents names /\
    (forall n, ~ In n names -> dict_get d' n = dict_get d n).
Proof.
  induction results as [|[key r] results IH]; intros d contents names time F1 F2 ND ABS OK1.
  - inversion F1; subst. inversion F2; subst. exists d. cbn. split; [reflexivity|]. split; [constructor|reflexivity].
  - inversion F1 as [|? [key' [[lons lats] ms]] ? contents' [E1 HC] F1']; subst. inversion F2 as [|? n ? names' E2 F2']; subst.
    cbn [fst snd] in *. apply NoDup_cons_iff in ND as [N1 N2]. cbn [fold_left bindR fst snd]. rewrite E2. cbn [bindR fst snd].
    rewrite (ABS n) by (left; reflexivity). cbv zeta. rewrite (write_key_metrics _ _ _ _ _ _ HC).
    destruct (step_ok new_file empty_table (AddMetrics lons lats ms) inv_new) as (s1 & X1 & _); [exact (OK1 _ (or_introl eq_refl))|].
    rewrite X1. cbn [mapR fst snd].
    destruct (IH (dict_set String.eqb d n s1) contents' names' time F1' F2' N2) as (d' & E' & FA & OTH).
    + intros m Hm. rewrite dict_get_set. destruct (String.eqb_spec n m) as [->|]; [contradiction|]. apply ABS. right. exact Hm.
    + intros c Hc. apply OK1. right. exact Hc.
    + exists d'. split; [exact E'|]. split.
      * constructor; [|exact FA]. exists s1. split; [|exact X1]. rewrite OTH by exact N1. rewrite dict_get_set, String.eqb_refl. reflexivity.
      * intros m Hm. rewrite OTH by (intros C; apply Hm; right; exact C). rewrite dict_get_set. destruct (String.eqb_spec n m) as [->|]; [exfalso; apply Hm; left; reflexivity|reflexivity].
Qed.
