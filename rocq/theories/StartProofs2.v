(* The files after a parallel validation. *)
From Coq Require Import Lia.
From Verif Require Import ResultsProofs ResultsProofs2 StartSpec StartProofs TemporalModel.
Open Scope nat_scope.

(* a result of a job and what it means: the file and the call *)
Definition means (name_of : list kelem -> res string) (kr : list kelem * key_results) (nc : string * call) : Prop :=
  name_of (fst kr) = Ok (fst nc) /\ exists lons lats ms, snd nc = AddMetrics lons lats ms /\ holds_content (snd kr) lons lats ms.
Definition tracks (d : disk) (l : list (string * call)) : Prop :=
  forall n, match calls_to n l with
            | [] => dict_get d n = None
            | h => exists s, dict_get d n = Some s /\ exec_all new_file h = Ok s
            end.
Lemma exec_all_snoc h c s : exec_all s (h ++ [c]) = bindR (exec_all s h) (fun s' => exec s' c).
Proof. unfold exec_all. rewrite fold_left_app. reflexivity. Qed.
Lemma calls_to_app n l1 l2 : calls_to n (l1 ++ l2) = calls_to n l1 ++ calls_to n l2.
Proof. unfold calls_to. rewrite filter_app, map_app. reflexivity. Qed.
Lemma tracks_base d l n : tracks d l -> exec_all new_file (calls_to n l) = Ok (match dict_get d n with Some s => s | None => new_file end).
Proof.
  intros T. specialize (T n). destruct (calls_to n l) as [|c h] eqn:E; [rewrite T; reflexivity|]. destruct T as (s & E1 & E2). rewrite E1. exact E2.
Qed.
Lemma tracks_step name_of d l kr nc time : tracks d l -> means name_of kr nc -> ok_history empty_table (calls_to (fst nc) (l ++ [nc])) ->
  exists d', bindR (name_of (fst kr)) (fun fname =>
      let s := match dict_get d fname with Some s => s | None => new_file end in
      mapR (fun st => (dict_set String.eqb d fname (fst st), snd st)) (write_key None s time (snd kr))) = Ok (d', time) /\ tracks d' (l ++ [nc]).
Proof.
  intros T (E1 & lons & lats & ms & E2 & HC) OK. destruct nc as [m c]. cbn [fst snd] in *. subst c. rewrite E1. cbn [bindR].
  rewrite (write_key_metrics _ _ _ _ _ _ HC). set (s0 := match dict_get d m with Some s => s | None => new_file end).
  assert (B := tracks_base d l m T). fold s0 in B.
  assert (CS : calls_to m (l ++ [(m, AddMetrics lons lats ms)]) = calls_to m l ++ [AddMetrics lons lats ms]).
  { rewrite calls_to_app. f_equal. unfold calls_to. cbn. rewrite String.eqb_refl. reflexivity. }
  rewrite CS in OK. destruct (exec_all_ok _ new_file empty_table inv_new OK) as (s' & E & _). rewrite exec_all_snoc, B in E. cbn [bindR] in E.
  rewrite E. cbn [mapR fst snd]. eexists. split; [reflexivity|]. intros n. destruct (String.eqb_spec m n) as [<-|N].
  - rewrite CS. destruct (calls_to m l ++ [AddMetrics lons lats ms]) as [|c h] eqn:X; [destruct (calls_to m l); discriminate|].
    exists s'. rewrite dict_get_set, String.eqb_refl. split; [reflexivity|]. rewrite <- X, exec_all_snoc, B. exact E.
  - assert (CN : calls_to n (l ++ [(m, AddMetrics lons lats ms)]) = calls_to n l).
    { rewrite calls_to_app. unfold calls_to at 2. cbn. assert (X : String.eqb n m = false) by (apply String.eqb_neq; congruence). rewrite X. apply app_nil_r. }
    rewrite CN, dict_get_set. assert (X : String.eqb m n = false) by (apply String.eqb_neq; congruence). rewrite X. apply T.
Qed.
Lemma ok_prefix n l1 l2 : ok_history empty_table (calls_to n (l1 ++ l2)) -> ok_history empty_table (calls_to n l1).
Proof. rewrite calls_to_app. intros H. apply ok_history_app in H. exact (proj1 H). Qed.
Lemma tracks_results name_of results : forall d l calls time, tracks d l -> Forall2 (means name_of) results calls ->
  (forall n, ok_history empty_table (calls_to n (l ++ calls))) ->
  exists d', fold_left (fun acc kr => bindR acc (fun dt => bindR (name_of (fst kr)) (fun fname =>
      let s := match dict_get (fst dt) fname with Some s => s | None => new_file end in
      mapR (fun st => (dict_set String.eqb (fst dt) fname (fst st), snd st)) (write_key None s (snd dt) (snd kr))))) results (Ok (d, time)) = Ok (d', time) /\ tracks d' (l ++ calls).
Proof.
  induction results as [|kr results IH]; intros d l calls time T F OK.
  - inversion F; subst. exists d. rewrite app_nil_r. split; [reflexivity|exact T].
  - inversion F as [|? nc ? calls' M F']; subst. change (nc :: calls') with ([nc] ++ calls') in *. rewrite app_assoc in *. cbn [fold_left bindR fst snd].
    destruct (tracks_step name_of d l kr nc time T M (ok_prefix _ _ _ (OK (fst nc)))) as (d1 & E1 & T1).
    cbv zeta in E1. cbv zeta. rewrite E1. apply (IH d1 (l ++ [nc]) calls' time T1 F'). intros n. apply OK.
Qed.
Lemma tracks_store name_of results d l calls : tracks d l -> Forall2 (means name_of) results calls ->
  (forall n, ok_history empty_table (calls_to n (l ++ calls))) ->
  exists d', store_files name_of d results = (d', None) /\ tracks d' (l ++ calls).
Proof.
  intros T F OK. destruct (tracks_results name_of results d l calls None T F OK) as (d' & E & T'). exists d'. split; [|exact T'].
  unfold store_files, write_results. match goal with |- match mapR _ ?x with _ => _ end = _ => assert (E2 : x = Ok (d', None)) by exact E; rewrite E2 end. reflexivity.
Qed.
Lemma tracks_sequential name_of rs : forall d l callss, tracks d l -> Forall2 (Forall2 (means name_of)) rs callss ->
  (forall n, ok_history empty_table (calls_to n (l ++ List.concat callss))) ->
  exists d', sequential (store_files name_of) d rs = (d', None) /\ tracks d' (l ++ List.concat callss).
Proof.
  induction rs as [|r rs IH]; intros d l callss T F OK.
  - inversion F; subst. exists d. cbn. rewrite app_nil_r. auto.
  - inversion F as [|? cs ? callss' M F']; subst. cbn [List.concat] in *. 
    destruct (tracks_store name_of r d l cs T M) as (d1 & E1 & T1).
    { intros n. apply (ok_prefix n (l ++ cs) (List.concat callss')). rewrite <- app_assoc. apply OK. }
    cbn [sequential]. rewrite E1. destruct (IH d1 (l ++ cs) callss' T1 F') as (d' & E' & T'); [intros n; rewrite <- app_assoc; apply OK|].
    exists d'. rewrite <- app_assoc in T'. auto.
Qed.
Lemma tracks_empty : tracks [] [].
Proof. intros n. reflexivity. Qed.
