(* Property theorems C124: what is read through the anomaly adapters. *)
From Verif Require Import BaseProofs FiltersSpec FiltersProofs FiltersProps AnomalyProofs ClimProps AdaptersProofs AdaptersProofs2 AdaptersProps ClimAdapterSpec ClimAdapterProofs.
Open Scope Z_scope.

(* AnomalyAdapter: the selected columns hold the distance of each value to the mean of all values of the column within
   half a window; index and other columns stay *)
Lemma points_series (t : tab stamp) n v : column t n = Ok v -> map (fun p : stamp * cell => (snd (fst p), snd p)) (series t v) = points t n.
Proof.
  intros E. rewrite <- (map_map obs_of (fun x => (o_jd x, o_val x))). rewrite (observations_series t n v E). unfold observations, points. rewrite map_map. reflexivity.
Qed.
Lemma moving_length w s : List.length (moving_anomaly w s) = List.length s.
Proof.
  unfold moving_anomaly, calc_anomaly_ma, moving_average. rewrite map_length. set (l := map (fun p : stamp * cell => (snd (fst p), snd p)) s).
  assert (B : List.length l = List.length (boxcar_filter default_nan w false 1 l)) by (unfold boxcar_filter; symmetry; apply box_loop_length).
  rewrite map2_len; [apply map_length|]. rewrite map2_len; [reflexivity|exact B].
Qed.
Theorem C124_moving_average :
  forall window columns (t : tab stamp), wf t -> (0 <= window)%Q ->
    let selected := match columns with None => tcols t | Some l => l end in
    NoDup selected -> (forall n, In n selected -> In n (tcols t)) -> (forall n, In n selected -> time_sorted (points t n)) ->
    exists t', anomaly_adapter_ma window columns (Some t) = Ok t' /\ tcols t' = tcols t /\ map fst (trows t') = map fst (trows t) /\
      (forall n, In n (tcols t) -> ~ In n selected -> column t' n = column t n) /\
      forall n, In n selected -> exists out, column t' n = Ok out /\
        Forall2 (fun r a =>
          (missing default_nan (value (tcols t) (snd r) n) -> a = None) /\
          (forall v, value (tcols t) (snd r) n = Some v -> ~ (v == default_nan)%Q ->
             exists m d, average_at default_nan window 1 (points t n) (snd (fst r)) = Some m /\ a = Some d /\ (d + m == v)%Q)) (trows t) out.
Proof.
  intros w columns t W W0 selected N H TS. destruct (C70_anomaly_columns stamp (moving_anomaly w) (moving_length w) columns t W N H) as (t' & E & C & X & M).
  exists t'. split; [exact E|]. split; [exact C|]. split; [exact X|]. split.
  - intros n Hn NS. destruct (column_some t n Hn) as [v V]. rewrite V. exact (proj2 (M n v V) NS).
  - intros n Hn. destruct (column_some t n (H n Hn)) as [v V]. exists (map snd (calc_anomaly_ma (points t n) w)).
    split; [rewrite <- (points_series t n v V); exact (proj1 (M n v V) Hn)|].
    destruct (C09_anomaly_plus_average (points t n) w (TS n Hn) W0) as [F A].
    assert (LN : List.length (calc_anomaly_ma (points t n) w) = List.length (trows t)) by (rewrite <- (map_length fst), F, map_length; apply map_length).
    assert (K : forall i r, nth_error (trows t) i = Some r -> exists a, nth_error (map snd (calc_anomaly_ma (points t n) w)) i = Some a /\
       (missing default_nan (value (tcols t) (snd r) n) -> a = None) /\
       (forall v, value (tcols t) (snd r) n = Some v -> ~ (v == default_nan)%Q -> exists m d, average_at default_nan w 1 (points t n) (snd (fst r)) = Some m /\ a = Some d /\ (d + m == v)%Q)).
    { intros i r Hr. destruct (A i (snd (fst r)) (value (tcols t) (snd r) n)) as (a & A1 & A2 & A3); [exact (map_nth_error (fun r : stamp * list cell => (snd (fst r), value (tcols t) (snd r) n)) i (trows t) Hr)|].
      exists a. split; [exact (map_nth_error snd i _ A1)|]. split; [exact A2|exact A3]. }
    assert (LL : List.length (map snd (calc_anomaly_ma (points t n) w)) = List.length (trows t)) by (rewrite map_length; exact LN).
    revert K LL. generalize (map snd (calc_anomaly_ma (points t n) w)). generalize (trows t). intros rows. induction rows as [|r rows IH]; intros [|a out] K LL; cbn in LL; try lia; constructor.
    + destruct (K O r eq_refl) as (b & B1 & B2 & B3). cbn in B1. assert (b = a) by congruence. subst b. split; assumption.
    + apply IH; [|lia]. intros i x Hx. exact (K (S i) x Hx).
Qed.

(* AnomalyClimAdapter: columns, index, and the values of the selected columns *)
Theorem C124_climatology :
  forall agg agg_std o span columns return_clim (t : tab stamp), wf t ->
    let selected := match columns with None => tcols t | Some l => l end in
    NoDup selected -> (forall n, In n selected -> In n (tcols t)) ->
    (return_clim = true -> forall n, In n selected -> ~ In (climatology_name n) (tcols t)) ->
    (forall n, In n selected -> exists clim, calc_climatology_span agg agg_std o span (observations t n) = Ok clim) ->
    exists t', anomaly_clim_adapter_full agg agg_std o span columns return_clim (Some t) = Ok t' /\ map fst (trows t') = map fst (trows t) /\
      tcols t' = tcols t ++ (if return_clim then map climatology_name selected else []) /\
      (forall n, In n (tcols t) -> ~ In n selected -> column t' n = column t n) /\
      forall n clim, In n selected -> calc_climatology_span agg agg_std o span (observations t n) = Ok clim ->
        column t' n = Ok (calc_anomaly_clim default_anomaly_respect (map c_clim clim) (observations t n)) /\
        (return_clim = true -> column t' (climatology_name n) = Ok (map (fun x => clim_lookup (map c_clim clim) (anomaly_key default_anomaly_respect (o_date x))) (observations t n))).
Proof.
  intros agg agg_std o span columns ret t W selected N H FR K. destruct (clim_fold agg agg_std o span ret selected t W N H FR K) as (t' & E & I' & C' & O' & S').
  exists t'. split; [exact E|]. split; [exact I'|]. split; [exact C'|]. split; [exact O'|]. intros n clim Hn CL. destruct (S' n clim Hn CL) as [A B].
  assert (Q : forall k, c_clim (clim_row clim k) = clim_lookup (map c_clim clim) k).
  { intros k. unfold clim_row, clim_lookup. rewrite map_length. destruct (_ && _); [|reflexivity]. symmetry. exact (map_nth c_clim clim (mkCrow None None) _). }
  split.
  - rewrite A. f_equal. unfold calc_anomaly_frame, calc_anomaly_clim. rewrite map_map. cbn [a_anomaly]. apply map_ext. intros x. f_equal. apply Q.
  - intros R. rewrite (B R). f_equal. unfold calc_anomaly_frame. rewrite map_map. cbn [a_clim]. apply map_ext. intros x. apply Q.
Qed.
(* with return_clim the anomaly and the climatology add up to what was read; without a climatology there is no anomaly *)
Theorem C124_sum :
  forall agg agg_std o span columns (t t' : tab stamp), wf t ->
    let selected := match columns with None => tcols t | Some l => l end in
    NoDup selected -> (forall n, In n selected -> In n (tcols t)) -> (forall n, In n selected -> ~ In (climatology_name n) (tcols t)) ->
    (forall n, In n selected -> exists clim, calc_climatology_span agg agg_std o span (observations t n) = Ok clim) ->
    anomaly_clim_adapter_full agg agg_std o span columns true (Some t) = Ok t' ->
    forall n, In n selected -> exists read anomaly climatology, column t n = Ok read /\ column t' n = Ok anomaly /\ column t' (climatology_name n) = Ok climatology /\
      forall i, nth i anomaly None = cell_sub (nth i read None) (nth i climatology None) /\
                (forall v c, nth i read None = Some v -> nth i climatology None = Some c -> exists a, nth i anomaly None = Some a /\ (a + c == v)%Q).
Proof.
  intros agg agg_std o span columns t t' W selected N H FR K E n Hn. destruct (C124_climatology agg agg_std o span columns true t W N H (fun _ => FR) K) as (u & E' & _ & _ & _ & S').
  assert (u = t') by congruence. subst u. destruct (K n Hn) as [clim CL]. destruct (S' n clim Hn CL) as [A B].
  exists (map o_val (observations t n)). do 2 eexists. split; [|split; [exact A|split; [exact (B eq_refl)|]]].
  - rewrite column_ok by (apply H, Hn). unfold observations. rewrite map_map. reflexivity.
  - intros i. assert (Q : nth i (calc_anomaly_clim default_anomaly_respect (map c_clim clim) (observations t n)) None = cell_sub (nth i (map o_val (observations t n)) None) (nth i (map (fun x => clim_lookup (map c_clim clim) (anomaly_key default_anomaly_respect (o_date x))) (observations t n)) None)).
    { unfold calc_anomaly_clim. generalize (observations t n). intros l. revert i. induction l as [|x l IH]; intros [|i]; cbn; try reflexivity. apply IH. }
    split; [exact Q|]. intros v c V C. exists (v - c)%Q. split; [|ring]. refine (eq_trans Q _). rewrite V, C. reflexivity.
Qed.
(* a column for which there is no climatology raises, whatever the other columns *)
Theorem C124_errors :
  forall agg agg_std o span columns return_clim (t : tab stamp) n before after, wf t ->
    columns = Some (before ++ n :: after) -> NoDup (before ++ n :: after) -> (forall m, In m (before ++ n :: after) -> In m (tcols t)) ->
    (return_clim = true -> forall m, In m (before ++ n :: after) -> ~ In (climatology_name m) (tcols t)) ->
    (forall m, In m before -> exists clim, calc_climatology_span agg agg_std o span (observations t m) = Ok clim) ->
    forall e, calc_climatology_span agg agg_std o span (observations t n) = Err e ->
    anomaly_clim_adapter_full agg agg_std o span columns return_clim (Some t) = Err e.
Proof.
  intros agg agg_std o span columns ret t n before after W EC N H FR K e C. subst columns. 
  assert (N' := NoDup_remove_2 _ _ _ N). assert (NB : NoDup before). { clear - N. induction before as [|x b IH]; cbn in *; [constructor|]. inversion N as [|? ? A B]; subst. constructor; [intros X; apply A, in_or_app; left; exact X|apply IH, B]. }
  destruct (clim_fold agg agg_std o span ret before t W NB) as (t' & E & I' & C' & O' & _); [intros; apply H, in_or_app; left; assumption|intros; apply FR; [assumption|apply in_or_app; left; assumption]|exact K|].
  match type of E with fold_left ?F _ _ = _ => change (fold_left F (before ++ n :: after) (Ok t) = Err e) end. rewrite fold_left_app, E. cbn [fold_left bindR].
  assert (Hn : In n (tcols t)) by (apply H, in_or_app; right; left; reflexivity).
  assert (SC : column t' n = column t n) by (apply O'; [exact Hn|intros X; apply N', in_or_app; left; exact X]).
  destruct (column_some t n Hn) as [v V]. assert (V' : column t' n = Ok v) by congruence. rewrite V'. cbn [bindR]. cbv zeta.
  rewrite (observations_series t' n v V'). rewrite (observations_ext t' t n I' SC) by (rewrite C'; apply in_or_app; left; exact Hn). rewrite C. cbn [bindR].
  exact (clim_fold_err agg agg_std o span ret after e).
Qed.
Section Ex.
Open Scope string_scope.
Definition clim_tab : tab stamp :=
  mkTab ["sm"; "flag"] [((mkDate 2020 1 5, 5), [Some 2; Some 1]); ((mkDate 2021 1 5, 371), [Some 6; None]); ((mkDate 2021 1 6, 372), [None; Some 7])]%Q.
Definition clim_ex_opts : clim_opts := mkClim 1 (Some 1%nat) false None true false false false 1 1 FDay.
Example C124_ex : match anomaly_clim_adapter_full mean_agg (fun _ => None) clim_ex_opts None (Some ["sm"]) true (Some clim_tab) with
  | Ok t => tcols t = ["sm"; "flag"; "sm_climatology"] /\ match column t "sm", column t "sm_climatology" with
      | Ok a, Ok c => map (option_map Qred) a = [Some (-2)%Q; Some 2%Q; None] /\ map (option_map Qred) c = [Some 4%Q; Some 4%Q; None]
      | _, _ => False end
  | Err _ => False end.
Proof. vm_compute. repeat split; reflexivity. Qed.
Example C124_ex_ma : match anomaly_adapter_ma 35 (Some ["sm"]) (Some clim_tab) with
  | Ok t => match column t "sm" with Ok a => map (option_map Qred) a = [Some 0%Q; Some 0%Q; None] | _ => False end
  | Err _ => False end.
Proof. vm_compute. reflexivity. Qed.
Example C124_hyp : wf clim_tab /\ time_sorted (points clim_tab "sm") /\ ~ In (climatology_name "sm") (tcols clim_tab) /\
  (match calc_climatology_span mean_agg (fun _ => None) clim_ex_opts None (observations clim_tab "sm") with Ok _ => true | Err _ => false end) = true.
Proof.
  split; [split|].
  - cbn. constructor; [intros [X|X]; [discriminate X|exact X]|]. constructor; [intros X; exact X|constructor].
  - intros r [<-|[<-|[<-|[]]]]; reflexivity.
  - split; [repeat constructor; cbn; unfold Qle; cbn; lia|]. split; [intros [X|[X|[]]]; discriminate X|]. vm_compute. reflexivity.
Qed.
End Ex.
Print Assumptions C124_moving_average.
Print Assumptions C124_climatology.
Print Assumptions C124_sum.
Print Assumptions C124_errors.
