(* Proofs about the anomaly adapters with the functions they call. *)
From Verif Require Import BaseProofs FiltersSpec FiltersProofs AdaptersProofs AdaptersProofs2 ClimAdapterSpec.
Open Scope Z_scope.

Lemma append_inj (a b c : string) : (a ++ c)%string = (b ++ c)%string -> a = b.
Proof.
  assert (L : forall x y : string, String.length (x ++ y) = (String.length x + String.length y)%nat) by (induction x; intros; cbn; [reflexivity|rewrite IHx; reflexivity]).
  revert b. induction a as [|x a IH]; intros [|y b] E; [reflexivity| | |].
  - assert (X := f_equal String.length E). cbn in X. rewrite L in X. lia.
  - assert (X := f_equal String.length E). cbn in X. rewrite L in X. lia.
  - cbn in E. injection E as E1 E2. subst y. f_equal. apply IH, E2.
Qed.
Lemma observations_series (t : tab stamp) n v : column t n = Ok v -> map obs_of (series t v) = observations t n.
Proof.
  unfold column, observations, series, value, obs_of. destruct (position n (tcols t)) as [k|]; [|discriminate]. intros E. assert (X : v = map (fun r => nth k (snd r) None) (trows t)) by congruence. subst v.
  induction (trows t) as [|r rows IH]; cbn [map combine]; [reflexivity|]. cbn [fst snd]. f_equal. apply IH. unfold column. cbn. reflexivity.
Qed.
Lemma frame_length respect clim ser : List.length (calc_anomaly_frame respect clim ser) = List.length ser.
Proof. apply map_length. Qed.
Lemma observations_length t n : List.length (observations t n) = List.length (trows t).
Proof. apply map_length. Qed.
Lemma existsb_eqb n l : existsb (String.eqb n) l = true <-> In n l.
Proof. split; [intros H; apply existsb_exists in H as (y & Y1 & Y2); apply String.eqb_eq in Y2; subst; exact Y1|intros H; apply existsb_exists; exists n; split; [exact H|apply String.eqb_refl]]. Qed.
(* observations depend on the index and the column *)
Lemma observations_ext (t u : tab stamp) n : map fst (trows t) = map fst (trows u) -> column t n = column u n -> In n (tcols t) -> observations t n = observations u n.
Proof.
  intros I C H. destruct (column t n) as [v|] eqn:E; [|rewrite column_ok in E by exact H; discriminate]. rewrite <- (observations_series t n v E), <- (observations_series u n v (eq_sym C)).
  unfold series. rewrite I. reflexivity.
Qed.

Section Clim.
Variables (agg agg_std : list Q -> cell) (o : clim_opts) (span : option (option Q * option Q)) (ret : bool).
Let step (acc : res (tab stamp)) (n : string) : res (tab stamp) := bindR acc (fun t => bindR (column t n) (fun v =>
      let ser := map obs_of (series t v) in
      bindR (calc_climatology_span agg agg_std o span ser) (fun clim =>
      let anom := calc_anomaly_frame default_anomaly_respect clim ser in
      Ok (if ret then assign (assign t n (map a_anomaly anom)) (n ++ "_climatology")%string (map a_clim anom)
          else assign t n (map a_anomaly anom))))).
Lemma clim_fold L : forall t : tab stamp, wf t -> NoDup L -> (forall n, In n L -> In n (tcols t)) ->
  (ret = true -> forall n, In n L -> ~ In (climatology_name n) (tcols t)) ->
  (forall n, In n L -> exists clim, calc_climatology_span agg agg_std o span (observations t n) = Ok clim) ->
  exists t', fold_left step L (Ok t) = Ok t' /\ map fst (trows t') = map fst (trows t) /\
    tcols t' = tcols t ++ (if ret then map climatology_name L else []) /\
    (forall n, In n (tcols t) -> ~ In n L -> column t' n = column t n) /\
    (forall n clim, In n L -> calc_climatology_span agg agg_std o span (observations t n) = Ok clim ->
       column t' n = Ok (map a_anomaly (calc_anomaly_frame default_anomaly_respect clim (observations t n))) /\
       (ret = true -> column t' (climatology_name n) = Ok (map a_clim (calc_anomaly_frame default_anomaly_respect clim (observations t n))))).
Proof.
  (* generalised: columns outside of the list and its climatologies stay *)
  assert (G : forall L (t : tab stamp), wf t -> NoDup L -> (forall n, In n L -> In n (tcols t)) ->
    (ret = true -> forall n, In n L -> ~ In (climatology_name n) (tcols t)) ->
    (forall n, In n L -> exists clim, calc_climatology_span agg agg_std o span (observations t n) = Ok clim) ->
    exists t', fold_left step L (Ok t) = Ok t' /\ map fst (trows t') = map fst (trows t) /\
      tcols t' = tcols t ++ (if ret then map climatology_name L else []) /\
      (forall n, ~ In n L -> ~ In n (map climatology_name L) -> column t' n = column t n) /\
      (ret = false -> forall n, ~ In n L -> column t' n = column t n) /\
      (forall n clim, In n L -> calc_climatology_span agg agg_std o span (observations t n) = Ok clim ->
         column t' n = Ok (map a_anomaly (calc_anomaly_frame default_anomaly_respect clim (observations t n))) /\
         (ret = true -> column t' (climatology_name n) = Ok (map a_clim (calc_anomaly_frame default_anomaly_respect clim (observations t n)))))).
  { clear L. induction L as [|n L IH]; intros t W N H FR K; cbn [fold_left].
    - exists t. split; [reflexivity|]. split; [reflexivity|]. split; [destruct ret; cbn; rewrite app_nil_r; reflexivity|]. split; [reflexivity|]. split; [reflexivity|]. intros n clim X. destruct X.
    - apply NoDup_cons_iff in N as [N1 N2]. destruct (column_some t n) as [v V]; [apply H; left; reflexivity|]. destruct (K n (or_introl eq_refl)) as [clim C].
      assert (ST : step (Ok t) n = Ok (if ret then assign (assign t n (map a_anomaly (calc_anomaly_frame default_anomaly_respect clim (observations t n)))) (climatology_name n) (map a_clim (calc_anomaly_frame default_anomaly_respect clim (observations t n)))
                                       else assign t n (map a_anomaly (calc_anomaly_frame default_anomaly_respect clim (observations t n))))).
      { unfold step. cbn [bindR]. rewrite V. cbn [bindR]. cbv zeta. rewrite (observations_series t n v V), C. reflexivity. }
      rewrite ST. set (an := map a_anomaly (calc_anomaly_frame default_anomaly_respect clim (observations t n))). set (cl := map a_clim (calc_anomaly_frame default_anomaly_respect clim (observations t n))).
      assert (LA : List.length an = List.length (trows t)) by (unfold an; rewrite map_length, frame_length, observations_length; reflexivity).
      assert (LC : List.length cl = List.length (trows t)) by (unfold cl; rewrite map_length, frame_length, observations_length; reflexivity).
      set (t1 := assign t n an) in *. assert (W1 : wf t1) by (apply assign_wf; assumption). assert (R1 : List.length (trows t1) = List.length (trows t)) by (apply assign_rows_length; exact LA).
      assert (C1 : tcols t1 = tcols t) by (apply assign_cols_in, H; left; reflexivity). assert (I1 : map fst (trows t1) = map fst (trows t)) by (apply assign_index; exact LA).
      assert (A1 : forall m, column t1 m = if String.eqb m n then Ok an else column t m) by (intros; apply column_assign; assumption).
      set (t2 := if ret then assign t1 (climatology_name n) cl else t1).
      assert (W2 : wf t2) by (unfold t2; destruct ret; [apply assign_wf; [exact W1|rewrite R1; exact LC]|exact W1]).
      assert (I2 : map fst (trows t2) = map fst (trows t)) by (unfold t2; destruct ret; [rewrite assign_index by (rewrite R1; exact LC)|]; exact I1).
      assert (C2 : tcols t2 = tcols t ++ (if ret then [climatology_name n] else [])).
      { unfold t2. destruct ret; [|rewrite app_nil_r; exact C1]. unfold assign. rewrite C1. destruct (position (climatology_name n) (tcols t)) as [k|] eqn:P; [|reflexivity].
        exfalso. apply (FR eq_refl n (or_introl eq_refl)). apply position_in. exists k. exact P. }
      assert (A2 : forall m, column t2 m = if ret && String.eqb m (climatology_name n) then Ok cl else if String.eqb m n then Ok an else column t m).
      { intros m. unfold t2. destruct ret; cbn [andb]; [rewrite column_assign by (assumption || (rewrite R1; exact LC)); destruct (String.eqb m (climatology_name n)); [reflexivity|]|]; apply A1. }
      assert (SAME : forall m, In m L -> column t2 m = column t m).
      { intros m Hm. rewrite A2. destruct (String.eqb_spec m n) as [->|NE]; [contradiction|]. destruct (ret && String.eqb m (climatology_name n)) eqn:B; [|reflexivity]. exfalso. apply andb_true_iff in B as [B1 B2]. apply String.eqb_eq in B2. subst m.
        apply (FR B1 n (or_introl eq_refl)). apply H. right. exact Hm. }
      assert (OB : forall m, In m L -> observations t2 m = observations t m).
      { intros m Hm. apply observations_ext; [exact I2|apply SAME, Hm|]. rewrite C2. apply in_or_app. left. apply H. right. exact Hm. }
      destruct (IH t2 W2 N2) as (t' & E & I' & C' & O' & F' & S').
      + intros m Hm. rewrite C2. apply in_or_app. left. apply H. right. exact Hm.
      + intros RT m Hm X. rewrite C2, RT in X. apply in_app_or in X as [X|[X|[]]]; [exact (FR RT m (or_intror Hm) X)|]. apply append_inj in X. subst m. contradiction.
      + intros m Hm. rewrite OB by exact Hm. apply K. right. exact Hm.
      + exists t'. split; [exact E|]. split; [rewrite I'; exact I2|]. split; [rewrite C', C2, <- app_assoc; destruct ret; reflexivity|]. split; [|split].
        * intros m X Y. cbn [In map] in X, Y. rewrite O' by tauto. rewrite A2. destruct (String.eqb_spec m n) as [->|NE]; [tauto|]. destruct (String.eqb_spec m (climatology_name n)) as [->|NE2]; [exfalso; apply Y; left; reflexivity|]. rewrite andb_false_r. reflexivity.
        * intros RF m X. cbn [In] in X. rewrite (F' RF) by tauto. rewrite A2, RF. cbn [andb]. destruct (String.eqb_spec m n) as [->|NE]; [tauto|reflexivity].
        * intros m cm Hm CM. destruct Hm as [<-|Hm].
          -- assert (cm = clim) by congruence. subst cm. split.
             ++ destruct ret eqn:RT.
                ** rewrite O'; [rewrite A2; cbn [andb]; destruct (String.eqb_spec n (climatology_name n)) as [X|X]; [exfalso; apply (FR eq_refl n (or_introl eq_refl)); rewrite <- X; apply H; left; reflexivity|]; rewrite String.eqb_refl; reflexivity|exact N1|].
                   intros X. apply in_map_iff in X as (y & Y1 & Y2). apply (FR eq_refl y (or_intror Y2)). rewrite Y1. apply H. left. reflexivity.
                ** rewrite (F' eq_refl n N1). rewrite A2. cbn [andb]. rewrite String.eqb_refl. reflexivity.
             ++ intros RT. rewrite O'; [rewrite A2, RT; cbn [andb]; rewrite String.eqb_refl; reflexivity| |].
                ** intros X. apply (FR RT n (or_introl eq_refl)). apply H. right. exact X.
                ** intros X. apply in_map_iff in X as (y & Y1 & Y2). apply append_inj in Y1. subst y. contradiction.
          -- rewrite <- OB in CM by exact Hm. rewrite <- (OB m Hm). apply S'; assumption. }
  intros t W N H FR K. destruct (G L t W N H FR K) as (t' & E & I' & C' & O' & F' & S'). exists t'. split; [exact E|]. split; [exact I'|]. split; [exact C'|]. split; [|exact S'].
  intros n Hn X. destruct ret eqn:RT; [|apply F'; [reflexivity|exact X]]. apply O'; [exact X|]. intros Y. apply in_map_iff in Y as (y & Y1 & Y2). apply (FR eq_refl y Y2). rewrite Y1. exact Hn.
Qed.
Lemma clim_fold_err L e : fold_left step L (Err e) = Err e.
Proof. induction L as [|n L IH]; [reflexivity|]. cbn [fold_left]. exact IH. Qed.
End Clim.
