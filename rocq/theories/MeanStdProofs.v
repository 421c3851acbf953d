From Verif Require Import RStats RStatsProofs MeanStdModel.
From Coq Require Import Lra.
Open Scope R_scope.

Lemma mean_std_correct src ref : src <> [] -> ~ constant src ->
  exists out, mean_std src ref = map Some out /\ List.length out = List.length src /\
    rmean out = rmean ref /\ std out = std ref /\
    (forall i j u v u' v', nth_error src i = Some u -> nth_error src j = Some v ->
       nth_error out i = Some u' -> nth_error out j = Some v' -> u <= v -> u' <= v').
Proof.
  intros H C. assert (S : std src <> 0) by (intros E; apply C, std_zero; assumption).
  assert (P : 0 < std src) by (pose proof (std_nonneg src); lra).
  set (a := std ref / std src). set (b := rmean ref - a * rmean src).
  exists (map (fun v => a * v + b) src). unfold mean_std. destruct (Req_EM_T (std src) 0) as [E|_]; [contradiction|].
  assert (A : 0 <= a) by (unfold a, Rdiv; apply Rmult_le_pos; [apply std_nonneg|left; apply Rinv_0_lt_compat; exact P]).
  split; [rewrite map_map; apply map_ext; intros v; f_equal; unfold b, a; field; exact S|].
  split; [apply map_length|]. split; [rewrite rmean_affine by exact H; unfold b; ring|].
  split; [rewrite std_affine by exact H; rewrite Rabs_pos_eq by exact A; unfold a; field; exact S|].
  intros i j u v u' v' Hu Hv. rewrite !nth_error_map, Hu, Hv. cbn. intros E1 E2 L.
  injection E1 as <-. injection E2 as <-. nra.
Qed.

Lemma mean_std_constant src ref : src <> [] -> constant src -> mean_std src ref = map (fun _ => None) src.
Proof.
  intros H C. unfold mean_std. destruct (Req_EM_T (std src) 0) as [_|E]; [reflexivity|].
  exfalso. apply E, std_zero; assumption.
Qed.
