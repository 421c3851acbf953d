(* Proofs for C129: metrics of a whole and of its pieces. *)
From Coq Require Import Reals Lra Permutation List Lia.
From Verif Require Import Base MetricsModel MetricsSpec RStatsProofs MetricsProofs MetricsProps.
Open Scope R_scope.

Lemma rsum_concat {A} (f : A -> R) (ps : list (list A)) : rsum (map f (List.concat ps)) = rsum (map (fun p => rsum (map f p)) ps).
Proof. induction ps as [|p ps IH]; [reflexivity|]. cbn [List.concat map rsum]. rewrite map_app, rsum_app, IH. reflexivity. Qed.
Lemma rsum_split {A} (f : A -> R) (d : list A) ps : Permutation d (List.concat ps) -> rsum (map f d) = rsum (map (fun p => rsum (map f p)) ps).
Proof. intros P. rewrite <- rsum_concat. apply rsum_perm, Permutation_map, P. Qed.
Lemma rlen_split {A} (d : list A) ps : Permutation d (List.concat ps) -> rlen d = rsum (map rlen ps).
Proof.
  intros P. pose proof (rsum_split (fun _ : A => 1) d ps P) as E. rewrite rsum_const in E. rewrite Rmult_1_l in E. rewrite E. f_equal. apply map_ext. intros p. rewrite rsum_const. ring.
Qed.
Lemma total_mean {A} (f : A -> R) (l : list A) : l <> [] -> rlen l * rmean (map f l) = rsum (map f l).
Proof. intros N. unfold rmean. rewrite rlen_map. field. apply rlen_ne, N. Qed.
Lemma mean_split {A} (f : A -> R) (d : list A) ps : d <> [] -> Permutation d (List.concat ps) -> (forall p, In p ps -> p <> []) ->
  rlen d * rmean (map f d) = rsum (map (fun p => rlen p * rmean (map f p)) ps).
Proof. intros N P H. rewrite total_mean by exact N. rewrite (rsum_split f d ps P). apply rsum_ext. intros p I. symmetry. apply total_mean, H, I. Qed.
Lemma bias_mean d : d <> [] -> bias d = Some (rmean (map (fun p => fst p - snd p) d)).
Proof. intros N. rewrite bias_correct by exact N. f_equal. unfold xs, ys, rmean. rewrite !rlen_map, rsum_minus. field. apply rlen_ne, N. Qed.
Lemma rss_sum d : RSS d = rsum (map (fun p => (fst p - snd p) * (fst p - snd p)) d).
Proof.
  unfold RSS. assert (G : forall d s, fold_left (fun s p => s + (fst p - snd p) ^ 2) d s = s + rsum (map (fun p => (fst p - snd p) * (fst p - snd p)) d)).
  { clear. induction d as [|p d IH]; intros s; cbn [fold_left map rsum]; [ring|]. rewrite IH. ring. }
  rewrite G. ring.
Qed.
Lemma msd_nonneg d : 0 <= mean_square_diff d.
Proof.
  unfold mean_square_diff, rmean. destruct d as [|p d]; [cbn [map rsum]; unfold Rdiv; rewrite Rmult_0_l; lra|].
  apply Rmult_le_pos; [apply rsum_nonneg; intros q _; apply sq_nonneg|]. left. apply Rinv_0_lt_compat. rewrite rlen_map. apply rlen_pos. discriminate.
Qed.
(* the weighted mean of squares is at least the square of the weighted mean *)
Lemma weighted_square {A} (w b : A -> R) l W m : (forall x, In x l -> 0 <= w x) -> W = rsum (map w l) -> 0 < W -> W * m = rsum (map (fun x => w x * b x) l) ->
  W * (m * m) <= rsum (map (fun x => w x * (b x * b x)) l).
Proof.
  intros P EW WP EM. assert (N : 0 <= rsum (map (fun x => w x * ((b x - m) * (b x - m))) l)) by (apply rsum_nonneg; intros x I; apply Rmult_le_pos; [apply P, I|apply sq_nonneg]).
  assert (E : rsum (map (fun x => w x * ((b x - m) * (b x - m))) l) = rsum (map (fun x => w x * (b x * b x)) l) - 2 * m * rsum (map (fun x => w x * b x) l) + m * m * rsum (map w l)).
  { clear. induction l as [|x l IH]; cbn [map rsum]; [ring|]. rewrite IH. ring. }
  rewrite E, <- EM, <- EW in N. lra.
Qed.
