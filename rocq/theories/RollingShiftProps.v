(* C94: metrics over moving windows depend on differences of times only. *)
From Coq Require Import Reals List ZArith Lra Lia.
From Verif Require Import RollingModel.
Import ListNotations.
Open Scope R_scope.

Section Shift.
Variable betainc : R -> R -> R -> R.
Variables (k s : R) (ts : list R) (d : pairs) (w : R) (center : bool) (mp : Z).
Hypothesis K : 0 < k.
Local Notation f := (fun t => k * t + s).
Lemma t_at_f i : (i < List.length ts)%nat -> t_at (map f ts) i = k * t_at ts i + s.
Proof. intros L. unfold t_at. rewrite (nth_indep _ 0 (f 0)) by (rewrite map_length; exact L). exact (map_nth f ts 0 i). Qed.
Lemma rltb_f a b a' b' : a' = k * a + s -> b' = k * b + s -> rltb a' b' = rltb a b.
Proof. intros -> ->. unfold rltb. destruct (Rlt_dec a b) as [H|H], (Rlt_dec (k * a + s) (k * b + s)) as [H'|H']; try reflexivity; exfalso; nra. Qed.
Lemma rleb_f a b a' b' : a' = k * a + s -> b' = k * b + s -> rleb a' b' = rleb a b.
Proof. intros -> ->. unfold rleb. destruct (Rle_dec a b) as [H|H], (Rle_dec (k * a + s) (k * b + s)) as [H'|H']; try reflexivity; exfalso; nra. Qed.
Lemma scan_ext p q js : (forall j, In j js -> p j = q j) -> forall v, scan p js v = scan q js v.
Proof. induction js as [|j js IH]; intros H v; cbn; [reflexivity|]. rewrite (H j (or_introl eq_refl)). destruct (q j); [reflexivity|]. apply IH. intros i I1. apply H. right. exact I1. Qed.
Lemma in_range a j : In j (from_to a (List.length ts)) -> (j < List.length ts)%nat.
Proof. unfold from_to. rewrite in_seq. lia. Qed.
Lemma n_f : n_ts (map f ts) = n_ts ts.
Proof. apply map_length. Qed.
Lemma find_lower_f i l : (i < List.length ts)%nat -> find_lower (map f ts) (k * w) center i l = find_lower ts w center i l.
Proof.
  intros L. unfold find_lower. rewrite n_f, (t_at_f i L). destruct center; apply scan_ext; intros j J; apply in_range in J; [apply rleb_f|apply rltb_f]; try (apply t_at_f, J); ring.
Qed.
Lemma find_hi_f i h : (i < List.length ts)%nat -> find_hi (map f ts) (k * w) center i h = find_hi ts w center i h.
Proof.
  intros L. unfold find_hi. rewrite n_f. destruct center; [|reflexivity]. rewrite (t_at_f i L), (t_at_f (n_ts ts - 1)) by (unfold n_ts; lia).
  rewrite (rltb_f (t_at ts i + w) (t_at ts (n_ts ts - 1))) by ring. destruct (rltb _ _); [|reflexivity]. cbv zeta. apply scan_ext. intros j J. apply in_range in J. apply rltb_f; [ring|apply t_at_f, J].
Qed.
Lemma roll_loop_f is : (forall i, In i is -> (i < List.length ts)%nat) -> forall st, roll_loop betainc (map f ts) d (k * w) center mp is st = roll_loop betainc ts d w center mp is st.
Proof.
  induction is as [|i is IH]; intros H st; [reflexivity|]. cbn [roll_loop].
  assert (E : roll_step betainc (map f ts) d (k * w) center mp st i = roll_step betainc ts d w center mp st i).
  { unfold roll_step. rewrite find_lower_f, find_hi_f by (apply H; left; reflexivity). reflexivity. }
  rewrite E. clear E. destruct (roll_step betainc ts d w center mp st i) as [st' o]. f_equal. apply IH. intros j J. apply H. right. exact J.
Qed.
Theorem C94_rolling : rolling_pr_rmsd betainc (map f ts) d (k * w) center mp = rolling_pr_rmsd betainc ts d w center mp.
Proof. unfold rolling_pr_rmsd. rewrite n_f. apply roll_loop_f. intros i I1. apply in_seq in I1. unfold n_ts in I1. lia. Qed.
End Shift.
Print Assumptions C94_rolling.
(* the days of three pairs as hours since another day *)
Example C94_rolling_ex : 0 < 24 /\ map (fun t => 24 * t + 100) [1; 2; 4] = [124; 148; 196].
Proof. split; [lra|]. cbn. repeat (f_equal; [lra|]). f_equal; lra. Qed.
