(* Sums of multiples of a power of two have no rounding errors. *)
From Coq Require Import ZArith Reals List Lia Lra Bool.
From Flocq Require Import Core IEEE754.BinarySingleNaN.
From Verif Require Import FloatModel FloatSpec FloatProofs FloatProofs4 TypedModel ExpFloatModel ExpFloatSpec ExpFloatProofs BoxFloatProofs GridSpec.
Import ListNotations.
Open Scope R_scope.

Lemma grid_exact z e : (Z.abs z <= 2 ^ 53)%Z -> (-1074 <= e <= 950)%Z -> rnd64 (IZR z * bp e) = IZR z * bp e /\ Rabs (rnd64 (IZR z * bp e)) < big 1024.
Proof. intros Z E. split; [apply rnd_fmt, mult_fmt; lia|]. apply small1005, mult_small; lia. Qed.
Lemma add_grid e a b x y : on_grid e a x -> on_grid e b y -> (Z.abs (a + b) <= 2 ^ 53)%Z -> (-1074 <= e <= 950)%Z -> on_grid e (a + b) (add64 x y).
Proof.
  intros [FX VX] [FY VY] B E. destruct (grid_exact (a + b) e B E) as [R S].
  assert (V : B2R x + B2R y = IZR (a + b) * bp e) by (rewrite VX, VY, plus_IZR; ring).
  destruct (fadd_cases 53 1024 p53 e1024 x y FX FY) as [(_ & F & W)|(O & _)]; rewrite V in *; [split; [exact F|rewrite W; exact R]|lra].
Qed.
Lemma sub_grid e a b x y : on_grid e a x -> on_grid e b y -> (Z.abs (a - b) <= 2 ^ 53)%Z -> (-1074 <= e <= 950)%Z -> on_grid e (a - b) (sub64 x y).
Proof.
  intros [FX VX] [FY VY] B E. destruct (grid_exact (a - b) e B E) as [R S].
  assert (V : B2R x - B2R y = IZR (a - b) * bp e) by (rewrite VX, VY, minus_IZR; ring).
  destruct (fsub_cases 53 1024 p53 e1024 x y FX FY) as [(_ & F & W)|(O & _)]; rewrite V in *; [split; [exact F|rewrite W; exact R]|lra].
Qed.
Lemma sq_grid e a x : on_grid e a x -> (a * a <= 2 ^ 53)%Z -> (-537 <= e <= 475)%Z -> on_grid (2 * e) (a * a) (mul64 x x).
Proof.
  intros [FX VX] B E. assert (B' : (Z.abs (a * a) <= 2 ^ 53)%Z) by (rewrite Z.abs_eq; [exact B|apply Z.square_nonneg]). destruct (grid_exact (a * a) (2 * e) B' ltac:(lia)) as [R S].
  assert (V : B2R x * B2R x = IZR (a * a) * bp (2 * e)) by (rewrite VX, mult_IZR; replace (2 * e)%Z with (e + e)%Z by lia; rewrite bpow_plus; ring).
  destruct (fmul_cases 53 1024 p53 e1024 x x FX FX) as [(_ & F & W)|(O & _)]; rewrite V in *; [split; [exact F|rewrite W; exact R]|lra].
Qed.
Lemma zero_grid e : on_grid e 0 (f0 53 1024).
Proof. split; [reflexivity|]. cbn. ring. Qed.
Lemma size_nonneg l : (0 <= z_size l)%Z.
Proof. induction l as [|z l IH]; cbn; [lia|]. fold (z_size l) in *. lia. Qed.
Lemma sum_size l : (Z.abs (z_sum l) <= z_size l)%Z.
Proof. induction l as [|z l IH]; cbn; [lia|]. fold (z_size l) in *. fold (z_sum l) in *. lia. Qed.
(* the loop adds a term on the grid at every step *)
Lemma fold_grid {X} (e : Z) (E : (-1074 <= e <= 950)%Z) (term : X -> double) : forall (l : list X) (zs : list Z),
  Forall2 (fun z x => on_grid e z (term x)) zs l -> forall a acc, on_grid e a acc -> (Z.abs a + z_size zs <= 2 ^ 53)%Z ->
  on_grid e (a + z_sum zs) (fold_left (fun s x => add64 s (term x)) l acc).
Proof.
  intros l zs F. induction F as [|z x zs l D F IH]; intros a acc A B.
  - cbn. rewrite Z.add_0_r. exact A.
  - cbn [fold_left]. unfold z_size in B. cbn [fold_right] in B. fold (z_size zs) in B. pose proof (size_nonneg zs). replace (a + z_sum (z :: zs))%Z with ((a + z) + z_sum zs)%Z by (cbn; fold (z_sum zs); lia).
    apply IH; [|lia]. apply add_grid; [exact A|exact D|lia|exact E].
Qed.
Lemma div_grid e z s n : on_grid e z s -> (Z.abs z <= 2 ^ 53)%Z -> (-1074 <= e <= 950)%Z -> (0 < n)%nat -> (Z.of_nat n <= 2 ^ 53)%Z ->
  rounded_once (IZR z * bp e / INR n) (div64 s (of_n 53 1024 p53 e1024 n)).
Proof.
  intros [F V] B E N LN. destruct (of_n_exact 53 1024 p53 e1024 n LN) as (Fn & Vn). assert (IN : 1 <= INR n) by (apply (le_INR 1); lia).
  assert (SM : Rabs (IZR z * bp e / INR n) <= bp 1005).
  { unfold Rdiv. rewrite Rabs_mult. pose proof (mult_small z e B (proj2 E)) as M. rewrite (Rabs_pos_eq (/ INR n)) by (left; apply Rinv_0_lt_compat; lra).
    assert (/ INR n <= 1) by (rewrite <- Rinv_1; apply Rinv_le; lra). assert (0 < / INR n) by (apply Rinv_0_lt_compat; lra). pose proof (Rabs_pos (IZR z * bp e)). nra. }
  destruct (fdiv_cases 53 1024 p53 e1024 s (of_n 53 1024 p53 e1024 n) F ltac:(rewrite Vn; lra)) as [(_ & Fq & Vq)|(O & _)]; rewrite V, Vn in *; [|pose proof (small1005 _ SM); lra].
  split; [exact Fq|]. rewrite Vq. reflexivity.
Qed.
Lemma len2 {X Y} (P : X -> Y -> Prop) l m : Forall2 P l m -> List.length l = List.length m.
Proof. induction 1; cbn; congruence. Qed.
Lemma mean_grid e zs l : Forall2 (on_grid e) zs l -> l <> [] -> (Z.of_nat (List.length l) <= 2 ^ 53)%Z -> (z_size zs <= 2 ^ 53)%Z -> (-1074 <= e <= 950)%Z ->
  rounded_once (IZR (z_sum zs) * bp e / INR (List.length l)) (f_mean 53 1024 p53 e1024 l).
Proof.
  intros F N LN B E. unfold f_mean. pose proof (sum_size zs).
  apply div_grid; [|lia|exact E|destruct l; [congruence|cbn; lia]|exact LN].
  apply (fold_grid e E (fun x => x) l zs F 0%Z (f0 53 1024) (zero_grid e)). lia.
Qed.
Lemma diffs_grid e m d : pairs_on_grid e m d -> (z_size (differences m) <= 2 ^ 53)%Z -> (-1074 <= e <= 950)%Z ->
  Forall2 (fun z p => on_grid e z (sub64 (fst p) (snd p))) (differences m) d.
Proof.
  intros F B E. induction F as [|q p m d [D1 D2] F IH]; [constructor|]. unfold differences in *. cbn [map] in *. unfold z_size in B. cbn [fold_right] in B. fold (z_size (map (fun q => (fst q - snd q)%Z) m)) in B.
  pose proof (size_nonneg (map (fun q => (fst q - snd q)%Z) m)). constructor; [apply sub_grid; try assumption; lia|apply IH; lia].
Qed.
Lemma squares_nonneg l : (0 <= z_sum (squares l))%Z.
Proof. induction l as [|z l IH]; [cbn; lia|]. change (z_sum (squares (z :: l))) with (z * z + z_sum (squares l))%Z. pose proof (Z.square_nonneg z). lia. Qed.
Lemma squares_grid e m d : pairs_on_grid e m d -> (z_sum (squares (differences m)) <= 2 ^ 53)%Z -> (-537 <= e <= 475)%Z ->
  Forall2 (fun z p => on_grid (2 * e) z (fsq 53 1024 p53 e1024 (sub64 (fst p) (snd p)))) (squares (differences m)) d.
Proof.
  intros F B E. induction F as [|q p m d [D1 D2] F IH]; [constructor|]. unfold squares, differences in *. cbn [map] in *. unfold z_sum in B. cbn [fold_right] in B.
  fold (z_sum (map (fun z => z * z)%Z (map (fun q => (fst q - snd q)%Z) m))) in B.
  pose proof (squares_nonneg (map (fun q => (fst q - snd q)%Z) m)) as P. unfold squares in P.
  assert (Q0 : (0 <= (fst q - snd q) * (fst q - snd q))%Z) by apply Z.square_nonneg.
  constructor; [|apply IH; lia]. apply sq_grid; [|lia|exact E]. apply sub_grid; try assumption; [|lia].
  assert (Q1 : ((fst q - snd q) * (fst q - snd q) <= 2 ^ 53)%Z) by lia. clear - Q1. set (k := (fst q - snd q)%Z) in *. clearbody k.
  destruct (Z.eq_dec k 0) as [->|N]; [cbn; lia|]. assert (1 <= Z.abs k)%Z by lia. rewrite <- Z.abs_square in Q1. nia.
Qed.
Lemma squares_size l : z_size (squares l) = z_sum (squares l).
Proof.
  induction l as [|z l IH]; [reflexivity|]. change (z_size (squares (z :: l))) with (Z.abs (z * z) + z_size (squares l))%Z. change (z_sum (squares (z :: l))) with (z * z + z_sum (squares l))%Z.
  rewrite IH, Z.abs_eq; [reflexivity|apply Z.square_nonneg].
Qed.
Lemma rss_grid e m d : pairs_on_grid e m d -> (z_sum (squares (differences m)) <= 2 ^ 53)%Z -> (-537 <= e <= 475)%Z ->
  on_grid (2 * e) (z_sum (squares (differences m))) (f_RSS 53 1024 p53 e1024 d).
Proof.
  intros F B E. unfold f_RSS.
  apply (fold_grid (2 * e) ltac:(lia) (fun p => fsq 53 1024 p53 e1024 (sub64 (fst p) (snd p))) d _ (squares_grid e m d F B E) 0%Z (f0 53 1024) (zero_grid (2 * e))).
  rewrite squares_size. lia.
Qed.
Lemma bias_grid e m d : pairs_on_grid e m d -> d <> [] -> (Z.of_nat (List.length d) <= 2 ^ 53)%Z -> (z_size (differences m) <= 2 ^ 53)%Z -> (-1074 <= e <= 950)%Z ->
  rounded_once (IZR (z_sum (differences m)) * bp e / INR (List.length d)) (f_bias 53 1024 p53 e1024 d).
Proof.
  intros F N LN B E. unfold f_bias. pose proof (sum_size (differences m)).
  apply div_grid; [|lia|exact E|destruct d; [congruence|cbn; lia]|exact LN].
  apply (fold_grid e E (fun p => sub64 (fst p) (snd p)) d _ (diffs_grid e m d F B E) 0%Z (f0 53 1024) (zero_grid e)). lia.
Qed.
