(* The exponential filter in IEEE 754 arithmetic: prefixes, and jumps back in real time. *)
From Coq Require Import ZArith Reals List Lia Lra Bool.
From Flocq Require Import Core IEEE754.BinarySingleNaN.
From Verif Require Import FloatModel FloatSpec FloatProofs FloatProofs4 TypedModel TypedProofs ExpFloatModel ExpFloatSpec ExpFloatProofs ExpFloatProofs2.
Import ListNotations.
Open Scope R_scope.

Lemma chrono_sorted pts : chronological pts -> forall t0, (forall t x, In (t, x) pts -> B2R t0 <= B2R t) -> sorted_from t0 pts.
Proof.
  induction pts as [|[t x] r IH]; intros [G C] t0 L; [exact Logic.I|]. cbn [sorted_from]. split; [apply (G t x); left; reflexivity|]. split; [apply (L t x); left; reflexivity|].
  apply IH.
  - split; [intros t1 x1 J; apply (G t1 x1); right; exact J|]. intros i j p q IJ A B. apply (C (S i) (S j) p q); [lia|exact A|exact B].
  - intros t1 x1 J. apply In_nth_error in J as [k K]. apply (C 0%nat (S k) (t, x) (t1, x1)); [lia|reflexivity|exact K].
Qed.
Lemma chrono_sorted_0 pts : chronological pts -> exists t0, sorted_from t0 pts.
Proof.
  intros C. destruct pts as [|[t x] r]; [exists B754_nan; exact Logic.I|]. exists t. apply chrono_sorted; [exact C|]. intros t1 x1 J. apply In_nth_error in J as [[|k] K].
  - injection K as <- <-. lra.
  - destruct C as [_ C]. apply (C 0%nat (S k) (t, x) (t1, x1)); [lia|reflexivity|exact K].
Qed.
Lemma chrono_firstn k pts : chronological pts -> chronological (firstn k pts).
Proof.
  intros [G C]. split.
  - intros t x J. apply (G t x). rewrite <- (firstn_skipn k pts). apply in_or_app. left. exact J.
  - assert (H : forall i p, nth_error (firstn k pts) i = Some p -> nth_error pts i = Some p).
    { intros i p E. rewrite <- (firstn_skipn k pts). rewrite nth_error_app1; [exact E|]. apply nth_error_Some. rewrite E. discriminate. }
    intros i j p q IJ A B. apply (C i j p q IJ); apply H; assumption.
Qed.
Lemma eps_u : eps = u.
Proof. unfold eps, u, unit_roundoff. change (bp (1 - 53)) with (/ IZR (2 ^ 52)). change (2 ^ 52)%Z with 4503599627370496%Z. lra. Qed.

(* later points do not matter *)
Lemma loop_firstn exp64 nan ctime pts : forall k t0 last g, firstn k (f_exp_loop exp64 nan ctime t0 last g pts) = f_exp_loop exp64 nan ctime t0 last g (firstn k pts).
Proof.
  induction pts as [|[t x] r IH]; intros [|k] t0 last g; try reflexivity. cbn [f_exp_loop firstn]. destruct (f_missing nan x); cbn [firstn]; rewrite IH; reflexivity.
Qed.
Lemma filter_firstn exp64 nan ctime pts : forall k, firstn k (f_exp_filter exp64 nan ctime pts) = f_exp_filter exp64 nan ctime (firstn k pts).
Proof.
  induction pts as [|[t x] r IH]; intros [|k]; try reflexivity. cbn [f_exp_filter firstn]. destruct (f_missing nan x); cbn [firstn]; [rewrite IH; reflexivity|].
  rewrite loop_firstn. reflexivity.
Qed.
Lemma loop_length exp64 nan ctime pts : forall t0 last g, List.length (f_exp_loop exp64 nan ctime t0 last g pts) = List.length pts.
Proof. induction pts as [|[t x] r IH]; intros; [reflexivity|]. cbn [f_exp_loop]. destruct (f_missing nan x); cbn; rewrite IH; reflexivity. Qed.
Lemma filter_length exp64 nan ctime pts : List.length (f_exp_filter exp64 nan ctime pts) = List.length pts.
Proof. induction pts as [|[t x] r IH]; [reflexivity|]. cbn [f_exp_filter]. destruct (f_missing nan x); cbn; [rewrite IH|rewrite loop_length]; reflexivity. Qed.
Lemma nth_firstn {A} (l : list A) k : nth_error (firstn (S k) l) k = nth_error l k.
Proof. revert l. induction k as [|k IH]; intros [|a l]; try reflexivity. change (nth_error (firstn (S k) l) k = nth_error l k). apply IH. Qed.

(* the exponent computed for two dates, compared with whole numbers *)
Section Exponent.
Variable ctime : Z.
Hypothesis CT : (1 <= ctime < 2 ^ 31)%Z.
Lemma int_fmt z : (Z.abs z < 2 ^ 53)%Z -> format (IZR z).
Proof.
  intros B. apply generic_format_FLT. exists (Float radix2 z 0); cbn [Fnum Fexp]; [unfold F2R; cbn [Fnum Fexp]; change (bp 0) with 1; ring| |lia].
  change (Zpower radix2 53) with (2 ^ 53)%Z. exact B.
Qed.
Lemma exponent_val t0 t : good_time t0 -> good_time t ->
  is_finite (exponent ctime t0 t) = true /\ B2R (exponent ctime t0 t) = rnd64 (rnd64 (B2R t0 - B2R t) / IZR ctime).
Proof.
  intros [F0 K0] [F1 K1]. pose proof (bp_succ 1000) as B1. change (1000 + 1)%Z with 1001%Z in B1. pose proof (bpow_gt_0 radix2 1000) as BP.
  assert (BB : bp 1001 <= bp 1010) by (apply bpow_le; lia).
  assert (L1 : Rabs (B2R t - B2R t0) <= bp 1001) by (unfold Rminus; eapply Rle_trans; [apply Rabs_triang|rewrite Rabs_Ropp; lra]).
  destruct (fsub_cases 53 1024 p53 e1024 t t0 F1 F0) as [[_ [Fd Vd]]|[O _]]; [|pose proof (small64 (B2R t - B2R t0) ltac:(lra)); lra].
  assert (D1 : Rabs (rnd64 (B2R t - B2R t0)) <= bp 1001) by (apply rnd_bound; [lia|exact L1]).
  destruct (ct_val ctime CT) as [Fc Vc]. assert (C1 : 1 <= IZR ctime) by (apply IZR_le; lia).
  assert (N : - rnd64 (B2R t - B2R t0) = rnd64 (B2R t0 - B2R t)) by (rewrite <- rnd_opp; f_equal; ring).
  assert (Q : Rabs (rnd64 (B2R t0 - B2R t) / IZR ctime) <= bp 1010).
  { unfold Rdiv. rewrite Rabs_mult, <- N, Rabs_Ropp. rewrite (Rabs_pos_eq (/ IZR ctime)) by (left; apply Rinv_0_lt_compat; lra). apply Rle_trans with (bp 1001 * 1); [|lra].
    apply Rmult_le_compat; [apply Rabs_pos|left; apply Rinv_0_lt_compat; lra|exact D1|]. rewrite <- Rinv_1. apply Rinv_le; lra. }
  destruct (fdiv_cases 53 1024 p53 e1024 (Bopp (sub64 t t0)) (z64 ctime) ltac:(rewrite is_finite_Bopp; exact Fd) ltac:(rewrite Vc; lra)) as [[_ [Fq Vq]]|[O _]];
    rewrite B2R_Bopp, Vd, Vc, N in *; [|pose proof (small64 _ Q); lra]. split; [exact Fq|exact Vq].
Qed.
Lemma exponent_ge t0 t k : good_time t0 -> good_time t -> (-1000 <= k <= 1000)%Z -> IZR k * IZR ctime <= B2R t0 - B2R t -> IZR k <= B2R (exponent ctime t0 t).
Proof.
  intros T0 T K L. destruct (exponent_val t0 t T0 T) as [_ V]. rewrite V. rewrite <- (rnd_fmt (IZR k)) by (apply int_fmt; lia). apply (rnd_le 53 1024 p53).
  assert (C1 : 0 < IZR ctime) by (apply IZR_lt; lia). apply Rmult_le_reg_r with (IZR ctime); [exact C1|]. unfold Rdiv. rewrite Rmult_assoc, Rinv_l, Rmult_1_r by lra.
  rewrite <- mult_IZR in *. rewrite <- (rnd_fmt (IZR (k * ctime))) by (apply int_fmt; nia). apply (rnd_le 53 1024 p53). exact L.
Qed.
Lemma exponent_le t0 t k : good_time t0 -> good_time t -> (-1000 <= k <= 1000)%Z -> B2R t0 - B2R t <= IZR k * IZR ctime -> B2R (exponent ctime t0 t) <= IZR k.
Proof.
  intros T0 T K L. destruct (exponent_val t0 t T0 T) as [_ V]. rewrite V. rewrite <- (rnd_fmt (IZR k)) by (apply int_fmt; lia). apply (rnd_le 53 1024 p53).
  assert (C1 : 0 < IZR ctime) by (apply IZR_lt; lia). apply Rmult_le_reg_r with (IZR ctime); [exact C1|]. unfold Rdiv. rewrite Rmult_assoc, Rinv_l, Rmult_1_r by lra.
  rewrite <- mult_IZR in *. rewrite <- (rnd_fmt (IZR (k * ctime))) by (apply int_fmt; nia). apply (rnd_le 53 1024 p53). exact L.
Qed.
End Exponent.

(* the state after a series that ends with a valid value *)
Section Split.
Variable exp64 : double -> double.
Variable nan : double.
Variable ctime : Z.
Hypothesis EO : exp_ok exp64.
Hypothesis CT : (1 <= ctime < 2 ^ 31)%Z.
Variable M : R.
Hypothesis MB : 0 <= M <= bp 1000.
Notation close := (close_value M (- M) M).
Notation good := (good_value (- M) M).
Lemma loop_split pre : forall t0 last g, good_time t0 -> sorted_from t0 pre -> close last -> good_gain g -> (forall t x, In (t, x) pre -> f_missing nan x = false -> good x) ->
  forall t1 x1, good_time t1 -> (forall t x, In (t, x) pre -> B2R t <= B2R t1) -> B2R t0 <= B2R t1 -> f_missing nan x1 = false -> good x1 ->
  forall l, exists outs y g', List.length outs = List.length pre /\ close y /\ good_gain g' /\
    f_exp_loop exp64 nan ctime t0 last g (pre ++ (t1, x1) :: l) = outs ++ y :: f_exp_loop exp64 nan ctime t1 y g' l.
Proof.
  induction pre as [|[t x] r IH]; intros t0 last g T0 S C G V t1 x1 T1 L1 L0 M1 V1 l.
  - cbn [app f_exp_loop]. rewrite M1. destruct (ef_ok exp64 ctime EO CT t0 t1 T0 T1 L0) as [Fe Ee]. pose proof (gain_step g _ G Fe Ee) as G'.
    exists [], (f_update last (f_gain g (f_ef exp64 ctime t0 t1)) x1), (f_gain g (f_ef exp64 ctime t0 t1)). split; [reflexivity|]. split; [|split; [exact G'|reflexivity]].
    apply update_close; try assumption; lra.
  - destruct S as (T & L & S). cbn [app f_exp_loop]. destruct (f_missing nan x) eqn:MI.
    + destruct (IH t0 last g T0 (sorted_weaken t0 t r L S) C G (fun a b I => V a b (or_intror I)) t1 x1 T1 (fun a b I => L1 a b (or_intror I)) L0 M1 V1 l) as (outs & y & g' & A & B & D & E).
      exists (B754_nan :: outs), y, g'. cbn [List.length app]. rewrite A, E. auto.
    + destruct (ef_ok exp64 ctime EO CT t0 t T0 T L) as [Fe Ee]. pose proof (gain_step g _ G Fe Ee) as G'.
      assert (C' : close (f_update last (f_gain g (f_ef exp64 ctime t0 t)) x)). { apply update_close; try assumption; try lra. apply (V t x); [left; reflexivity|exact MI]. }
      destruct (IH t _ _ T S C' G' (fun a b I => V a b (or_intror I)) t1 x1 T1 (fun a b I => L1 a b (or_intror I)) (L1 t x (or_introl eq_refl)) M1 V1 l) as (outs & y & g' & A & B & D & E).
      eexists (_ :: outs), y, g'. cbn [List.length app]. rewrite A, E. auto.
Qed.
Lemma filter_split pre : forall t0, sorted_from t0 pre -> (forall t x, In (t, x) pre -> f_missing nan x = false -> good x) ->
  forall t1 x1, good_time t1 -> (forall t x, In (t, x) pre -> B2R t <= B2R t1) -> f_missing nan x1 = false -> good x1 ->
  forall l, exists outs y g', List.length outs = List.length pre /\ close y /\ good_gain g' /\
    f_exp_filter exp64 nan ctime (pre ++ (t1, x1) :: l) = outs ++ y :: f_exp_loop exp64 nan ctime t1 y g' l.
Proof.
  assert (SL : 0 <= slack M /\ slack M <= M) by (apply slack_0; exact MB).
  assert (GC : forall x, good x -> close x) by (intros x [F K]; split; [exact F|lra]).
  induction pre as [|[t x] r IH]; intros t0 S V t1 x1 T1 L1 M1 V1 l.
  - cbn [app f_exp_filter]. rewrite M1. exists [], x1, (f1 24 128 p24 e128). split; [reflexivity|]. split; [apply GC, V1|]. split; [apply one_gain|reflexivity].
  - destruct S as (T & L & S). cbn [app f_exp_filter]. destruct (f_missing nan x) eqn:MI.
    + destruct (IH t S (fun a b I => V a b (or_intror I)) t1 x1 T1 (fun a b I => L1 a b (or_intror I)) M1 V1 l) as (outs & y & g' & A & B & D & E).
      exists (B754_nan :: outs), y, g'. cbn [List.length app]. rewrite A, E. auto.
    + destruct (loop_split r t x (f1 24 128 p24 e128) T S (GC _ (V t x (or_introl eq_refl) MI)) one_gain (fun a b I => V a b (or_intror I)) t1 x1 T1 (fun a b I => L1 a b (or_intror I)) (L1 t x (or_introl eq_refl)) M1 V1 l)
        as (outs & y & g' & A & B & D & E).
      exists (x :: outs), y, g'. cbn [List.length app]. rewrite A, E. auto.
Qed.
End Split.
