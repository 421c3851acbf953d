(* Result matrices, pairwise_apply and triple collocation of frames. *)
From Coq Require Import ArithRing.
From Verif Require Import Base BaseProofs NamesModel NamesProofs GroupingModel GroupingProofs MaskProofs DfMetricsModel DfMetricsSpec DfMetricsProofs.
Local Open Scope nat_scope.

(* ---- _to_df ---- *)
Lemma fill_gen {V} (v : list nat -> option V) combs (m : mat) a b : NoDup combs -> (forall c, In c combs -> List.length c = 2) ->
  fold_left (fun m kv => match fst kv with [i; j] => mset m i j (snd kv) | _ => m end) (map (fun c => (c, v c)) combs) m a b =
  if in_dec (list_eq_dec Nat.eq_dec) [a; b] combs then v [a; b] else m a b.
Proof.
  revert m. induction combs as [|c combs IH]; intros m N L; [reflexivity|]. apply NoDup_cons_iff in N as [N1 N2]. cbn [map fold_left fst snd].
  rewrite IH; [|exact N2|intros; apply L; right; assumption]. pose proof (L c (or_introl eq_refl)) as Lc. destruct c as [|i [|j [|k r]]]; try discriminate Lc.
  destruct (in_dec _ [a; b] combs) as [I|I], (in_dec _ [a; b] ([i; j] :: combs)) as [J|J]; try reflexivity.
  - exfalso. apply J. right; exact I.
  - destruct J as [E|J]; [|contradiction]. injection E as -> ->. unfold mset. rewrite !Nat.eqb_refl. reflexivity.
  - unfold mset. destruct (Nat.eqb_spec a i) as [->|], (Nat.eqb_spec b j) as [->|]; cbn; try reflexivity. exfalso. apply J. left; reflexivity.
Qed.

Lemma copy_notin {V} (m : mat) (l : list ((nat * nat) * (nat * nat))) (m' : mat) a b : ~ In (a, b) (map fst l) ->
  fold_left (fun m' p => mset m' (fst (fst p)) (snd (fst p)) (m (fst (snd p)) (snd (snd p)))) l m' a b = (m' a b : option V).
Proof.
  revert m'. induction l as [|[[i j] q] l IH]; intros m' N; [reflexivity|]. cbn [fold_left map fst snd] in *. rewrite IH by (intros X; apply N; right; exact X). unfold mset.
  destruct (Nat.eqb_spec a i) as [->|], (Nat.eqb_spec b j) as [->|]; cbn; try reflexivity. exfalso. apply N. left; reflexivity.
Qed.
Lemma copy_in {V} (m : mat) (l : list ((nat * nat) * (nat * nat))) (m' : mat) a b q : NoDup (map fst l) -> In ((a, b), q) l ->
  fold_left (fun m' p => mset m' (fst (fst p)) (snd (fst p)) (m (fst (snd p)) (snd (snd p)))) l m' a b = (m (fst q) (snd q) : option V).
Proof.
  revert m'. induction l as [|p l IH]; intros m' N I; [contradiction|]. cbn [map] in N. apply NoDup_cons_iff in N as [N1 N2]. cbn [fold_left].
  destruct I as [->|I].
  - cbn [fst snd] in *. rewrite copy_notin by exact N1. unfold mset. rewrite !Nat.eqb_refl. reflexivity.
  - apply IH; assumption.
Qed.

Lemma tril_in K a b : In (a, b) (tril K) -> b < a < K.
Proof. unfold tril. intros I. apply in_flat_map in I as (i & Ii & I). apply in_map_iff in I as (j & E & Ij). injection E as <- <-. apply in_seq in Ii, Ij. lia. Qed.
Lemma tril_nodup K : NoDup (tril K).
Proof.
  unfold tril. apply nodup_flat_map; [apply seq_NoDup| |].
  - intros i _. apply nodup_map_inj; [intros; congruence|apply seq_NoDup].
  - intros x y b _ _ Bx By. apply in_map_iff in Bx as (p & <- & _), By as (q & E & _). congruence.
Qed.
Lemma combine_fst_in {A B} (l : list A) (m : list B) x : In x (map fst (combine l m)) -> In x l.
Proof. revert m. induction l as [|z l IH]; intros [|w m] I; cbn in I; try contradiction. destruct I as [->|I]; [left; reflexivity|right; exact (IH _ I)]. Qed.
Lemma combine_fst_nodup {A B} (l : list A) (m : list B) : NoDup l -> NoDup (map fst (combine l m)).
Proof.
  revert m. induction l as [|x l IH]; intros m N; [constructor|]. destruct m as [|y m]; [constructor|]. apply NoDup_cons_iff in N as [N1 N2]. cbn. constructor; [|apply IH, N2].
  intros I. apply N1, (combine_fst_in l m), I.
Qed.

Lemma copy_upper {V} K (m : @mat V) a b : a <= b -> copy_lower K m a b = m a b.
Proof. intros L. unfold copy_lower. apply copy_notin. intros I. apply combine_fst_in, tril_in in I. lia. Qed.
Lemma copy_small {V} K (m : @mat V) a b : K <= 3 -> b < a < K -> copy_lower K m a b = m b a.
Proof.
  intros K3 [L1 L2]. unfold copy_lower. rewrite (copy_in m _ m a b (b, a)); [reflexivity|apply combine_fst_nodup, tril_nodup|].
  destruct K as [|[|[|[|K]]]]; try lia; destruct a as [|[|[|a]]], b as [|[|b]]; try lia; cbn; tauto.
Qed.
Lemma copy_large {V} K (m : @mat V) : 4 <= K -> copy_lower K m 2 1 = m 0 3.
Proof.
  intros K4. unfold copy_lower. rewrite (copy_in m _ m 2 1 (0, 3)); [reflexivity|apply combine_fst_nodup, tril_nodup|].
  destruct K as [|[|[|[|K]]]]; try lia. unfold tril, triu. cbn [seq flat_map map app plus Nat.sub]. right. right. left. reflexivity.
Qed.

(* the lower triangle is filled row by row with the upper triangle read row by row *)
Lemma flat_map_seq_split {A} (g : nat -> list A) i K : i < K -> flat_map g (seq 0 K) = flat_map g (seq 0 i) ++ g i ++ flat_map g (seq (S i) (K - S i)).
Proof. intros H. replace K with (i + S (K - S i)) at 1 by lia. rewrite seq_app, flat_map_app. cbn [Nat.add seq flat_map]. reflexivity. Qed.
Lemma tril_rank_len a : 2 * List.length (flat_map (fun i => map (fun j => (i, j)) (seq 0 i)) (seq 0 a)) = a * (a - 1).
Proof.
  induction a as [|a IH]; [reflexivity|]. rewrite seq_S, flat_map_app, app_length. cbn [Nat.add flat_map]. rewrite app_nil_r, map_length, seq_length.
  rewrite Nat.mul_add_distr_l, IH. destruct a as [|a]; [reflexivity|]. replace (S a - 1) with a by lia. replace (S (S a) - 1) with (S a) by lia. ring.
Qed.
Lemma triu_rank_len K i : i <= K -> 2 * List.length (flat_map (fun i => map (fun j => (i, j)) (seq (i + 1) (K - 1 - i))) (seq 0 i)) + i * (i + 1) = 2 * i * K.
Proof.
  induction i as [|i IH]; intros H; [reflexivity|]. rewrite seq_S, flat_map_app, app_length. cbn [Nat.add flat_map]. rewrite app_nil_r, map_length, seq_length.
  specialize (IH ltac:(lia)). rewrite Nat.mul_add_distr_l.
  assert (E1 : S i * S (i + 1) = i * (i + 1) + 2 * i + 2) by ring. assert (E2 : 2 * S i * K = 2 * i * K + 2 * K) by ring. rewrite E1, E2. lia.
Qed.
Lemma combine_nth_in {A B} (l : list A) : forall (m : list B) k x y, nth_error l k = Some x -> nth_error m k = Some y -> In (x, y) (combine l m).
Proof.
  induction l as [|z l IH]; intros [|w m] [|k] x y E1 E2; try discriminate; cbn in *; [left; congruence|right; apply (IH _ k); assumption].
Qed.
Lemma copy_rank {V} K (m : @mat V) a b i j : b < a < K -> i < j < K -> a * (a - 1) + 2 * b + i * (i + 1) + 2 = 2 * i * (K - 1) + 2 * j ->
  copy_lower K m a b = m i j.
Proof.
  intros A B RK. unfold copy_lower. rewrite (copy_in m _ m a b (i, j)); [reflexivity|apply combine_fst_nodup, tril_nodup|].
  pose proof (tril_rank_len a) as R1. pose proof (triu_rank_len K i ltac:(lia)) as R2.
  apply (combine_nth_in _ _ (List.length (flat_map (fun i => map (fun j => (i, j)) (seq 0 i)) (seq 0 a)) + b)).
  - unfold tril. rewrite (flat_map_seq_split _ a K) by lia. rewrite nth_error_app2 by lia. rewrite Nat.add_comm, Nat.add_sub.
    rewrite nth_error_app1 by (rewrite map_length, seq_length; lia). rewrite nth_error_map, (nth_error_nth' _ 0) by (rewrite seq_length; lia). rewrite seq_nth by lia. reflexivity.
  - unfold triu. rewrite (flat_map_seq_split _ i K) by lia. set (L := flat_map _ (seq 0 i)) in *.
    set (n := List.length L) in *. set (t := List.length (flat_map _ (seq 0 a))) in *.
    assert (E : t + b = n + (j - i - 1)).
    { assert (M1 : 2 * i * (K - 1) + 2 * i = 2 * i * K) by (rewrite Nat.mul_sub_distr_l, Nat.mul_1_r; enough (2 * i * 1 <= 2 * i * K) by lia; apply Nat.mul_le_mono_l; lia).
      clear - RK R1 R2 M1 B. lia. }
    clear R1 R2 RK. rewrite E. rewrite nth_error_app2 by (fold n; lia). fold n. replace (n + (j - i - 1) - n) with (j - i - 1) by lia.
    rewrite nth_error_app1 by (rewrite map_length, seq_length; lia). rewrite nth_error_map, (nth_error_nth' _ 0) by (rewrite seq_length; lia). rewrite seq_nth by lia.
    replace (i + 1 + (j - i - 1)) with j by lia. reflexivity.
Qed.

Lemma lmax_in l x : In x l -> x <= lmax l.
Proof. induction l as [|y l IH]; [contradiction|]. cbn. intros [->|I]; [lia|]. pose proof (IH I). lia. Qed.
Lemma lmax_le l k : (forall x, In x l -> x <= k) -> lmax l <= k.
Proof. induction l as [|y l IH]; intros H; [cbn; lia|]. cbn. pose proof (H y (or_introl eq_refl)). assert (lmax l <= k) by (apply IH; intros; apply H; right; assumption). lia. Qed.

Lemma sub_seq2 i j a n : a <= i -> i < j -> j < a + n -> sublist [i; j] (seq a n).
Proof.
  revert a. induction n as [|n IH]; intros a A I J; [lia|]. cbn [seq]. destruct (Nat.eq_dec a i) as [->|NE].
  - apply sub_take. assert (G : forall k b, b <= j -> j < b + k -> sublist [j] (seq b k)).
    { clear. induction k as [|k IH]; intros b B J; [lia|]. cbn [seq]. destruct (Nat.eq_dec b j) as [->|NE]; [apply sub_take; constructor|apply sub_skip, IH; lia]. }
    apply G; lia.
  - apply sub_skip, IH; lia.
Qed.
Lemma pair_comb f i j : i < j -> j < ncols f -> In [i; j] (combs_of f 2 true MNone).
Proof.
  intros I J. unfold combs_of, n_combinations. apply filter_In. split; [|reflexivity]. cbn [negb]. apply combinations_in. split; [|reflexivity]. apply sub_seq2; lia.
Qed.
Lemma pair_perm f i j : i <> j -> i < ncols f -> j < ncols f -> In [i; j] (combs_of f 2 false MNone).
Proof.
  intros N I J. unfold combs_of, n_combinations. apply filter_In. split; [|reflexivity]. cbn [negb]. apply permutations_in; [apply seq_NoDup|]. split; [|split; [|reflexivity]].
  - constructor; [intros [E|[]]; congruence|constructor; [intros []|constructor]].
  - intros x [<-|[<-|[]]]; apply in_seq; lia.
Qed.
Lemma pair_some f comm i j : i < j -> j < ncols f -> In [i; j] (combs_of f 2 comm MNone).
Proof. intros I J. destruct comm; [apply pair_comb|apply pair_perm]; lia. Qed.

Lemma nodup_id {A} (dec : forall x y : A, {x = y} + {x <> y}) l : NoDup l -> nodup dec l = l.
Proof. induction 1 as [|x l N1 N2 IH]; [reflexivity|]. cbn. destruct (in_dec dec x l); [contradiction|]. rewrite IH. reflexivity. Qed.

Lemma sublist_pair_lt i j a n : sublist [i; j] (seq a n) -> i < j.
Proof.
  revert a. induction n as [|n IH]; intros a S; cbn [seq] in S; [inversion S|].
  assert (G : forall c l, sublist c l -> c = [i; j] -> l = a :: seq (Datatypes.S a) n -> i < j).
  { intros c l S'. destruct S' as [l|x k l S'|x k l S']; intros E1 E2; [discriminate| |].
    - injection E1 as -> ->. injection E2 as <- ->. assert (I : In j (seq (Datatypes.S i) n)) by (eapply sublist_in; [exact S'|left; reflexivity]). apply in_seq in I. lia.
    - injection E2 as <- ->. subst k. exact (IH _ S'). }
  exact (G _ _ S eq_refl eq_refl).
Qed.

Lemma seqR_oks {A B} (g : A -> B) l : seqR (map (fun x => Ok (g x)) l) = Ok (map g l).
Proof. apply seqR_ok. rewrite map_map. reflexivity. Qed.

Section Df.
Context {V : Type}.
Variables method0 method : list (list cell) -> res (list V).

Lemma nwise_df_ok f nr comm args c0 : well_formed f nr -> 2 <= ncols f -> array_dropna (map (col f) (seq 0 2)) = Ok args -> method0 args = Ok c0 ->
  total_method f nr method (List.length c0) (combs_of f 2 comm MNone) ->
  exists dfs, nwise_df method0 method f 2 comm MNone = Ok dfs /\ List.length dfs = List.length c0 /\
   forall q d, nth_error dfs q = Some d -> fst d = map fst f /\
    forall i j, i < ncols f -> j < ncols f ->
      (if comm then (i < j -> snd d i j = value_of f nr method q [i; j]) /\
                    (i = j -> snd d i j = None) /\
                    (ncols f <= 3 -> i < j -> snd d j i = value_of f nr method q [i; j]) /\
                    (4 <= ncols f -> snd d 2 1 = value_of f nr method q [0; 3]) /\
                    (forall a b, b < a -> a < ncols f -> i < j -> a * (a - 1) + 2 * b + i * (i + 1) + 2 = 2 * i * (ncols f - 1) + 2 * j ->
                       snd d a b = value_of f nr method q [i; j])
       else snd d i j = if Nat.eqb i j then None else value_of f nr method q [i; j]).
Proof.
  intros WF K2 EA E0 TM. set (combs := combs_of f 2 comm MNone) in *.
  destruct (apply_ok method0 method f nr 2 comm MNone args c0 WF K2 EA E0) as [R _]; [intros comb I; apply combs_of_in in I as (L & _ & B & _); apply clean2; assumption|exact TM|].
  fold combs in R. unfold nwise_df. rewrite R. cbn [bindR fst snd Nat.eqb negb]. rewrite map_map. cbn [fst]. rewrite map_id.
  set (names := fun i => if existsb (Nat.eqb i) (List.concat combs) then Some (colname f i) else None).
  assert (BC : forall c, In c combs -> List.length c = 2 /\ forall i, In i c -> i < ncols f) by (intros c I; apply combs_of_in in I; tauto).
  assert (US : forall i, i < ncols f -> In i (List.concat combs)).
  { intros i Hi. apply in_concat. destruct (Nat.eq_dec i 0) as [->|NZ]; [exists [0; 1]; split; [apply pair_some; lia|left; reflexivity]|].
    exists [0; i]. split; [apply pair_some; lia|right; left; reflexivity]. }
  assert (LM : S (lmax (List.concat combs)) = ncols f).
  { assert (lmax (List.concat combs) <= ncols f - 1). { apply lmax_le. intros x I. apply in_concat in I as (c & Ic & Ix). destruct (BC c Ic) as [_ B]. specialize (B x Ix). lia. }
    pose proof (lmax_in _ _ (US (ncols f - 1) ltac:(lia))). lia. }
  assert (CN : exists c cs, combs = c :: cs). { assert (I : In [0; 1] combs) by (apply pair_some; lia). apply in_split in I as (l1 & l2 & E). rewrite E. destruct l1; cbn; eauto. }
  assert (NS : seqR (map (fun i => match names i with Some s => Ok s | None => Err EKey end) (seq 0 (ncols f))) = Ok (map fst f)).
  { replace (map (fun i => match names i with Some s => Ok s | None => Err EKey end) (seq 0 (ncols f))) with (map (fun i => Ok (colname f i) : res string) (seq 0 (ncols f))).
    - rewrite seqR_oks. f_equal. unfold colname, ncols. rewrite <- (map_length fst). clear. induction (map fst f) as [|x l IH]; [reflexivity|]. cbn [List.length seq map nth]. f_equal. rewrite <- seq_shift, map_map. exact IH.
    - apply map_ext_in. intros i Hi. apply in_seq in Hi. unfold names. assert (X : existsb (Nat.eqb i) (List.concat combs) = true) by (apply existsb_exists; exists i; split; [apply US; lia|apply Nat.eqb_refl]). rewrite X. reflexivity. }
  assert (ND : NoDup combs) by apply combs_of_nodup.
  set (vq := fun q (c : list nat) => nth q (row_of f nr method (List.length c0) c) None).
  assert (TD : forall q, to_df (dict_of q (map (fun comb => (comb, row_of f nr method (List.length c0) comb)) combs)) comm names =
     Ok (map fst f, if comm then copy_lower (ncols f) (fill (map (fun c => (c, vq q c)) combs)) else fill (map (fun c => (c, vq q c)) combs))).
  { intros q. unfold dict_of. rewrite map_map. cbn [fst snd]. fold (vq q). unfold to_df. destruct CN as (c & cs & EC).
    rewrite map_map. cbn [fst]. rewrite map_id. rewrite LM. rewrite EC at 1. cbn [map]. rewrite NS. cbn [bindR].
    rewrite nodup_id by apply WF. rewrite map_length. change (List.length f) with (ncols f). rewrite Nat.eqb_refl. reflexivity. }
  exists (map (fun q => (map fst f, if comm then copy_lower (ncols f) (fill (map (fun c => (c, vq q c)) combs)) else fill (map (fun c => (c, vq q c)) combs))) (seq 0 (List.length c0))).
  split; [|split; [rewrite map_length, seq_length; reflexivity|]].
  - rewrite (map_ext _ (fun q => Ok (map fst f, if comm then copy_lower (ncols f) (fill (map (fun c => (c, vq q c)) combs)) else fill (map (fun c => (c, vq q c)) combs)))) by exact TD. apply seqR_oks.
  - intros q d E.
    assert (Hq : q < List.length c0) by (rewrite <- (seq_length (List.length c0) 0), <- (map_length (fun q => (map fst f, if comm then copy_lower (ncols f) (fill (map (fun c => (c, vq q c)) combs)) else fill (map (fun c => (c, vq q c)) combs)))); apply nth_error_Some; congruence).
    rewrite nth_error_map in E. assert (ES : nth_error (seq 0 (List.length c0)) q = Some q).
    { rewrite (nth_error_nth' _ 0) by (rewrite seq_length; exact Hq). rewrite seq_nth by exact Hq. reflexivity. }
    rewrite ES in E. cbn [option_map] in E. injection E as <-. cbn [fst snd]. split; [reflexivity|].
    assert (VQ : forall c, vq q c = value_of f nr method q c).
    { intros c. unfold vq, row_of. rewrite (nth_indep _ None (value_of f nr method 0 c)) by (rewrite map_length, seq_length; exact Hq). rewrite (map_nth (fun q => value_of f nr method q c)), seq_nth by exact Hq. reflexivity. }
    assert (FV : forall a b, fill (map (fun c => (c, vq q c)) combs) a b = if in_dec (list_eq_dec Nat.eq_dec) [a; b] combs then value_of f nr method q [a; b] else None).
    { intros a b. unfold fill. rewrite fill_gen; [|exact ND|intros c I; apply BC, I]. destruct (in_dec _ _ _); [apply VQ|reflexivity]. }
    assert (FI : forall a b, In [a; b] combs -> fill (map (fun c => (c, vq q c)) combs) a b = value_of f nr method q [a; b]).
    { intros a b I. rewrite FV. destruct (in_dec _ _ _); [reflexivity|contradiction]. }
    assert (FN : forall a, fill (map (fun c => (c, vq q c)) combs) a a = None).
    { intros a. rewrite FV. destruct (in_dec _ _ _) as [I|]; [|reflexivity]. apply combs_of_in in I as (_ & D & _). apply NoDup_cons_iff in D as [D _]. exfalso. apply D. left; reflexivity. }
    intros i j Hi Hj. destruct comm eqn:CM.
    + split; [|split; [|split; [|split]]].
      * intros L. rewrite copy_upper by lia. apply FI, pair_some; assumption.
      * intros ->. rewrite copy_upper by lia. apply FN.
      * intros K3 L. rewrite copy_small by lia. apply FI, pair_some; assumption.
      * intros K4. rewrite copy_large by exact K4. apply FI, pair_some; lia.
      * intros a b L1 L2 L3 RK. rewrite (copy_rank _ _ a b i j) by (try assumption; split; assumption). apply FI, pair_some; assumption.
    + destruct (Nat.eqb_spec i j) as [->|N]; [apply FN|]. apply FI, pair_perm; assumption.
Qed.
End Df.

(* ---- pairwise_apply ---- *)
Section Pw.
Variable method : list (list cell) -> res (list cell).
Variables (f : frame) (nr : nat).
Hypothesis WF : well_formed f nr.

Lemma pw_valid_eq i j : i < ncols f -> j < ncols f -> pw_valid f i j = complete_mask f nr [i; j].
Proof. intros. unfold pw_valid. apply mask_and; assumption. Qed.

Lemma map2_nth_fun {A B C} (g : A -> B -> C) l m q da db dc : List.length l = List.length m -> q < List.length l -> nth q (map2 g l m) dc = g (nth q l da) (nth q m db).
Proof. revert m q. induction l as [|a l IH]; intros [|b m] q L Q; cbn in *; try lia. destruct q; [reflexivity|]. apply IH; lia. Qed.

Definition nomat : cmat := fun _ _ => None.
Definition pval (q i j : nat) : cell :=
  match complete_rows f nr [i; j] with
  | [] => None
  | _ => match method (complete_cases f nr [i; j]) with Ok c => nth q c None | Err _ => None end
  end.

Lemma pw_step_ok comm ms i j : i < ncols f -> j < ncols f -> i <> j ->
  (complete_rows f nr [i; j] <> [] -> exists c, method (complete_cases f nr [i; j]) = Ok c /\ List.length c = List.length ms) ->
  exists ms', pw_step method f comm ms (i, j) = Ok ms' /\ List.length ms' = List.length ms /\
    forall q a b, q < List.length ms -> nth q ms' nomat a b =
      if comm && notna (hd nomat ms i j) then nth q ms nomat a b else
      match complete_rows f nr [i; j] with
      | [] => nth q ms nomat a b
      | _ => if Nat.eqb a i && Nat.eqb b j || comm && (Nat.eqb a j && Nat.eqb b i) then pval q i j else nth q ms nomat a b
      end.
Proof.
  intros Hi Hj N M. unfold pw_step. cbn [fst snd]. apply Nat.eqb_neq in N as N'. rewrite N'. change (hd (fun _ _ => None) ms i j) with (hd nomat ms i j).
  destruct (comm && notna (hd nomat ms i j)); [exists ms; split; [reflexivity|split; reflexivity]|].
  rewrite pw_valid_eq by assumption. rewrite args_complete by (first [exact WF|intros x [<-|[<-|[]]]; assumption]). rewrite exists_complete.
  unfold pval. destruct (complete_rows f nr [i; j]) as [|r0 rr]; cbn [negb]; [exists ms; split; [reflexivity|split; reflexivity]|].
  destruct M as (c & EC & LC); [discriminate|]. rewrite EC. cbn [bindR]. rewrite LC, Nat.ltb_irrefl, firstn_all, skipn_all, app_nil_r.
  eexists. split; [reflexivity|]. split; [apply map2_len_eq; symmetry; exact LC|]. intros q a b Hq. rewrite (map2_nth_fun _ ms c q nomat None nomat) by (try symmetry; assumption).
  unfold cset. destruct comm; cbn [andb orb]; destruct (Nat.eqb a i && Nat.eqb b j) eqn:E1; cbn [orb]; try reflexivity; destruct (Nat.eqb a j && Nat.eqb b i) eqn:E2; try reflexivity.
  all: cbn; rewrite ?E1, ?E2; reflexivity.
Qed.

(* symmetry for commutative metrics *)
Lemma pw_loop_sym ms ijs ms' : pw_loop method f true ms ijs = Ok ms' -> (forall m a b, In m ms -> m a b = m b a) -> forall m a b, In m ms' -> m a b = m b a.
Proof.
  revert ms. induction ijs as [|[i j] r IH]; intros ms E S; cbn [pw_loop] in E; [injection E as <-; exact S|].
  destruct (pw_step method f true ms (i, j)) as [ms1|e] eqn:ES; [|discriminate]. cbn [bindR] in E. apply (IH ms1 E). clear IH E. unfold pw_step in ES. cbn [fst snd] in ES.
  destruct (Nat.eqb i j); [injection ES as <-; exact S|]. destruct (true && notna _); [injection ES as <-; exact S|].
  match type of ES with (if ?c then _ else _) = _ => destruct c end; [injection ES as <-; exact S|].
  match type of ES with bindR ?x _ = _ => destruct x as [c|] end; [|discriminate]. cbn [bindR] in ES. destruct (Nat.ltb _ _); [discriminate|]. injection ES as <-.
  intros m a b I. apply in_app_or in I as [I|I]; [|apply S; rewrite <- (firstn_skipn (List.length c) ms); apply in_or_app; right; exact I].
  assert (G : forall l c, (forall m a b, In m l -> m a b = m b a) -> In m (map2 (fun m v => cset (cset m i j v) j i v) l c) -> m a b = m b a).
  { clear. intros l. induction l as [|x l IH]; intros [|v c] S I; try contradiction. destruct I as [<-|I]; [|apply (IH c); [intros; apply S; right; assumption|exact I]].
    unfold cset. pose proof (S x a b (or_introl eq_refl)). destruct (Nat.eqb a j), (Nat.eqb b i), (Nat.eqb a i), (Nat.eqb b j); cbn; try reflexivity; assumption. }
  apply (G (firstn (List.length c) ms) c); [|exact I]. intros m' a' b' I'. apply S. rewrite <- (firstn_skipn (List.length c) ms). apply in_or_app. left; exact I'.
Qed.

(* values of a metric that is not commutative *)
Lemma pw_loop_values ms ijs : (forall ij, In ij ijs -> fst ij < ncols f /\ snd ij < ncols f) ->
  (forall i j, i < ncols f -> j < ncols f -> complete_rows f nr [i; j] <> [] -> exists c, method (complete_cases f nr [i; j]) = Ok c /\ List.length c = List.length ms) ->
  exists ms', pw_loop method f false ms ijs = Ok ms' /\ List.length ms' = List.length ms /\
    forall q a b, q < List.length ms -> nth q ms' nomat a b = if andb (negb (Nat.eqb a b)) (andb (existsb (fun ij => Nat.eqb (fst ij) a && Nat.eqb (snd ij) b) ijs) (match complete_rows f nr [a; b] with [] => false | _ => true end)) then pval q a b else nth q ms nomat a b.
Proof.
  revert ms. induction ijs as [|[i j] r IH]; intros ms B M; cbn [pw_loop].
  - exists ms. split; [reflexivity|]. split; [reflexivity|]. intros q a b _. rewrite Bool.andb_false_r. reflexivity.
  - destruct (B (i, j) (or_introl eq_refl)) as [Hi Hj]. cbn [fst snd] in Hi, Hj. destruct (Nat.eq_dec i j) as [<-|N].
    + unfold pw_step. cbn [fst snd]. rewrite Nat.eqb_refl. cbn [bindR]. destruct (IH ms) as (ms' & E & L & H); [intros; apply B; right; assumption|exact M|].
      exists ms'. split; [exact E|]. split; [exact L|]. intros q a b Hq. rewrite H by exact Hq. cbn [existsb fst snd]. destruct (Nat.eqb_spec a b) as [->|NE]; [reflexivity|]. cbn [negb andb].
      destruct (Nat.eqb_spec i a), (Nat.eqb_spec i b); cbn; try reflexivity. congruence.
    + destruct (pw_step_ok false ms i j Hi Hj N (M i j Hi Hj)) as (ms1 & E1 & L1 & H1). rewrite E1. cbn [bindR].
      destruct (IH ms1) as (ms' & E & L & H); [intros; apply B; right; assumption|rewrite L1; exact M|].
      exists ms'. split; [exact E|]. split; [congruence|]. intros q a b Hq. rewrite H by (rewrite L1; exact Hq). rewrite H1 by exact Hq. cbn [andb orb existsb fst snd].
      rewrite Bool.orb_false_r. rewrite (Nat.eqb_sym i a), (Nat.eqb_sym j b).
      destruct (Nat.eqb_spec a i) as [->|NA]; [destruct (Nat.eqb_spec b j) as [->|NB]|]; cbn [andb orb].
      * apply Nat.eqb_neq in N as N'. rewrite N'. cbn [negb andb]. destruct (complete_rows f nr [i; j]) eqn:CR; [rewrite Bool.andb_false_r; reflexivity|]. rewrite Bool.andb_true_r. destruct (existsb _ r); reflexivity.
      * match goal with |- (if ?c then _ else _) = _ => destruct c end; [reflexivity|]. destruct (complete_rows f nr [i; j]); reflexivity.
      * match goal with |- (if ?c then _ else _) = _ => destruct c end; [reflexivity|]. destruct (complete_rows f nr [i; j]); reflexivity.
Qed.
End Pw.
