(* Names and values of the wrapped metrics. *)
From Verif Require Import BaseProofs NamesModel DfMetricsModel DfMetricsSpec DfMetricsProofs DfMetricsProofs2 DfMetricsProps MetricsModel MetricsProofs TcolModel DfWrapModel.
From Coq Require Import Reals Qreals Ascii String.
Open Scope nat_scope.

(* ---- strings ---- *)
Lemma all_chars_app p a b : all_chars p (a ++ b)%string = all_chars p a && all_chars p b.
Proof. induction a as [|c a IH]; cbn; [reflexivity|]. rewrite IH, andb_assoc. reflexivity. Qed.
Lemma ident_chars s : is_identifier s = true -> all_chars (fun c => letter c || digit c) s = true.
Proof. destruct s as [|c r]; cbn; [discriminate|]. intros H. apply andb_true_iff in H. destruct H as [H1 H2]. rewrite H1, H2. reflexivity. Qed.
Lemma ident_join a b : is_identifier a = true -> is_identifier b = true -> is_identifier (a ++ "_and_" ++ b)%string = true.
Proof.
  intros A B. destruct a as [|c a]; [discriminate A|]. cbn in A |- *. apply andb_true_iff in A. destruct A as [-> A]. rewrite all_chars_app, A. cbn. apply ident_chars, B.
Qed.
Fixpoint has_underscore (s : string) : bool := match s with EmptyString => false | String c r => underscore c || has_underscore r end.
Lemma has_app a b : has_underscore b = true -> has_underscore (a ++ b)%string = true.
Proof. intros B. induction a as [|c a IH]; cbn; [exact B|]. rewrite IH. apply orb_true_r. Qed.
Lemma not_keyword s : has_underscore s = true -> existsb (String.eqb s) keywords = false.
Proof.
  intros H. destruct (existsb (String.eqb s) keywords) eqn:E; [|reflexivity]. apply existsb_exists in E. destruct E as (k & I1 & E). apply String.eqb_eq in E. subst k.
  assert (A : forallb (fun k => negb (has_underscore k)) keywords = true) by reflexivity. pose proof (proj1 (forallb_forall _ _) A s I1) as N. cbn in N. rewrite H in N. discriminate N.
Qed.
Lemma valid_join a b : is_identifier a = true -> starts_underscore a = false -> is_identifier b = true -> valid_field (a ++ "_and_" ++ b)%string = true.
Proof.
  intros A U B. unfold valid_field. rewrite (ident_join a b A B), (not_keyword (a ++ "_and_" ++ b)) by (apply has_app; reflexivity).
  destruct a as [|c a]; [discriminate A|]. cbn in U |- *. rewrite U. reflexivity.
Qed.
Lemma nodup_str_spec l : nodup_str l = true <-> NoDup l.
Proof.
  induction l as [|s l IH]; cbn; [split; [constructor|reflexivity]|]. rewrite andb_true_iff, IH, negb_true_iff. split.
  - intros [H1 H2]. constructor; [|exact H2]. intros I1. assert (E : existsb (String.eqb s) l = true) by (apply existsb_exists; exists s; split; [exact I1|apply String.eqb_refl]). congruence.
  - intros H. inversion H as [|? ? N D]; subst. split; [|exact D]. destruct (existsb (String.eqb s) l) eqn:E; [|reflexivity]. apply existsb_exists in E. destruct E as (t & I1 & E). apply String.eqb_eq in E. subst t. contradiction.
Qed.
(* the words between underscores *)
Fixpoint words (s : string) : list string :=
  match s with
  | EmptyString => [""%string]
  | String c r => if underscore c then ""%string :: words r
                  else match words r with w :: ws => String c w :: ws | [] => [] end
  end.
Lemma words_ne s : words s <> [].
Proof. induction s as [|c r IH]; cbn; [discriminate|]. destruct (underscore c); [discriminate|]. destruct (words r); [contradiction|discriminate]. Qed.
Lemma words_app a b : words (a ++ String "_" b)%string = words a ++ words b.
Proof.
  induction a as [|c a IH]; cbn [String.append words]; [reflexivity|]. rewrite IH. destruct (underscore c); [reflexivity|].
  pose proof (words_ne a) as N. destruct (words a) as [|w ws]; [contradiction|]. reflexivity.
Qed.
Lemma underscore_is c : underscore c = true -> c = "_"%char.
Proof. unfold underscore. intros H. apply Nat.eqb_eq in H. rewrite <- (ascii_nat_embedding c), H. reflexivity. Qed.
Lemma words_inj a : forall b, words a = words b -> a = b.
Proof.
  induction a as [|c a IH]; intros [|d b] E; cbn in E; [reflexivity| | |].
  - destruct (underscore d); [injection E as E; symmetry in E; destruct (words_ne b E)|]. pose proof (words_ne b) as N. destruct (words b); [contradiction|discriminate E].
  - destruct (underscore c); [injection E as E; destruct (words_ne a E)|]. pose proof (words_ne a) as N. destruct (words a); [contradiction|discriminate E].
  - destruct (underscore c) eqn:UC, (underscore d) eqn:UD.
    + injection E as E. rewrite (underscore_is c UC), (underscore_is d UD), (IH b E). reflexivity.
    + pose proof (words_ne b) as N. destruct (words b); [contradiction|discriminate E].
    + pose proof (words_ne a) as N. destruct (words a); [contradiction|discriminate E].
    + pose proof (words_ne a) as NA. pose proof (words_ne b) as NB. specialize (IH b). destruct (words a) as [|w ws]; [contradiction|]. destruct (words b) as [|v vs]; [contradiction|]. injection E as -> -> ->. f_equal. apply IH. reflexivity.
Qed.
Lemma words_join a b : words (a ++ "_and_" ++ b)%string = words a ++ "and"%string :: words b.
Proof.
  cbn [String.append]. rewrite words_app. reflexivity.
Qed.
Lemma first_sep {A} (x : A) (a a' b b' : list A) : ~ In x a -> ~ In x a' -> a ++ x :: b = a' ++ x :: b' -> a = a' /\ b = b'.
Proof.
  revert a'. induction a as [|y a IH]; intros [|z a'] N N' E; cbn in *.
  - injection E as E. auto.
  - injection E as -> _. tauto.
  - injection E as -> _. tauto.
  - injection E as -> E. destruct (IH a' ltac:(tauto) ltac:(tauto) E) as [-> ->]. auto.
Qed.
Lemma join_inj a b a' b' : ~ In "and"%string (words a) -> ~ In "and"%string (words a') -> (a ++ "_and_" ++ b)%string = (a' ++ "_and_" ++ b')%string -> a = a' /\ b = b'.
Proof.
  intros N N' E. apply (f_equal words) in E. rewrite !words_join in E. destruct (first_sep _ _ _ _ _ N N' E) as [E1 E2]. split; apply words_inj; assumption.
Qed.

(* ---- pairs of columns ---- *)
Lemma sel_seq2 i j K : forall b, selection [i; j] (seq b K) <-> b <= i /\ i < j /\ j < b + K.
Proof.
  assert (S1 : forall K b, selection [j] (seq b K) <-> b <= j < b + K).
  { clear. induction K as [|K IH]; intros b; cbn [seq].
    - split; [intros H; inversion H|lia].
    - split.
      + intros H. inversion H; subst; [lia|]. match goal with X : selection [j] _ |- _ => apply IH in X end. lia.
      + intros H. destruct (Nat.eq_dec b j) as [->|N]; [apply sel_take; constructor|apply sel_skip, IH; lia]. }
  induction K as [|K IH]; intros b; cbn [seq].
  - split; [intros H; inversion H|lia].
  - split.
    + intros H. inversion H; subst; [match goal with X : selection [j] _ |- _ => apply S1 in X end; lia|]. match goal with X : selection [i; j] _ |- _ => apply IH in X end. lia.
    + intros H. destruct (Nat.eq_dec b i) as [->|N]; [apply sel_take, S1; lia|apply sel_skip, IH; lia].
Qed.
Definition combs2 K : list (list nat) := n_combinations Nat.eqb (fun i => negb (Nat.eqb i 0)) (seq 0 K) 2 MNone false.
Lemma combs2_in K c : In c (combs2 K) <-> exists i j, c = [i; j] /\ i < j < K.
Proof.
  unfold combs2. rewrite C63_none, (C63_combinations Nat.eqb (fun i => negb (Nat.eqb i 0)) Nat.eqb_eq). split.
  - intros (S1 & L & _). destruct c as [|i [|j [|]]]; try discriminate L. exists i, j. split; [reflexivity|]. apply sel_seq2 in S1. lia.
  - intros (i & j & -> & H). split; [apply sel_seq2; lia|]. split; [reflexivity|]. intros x [].
Qed.
Section Wrapped.
Variable metric : pairs -> option R.
Variables (f : frame) (nr : nat).
Hypothesis WF : well_formed f nr.
Hypothesis K : 2 <= DfMetricsModel.ncols f.
Definition name (i : nat) : string := nth i (map fst f) ""%string.
Hypothesis ID : forall i, i < ncols f -> is_identifier (name i) = true /\ starts_underscore (name i) = false.
Definition field (comb : list nat) : string * option (option R) := (String.concat "_and_" (map name comb), value_of f nr (on_arrays metric) 0 comb).
Lemma concat2 a b : String.concat "_and_" [a; b] = (a ++ "_and_" ++ b)%string.
Proof. reflexivity. Qed.
Lemma wrapped_ok : NoDup (map (fun c => fst (field c)) (combs2 (ncols f))) -> wrapped (on_arrays metric) true f = Ok (map field (combs2 (ncols f))).
Proof.
  intros ND. unfold wrapped. destruct (dropna_ok f nr 2 WF K (or_introl eq_refl)) as (args & EA).
  assert (LA : exists x y, args = [x; y]) by (unfold array_dropna in EA; cbn [seq map] in EA; destruct (logical_or _) as [m|]; [|discriminate]; cbn in EA; injection EA as <-; eauto).
  destruct LA as (x & y & LA).
  rewrite (C53_pairs (on_arrays metric) (on_arrays metric) f nr true MNone [metric (combine (map Q2R (vals x)) (map Q2R (vals y)))] WF K).
  - cbn [bindR List.length seq map]. unfold dict_to_namedtuple, namedtuple. rewrite map_map. cbn [negb]. fold (combs2 (ncols f)). cbn [fst snd].
    assert (V : forallb (fun g : string * option (option R) => valid_field (fst g)) (map field (combs2 (ncols f))) = true).
    { apply forallb_forall. intros g I1. apply in_map_iff in I1. destruct I1 as (c & <- & I1). apply combs2_in in I1. destruct I1 as (i & j & -> & H). cbn [field fst map]. rewrite concat2.
      destruct (ID i ltac:(lia)) as [A1 A2]. destruct (ID j ltac:(lia)) as [B1 _]. apply valid_join; assumption. }
    fold name. fold field. rewrite V. rewrite (proj2 (nodup_str_spec _)); [reflexivity|]. rewrite map_map. exact ND.
  - intros a E. rewrite LA in EA. cbn [seq map] in EA. rewrite E in EA. injection EA as ->. reflexivity.
  - intros comb I1 _. apply combs2_in in I1. destruct I1 as (i & j & -> & H). eexists. split; reflexivity.
Qed.
Lemma wrapped_names : (forall i, i < ncols f -> ~ In "and"%string (words (name i))) -> NoDup (map (fun c => fst (field c)) (combs2 (ncols f))).
Proof.
  intros W. assert (N : NoDup (combs2 (ncols f))) by (apply C63_once, seq_NoDup).
  assert (I0 : forall c, In c (combs2 (ncols f)) -> exists i j, c = [i; j] /\ i < j < ncols f) by (intros c I1; apply combs2_in; exact I1).
  induction N as [|c l H N IH]; cbn [map]; [constructor|]. constructor; [|apply IH; intros d D; apply I0; right; exact D].
  intros I1. apply in_map_iff in I1. destruct I1 as (d & E & I1). destruct (I0 c (or_introl eq_refl)) as (i & j & -> & R1). destruct (I0 d (or_intror I1)) as (i' & j' & -> & R2).
  cbn [field fst map] in E. rewrite !concat2 in E. destruct (join_inj _ _ _ _ (W i' ltac:(lia)) (W i ltac:(lia)) E) as [E1 E2].
  assert (inj : forall a b, a < ncols f -> b < ncols f -> name a = name b -> a = b).
  { intros a b A B. unfold name. intros Q. destruct WF as [ND _]. apply (proj1 (NoDup_nth (map fst f) ""%string) ND); unfold DfMetricsModel.ncols in *; rewrite ?map_length; assumption. }
  apply inj in E1; [|lia|lia]. apply inj in E2; [|lia|lia]. subst. contradiction.
Qed.
Lemma in_fields e : In e (map field (combs2 (ncols f))) <-> exists i j, i < j < ncols f /\ e = ((name i ++ "_and_" ++ name j)%string, value_of f nr (on_arrays metric) 0 [i; j]).
Proof.
  rewrite in_map_iff. split.
  - intros (c & <- & I1). apply combs2_in in I1. destruct I1 as (i & j & -> & H). exists i, j. split; [exact H|reflexivity].
  - intros (i & j & H & ->). exists [i; j]. split; [reflexivity|]. apply combs2_in. eauto.
Qed.
End Wrapped.
