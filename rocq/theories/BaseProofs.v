(* Generic lemmas about the vocabulary of Base.v *)
From Verif Require Export Base.
From Coq Require Import Lqa.

Lemma vals_app {A} (l m : list (option A)) : vals (l ++ m) = vals l ++ vals m.
Proof. induction l as [|[x|] l IH]; cbn; [reflexivity| |]; rewrite IH; reflexivity. Qed.

Lemma vals_in {A} (l : list (option A)) x : In x (vals l) <-> In (Some x) l.
Proof.
  induction l as [|[y|] l IH]; cbn; [tauto| |].
  - rewrite IH. split; intros [H|H]; auto; left; congruence.
  - rewrite IH. split; [auto|]. intros [H|H]; [discriminate|auto].
Qed.

Lemma vals_map_Some {A} (l : list A) : vals (map Some l) = l.
Proof. induction l as [|x l IH]; cbn; congruence. Qed.

Lemma qsum_app l m : (qsum (l ++ m) == qsum l + qsum m)%Q.
Proof. induction l as [|x l IH]; cbn; [ring|]. rewrite IH; ring. Qed.

Lemma qsum_perm l m : Permutation l m -> (qsum l == qsum m)%Q.
Proof.
  induction 1; cbn; try lra.
Qed.

Lemma filter_all {A} (p : A -> bool) l : (forall a, In a l -> p a = true) -> filter p l = l.
Proof.
  induction l as [|a l IH]; intros H; cbn; [reflexivity|].
  rewrite (H a (or_introl eq_refl)), IH; [reflexivity|]. intros b Hb; apply H; right; exact Hb.
Qed.

Lemma filter_none {A} (p : A -> bool) l : (forall a, In a l -> p a = false) -> filter p l = [].
Proof.
  induction l as [|a l IH]; intros H; cbn; [reflexivity|].
  rewrite (H a (or_introl eq_refl)). apply IH. intros b Hb; apply H; right; exact Hb.
Qed.

Lemma SSorted_app_inv {A} (R : A -> A -> Prop) l m :
  StronglySorted R (l ++ m) ->
  StronglySorted R l /\ StronglySorted R m /\ (forall a b, In a l -> In b m -> R a b).
Proof.
  induction l as [|x l IH]; cbn; intros H.
  - repeat split; [constructor|exact H|intros a b []].
  - inversion H as [|x' l' Hs Hf]; subst. destruct (IH Hs) as (H1 & H2 & H3).
    rewrite Forall_forall in Hf. repeat split.
    + constructor; [exact H1|]. apply Forall_forall. intros y Hy. apply Hf, in_or_app; auto.
    + exact H2.
    + intros a b [->|Ha] Hb; [apply Hf, in_or_app; auto|auto].
Qed.

Lemma SSorted_app {A} (R : A -> A -> Prop) l m :
  StronglySorted R l -> StronglySorted R m -> (forall a b, In a l -> In b m -> R a b) ->
  StronglySorted R (l ++ m).
Proof.
  induction l as [|x l IH]; cbn; intros H1 H2 H3; [exact H2|].
  inversion H1; subst. constructor.
  - apply IH; auto.
  - apply Forall_forall. intros y Hy. apply in_app_or in Hy as [Hy|Hy].
    + rewrite Forall_forall in H5; auto.
    + apply H3; auto.
Qed.

Lemma sortedb_spec l : sortedb l = true <-> StronglySorted Z.le l.
Proof.
  split.
  - induction l as [|x l IH]; intros H; [constructor|].
    cbn in H. destruct l as [|y l]; [repeat constructor|].
    apply andb_true_iff in H as [H1 H2]. specialize (IH H2).
    constructor; [exact IH|]. inversion IH; subst.
    constructor; [lia|]. eapply Forall_impl; [|eassumption]. cbn; intros; lia.
  - induction 1 as [|x l Hs IH Hf]; [reflexivity|]. cbn. destruct l as [|y l]; [reflexivity|].
    inversion Hf; subst. rewrite IH. apply andb_true_iff; split; [lia|reflexivity].
Qed.

Lemma skipn_app_len {A} (l m : list A) : skipn (List.length l) (l ++ m) = m.
Proof. induction l; cbn; auto. Qed.

Lemma firstn_app_len {A} (l m : list A) : firstn (List.length l) (l ++ m) = l.
Proof. induction l; cbn; congruence. Qed.

Lemma dedup_aux_in {A} (key : A -> Z) seen l a :
  In a (dedup_aux key seen l) -> In a l /\ ~ In (key a) seen.
Proof.
  revert seen; induction l as [|b l IH]; cbn; intros seen H; [tauto|].
  destruct (existsb (Z.eqb (key b)) seen) eqn:E.
  - apply IH in H. tauto.
  - destruct H as [->|H].
    + split; [auto|]. intros Hin. assert (existsb (Z.eqb (key a)) seen = true); [|congruence].
      apply existsb_exists. exists (key a). split; [exact Hin|lia].
    + apply IH in H as [H1 H2]. cbn in H2. tauto.
Qed.

Lemma dedup_aux_nodup {A} (key : A -> Z) seen l : NoDup (map key (dedup_aux key seen l)).
Proof.
  revert seen; induction l as [|b l IH]; cbn; intros seen; [constructor|].
  destruct (existsb (Z.eqb (key b)) seen) eqn:E; [apply IH|].
  cbn; constructor; [|apply IH].
  intros H. apply in_map_iff in H as (a & Ha & Hin).
  apply dedup_aux_in in Hin as [_ Hn]. apply Hn. left; congruence.
Qed.

Lemma dedup_aux_find {A} (key : A -> Z) seen l k :
  ~ In k seen ->
  find (fun a => key a =? k) (dedup_aux key seen l) = find (fun a => key a =? k) l.
Proof.
  revert seen; induction l as [|b l IH]; cbn; intros seen Hk; [reflexivity|].
  destruct (existsb (Z.eqb (key b)) seen) eqn:E.
  - destruct (key b =? k) eqn:Eb.
    + apply existsb_exists in E as (x & Hx & Hx2). exfalso; apply Hk.
      replace k with x by lia. exact Hx.
    + apply IH; exact Hk.
  - cbn. destruct (key b =? k) eqn:Eb; [reflexivity|]. apply IH. cbn. intros [H|H]; [lia|auto].
Qed.

Lemma dedup_find {A} (key : A -> Z) l k :
  find (fun a => key a =? k) (dedup_first key l) = find (fun a => key a =? k) l.
Proof. apply dedup_aux_find. cbn; tauto. Qed.

Lemma dedup_nodup {A} (key : A -> Z) l : NoDup (map key (dedup_first key l)).
Proof. apply dedup_aux_nodup. Qed.

Lemma dedup_in {A} (key : A -> Z) l a : In a (dedup_first key l) -> In a l.
Proof. intros H; apply dedup_aux_in in H; tauto. Qed.

Lemma find_nodup {A} (key : A -> Z) (l : list A) a :
  NoDup (map key l) -> In a l -> find (fun b => key b =? key a) l = Some a.
Proof.
  induction l as [|b l IH]; cbn; intros Hn Hi; [destruct Hi|].
  inversion Hn; subst. destruct Hi as [->|Hin].
  - rewrite Z.eqb_refl. reflexivity.
  - destruct (key b =? key a) eqn:E; [|auto].
    exfalso. apply H1. replace (key b) with (key a) by lia. apply in_map; exact Hin.
Qed.

Lemma dedup_in_iff {A} (key : A -> Z) l a :
  In a (dedup_first key l) <-> find (fun b => key b =? key a) l = Some a.
Proof.
  split; intros H.
  - rewrite <- dedup_find. apply find_nodup; [apply dedup_nodup|exact H].
  - rewrite <- dedup_find in H. apply find_some in H; tauto.
Qed.

Lemma dedup_keys {A} (key : A -> Z) l k :
  In k (map key (dedup_first key l)) <-> In k (map key l).
Proof.
  split; intros H.
  - apply in_map_iff in H as (a & <- & Ha). apply in_map. eapply dedup_in; eauto.
  - apply in_map_iff in H as (a & <- & Ha).
    destruct (find (fun b => key b =? key a) l) as [b|] eqn:E.
    + pose proof (find_some _ _ E) as [_ Hk]. rewrite <- dedup_find in E.
      apply find_some in E as [Hb _]. apply in_map_iff. exists b; split; [lia|exact Hb].
    + eapply find_none in E; [|exact Ha]. cbn in E. lia.
Qed.

Lemma dedup_aux_id {A} (key : A -> Z) seen l :
  NoDup (map key l) -> (forall a, In a l -> ~ In (key a) seen) -> dedup_aux key seen l = l.
Proof.
  revert seen; induction l as [|b l IH]; cbn; intros seen Hn Hs; [reflexivity|].
  inversion Hn; subst.
  destruct (existsb (Z.eqb (key b)) seen) eqn:E.
  - apply existsb_exists in E as (x & Hx & Hx2). exfalso; apply (Hs b); [auto|].
    replace (key b) with x by lia. exact Hx.
  - f_equal. apply IH; [assumption|]. intros a Ha [H|H].
    + apply H1. rewrite H. apply in_map; exact Ha.
    + apply (Hs a); auto.
Qed.

Lemma dedup_id {A} (key : A -> Z) l : NoDup (map key l) -> dedup_first key l = l.
Proof. intros H; apply dedup_aux_id; [exact H|cbn; tauto]. Qed.

Lemma mask_select_map_filter {A} (p : A -> bool) l : mask_select (map p l) l = filter p l.
Proof. induction l as [|a l IH]; cbn; [reflexivity|]. destruct (p a); rewrite IH; reflexivity. Qed.

Lemma mask_select_length_all {A} (m : list bool) (l : list A) :
  List.length m = List.length l -> forallb (fun b => b) m = true -> mask_select m l = l.
Proof.
  revert l; induction m as [|b m IH]; intros [|a l] Hl Hm; cbn in *; try lia; [reflexivity|].
  apply andb_true_iff in Hm as [-> Hm]. f_equal. apply IH; [lia|exact Hm].
Qed.

Lemma mask_select_in {A} (m : list bool) (l : list A) a : In a (mask_select m l) -> In a l.
Proof.
  revert l; induction m as [|b m IH]; intros [|x l]; cbn; try tauto.
  destruct b; cbn; intros H; [destruct H as [H|H]; auto|auto].
Qed.

Lemma map2_length {A B C} (f : A -> B -> C) l m :
  List.length l = List.length m -> List.length (map2 f l m) = List.length l.
Proof. revert m; induction l as [|a l IH]; intros [|b m] H; cbn in *; try lia. rewrite IH; lia. Qed.

Lemma seqR_ok {A} (l : list (res A)) r :
  seqR l = Ok r <-> l = map Ok r.
Proof.
  revert r; induction l as [|x l IH]; intros r; cbn.
  - split; [intros [= <-]; reflexivity|]. destruct r; [reflexivity|discriminate].
  - destruct x as [a|e]; cbn.
    + destruct (seqR l) as [b|e]; cbn.
      * split; [intros [= <-]; cbn; f_equal; apply IH; reflexivity|].
        destruct r as [|a' r]; [discriminate|]. cbn. intros [= -> H].
        apply IH in H. congruence.
      * split; [discriminate|]. destruct r as [|a' r]; [discriminate|]. cbn. intros [= -> H].
        apply IH in H. discriminate.
    + split; [discriminate|]. destruct r; discriminate.
Qed.

Lemma nth_error_ext' {A} (l m : list A) n :
  List.length l = n -> List.length m = n ->
  (forall i, (i < n)%nat -> nth_error l i = nth_error m i) -> l = m.
Proof.
  revert m n; induction l as [|x l IH]; intros [|y m] n H1 H2 H; cbn in *; subst; try discriminate; [reflexivity|].
  injection H2 as H2. f_equal.
  - specialize (H 0%nat ltac:(lia)). cbn in H. congruence.
  - apply (IH m (List.length l) eq_refl H2). intros i Hi. exact (H (S i) ltac:(lia)).
Qed.

Lemma nth_error_combine {A B} (l : list A) (m : list B) k :
  nth_error (combine l m) k =
  match nth_error l k, nth_error m k with Some a, Some b => Some (a, b) | _, _ => None end.
Proof.
  revert m k; induction l as [|x l IH]; intros [|y m] [|k]; cbn; try reflexivity.
  - destruct (nth_error l k); reflexivity.
  - apply IH.
Qed.
