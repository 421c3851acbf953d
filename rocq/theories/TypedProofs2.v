(* Proofs about the typed result arrays: filling a template, and joining the results of several locations. *)
From Coq Require Import ZArith List String Bool Lia.
From Flocq Require Import Core IEEE754.BinarySingleNaN.
From Verif Require Import Base BaseProofs MatchersModel ValidationModel ResultsProofs MatchersProofs TypedModel TypedSpec TypedProofs.
Import ListNotations.
Open Scope Z_scope.
Notation tdict := (list (string * tarray)).

Lemma substring_all s : forall n, (String.length s <= n)%nat -> substring 0 n s = s.
Proof. induction s as [|c s IH]; intros [|n] H; cbn in *; try reflexivity; [lia|]. rewrite IH by lia. reflexivity. Qed.
Lemma substring_prefix s : forall n, exists rest, s = (substring 0 n s ++ rest)%string /\ String.length (substring 0 n s) = Nat.min n (String.length s).
Proof.
  induction s as [|c s IH]; intros [|n]; cbn.
  - exists ""%string. auto.
  - exists ""%string. auto.
  - exists (String c s). auto.
  - destruct (IH n) as (rest & E & L). exists rest. split; [now rewrite <- E|now rewrite L].
Qed.

Section Typed.
Variable big_int : Z -> res item.
Variable other : dtype -> item -> res item.
Notation store := (store big_int other).
Notation put0 := (put0 big_int other).
Notation puts := (puts big_int other).

Lemma store_typed d x : has_type d x -> store d x = Ok x.
Proof.
  destruct d, x; cbn; try tauto; intros H.
  - now rewrite wrap32_id.
  - now rewrite substring_all.
Qed.

Lemma put0_ok d k x t y0 r y : dict_get d k = Some (TArr t (One y0 :: r)) -> store t x = Ok y ->
  exists d', put0 d k x = Ok d' /\ map fst d' = map fst d /\ forall k', dict_get d' k' = if String.eqb k k' then Some (TArr t (One y :: r)) else dict_get d k'.
Proof.
  intros G S1. unfold TypedModel.put0. rewrite G, S1. cbn. eexists. split; [reflexivity|]. split.
  - rewrite dict_set_keys. replace (existsb (String.eqb k) (map fst d)) with true; [reflexivity|].
    symmetry. apply existsb_exists. exists k. split; [|apply String.eqb_refl].
    destruct (in_dec String.string_dec k (map fst d)) as [i|n]; [exact i|]. apply dict_get_none in n. congruence.
  - intros k'. apply dict_get_set.
Qed.

Lemma puts_ok l : forall d, NoDup (map fst l) ->
  (forall k x, In (k, x) l -> exists t y0 y, dict_get d k = Some (TArr t [One y0]) /\ store t x = Ok y) ->
  exists d', puts d l = Ok d' /\ map fst d' = map fst d /\
    (forall k x, In (k, x) l -> exists t y0 y, dict_get d k = Some (TArr t [One y0]) /\ store t x = Ok y /\ dict_get d' k = Some (TArr t [One y])) /\
    (forall k, ~ In k (map fst l) -> dict_get d' k = dict_get d k).
Proof.
  induction l as [|[k x] l IH]; intros d N H; cbn [TypedModel.puts].
  - exists d. split; [reflexivity|]. split; [reflexivity|]. split; [intros k x []|auto].
  - cbn in N. inversion N as [|? ? N1 N2]; subst.
    destruct (H k x (or_introl eq_refl)) as (t & y0 & y & G & S1).
    destruct (put0_ok d k x t y0 [] y G S1) as (d1 & E1 & K1 & L1). rewrite E1. cbn.
    assert (Ne : forall k', In k' (map fst l) -> String.eqb k k' = false) by (intros k' I; apply String.eqb_neq; congruence).
    destruct (IH d1 N2) as (d2 & E2 & K2 & L2 & M2).
    { intros k' x' I. destruct (H k' x' (or_intror I)) as (t' & z0 & z & G' & S'). exists t', z0, z. split; [|exact S'].
      rewrite L1, Ne; [exact G'|]. apply in_map_iff. exists (k', x'). auto. }
    exists d2. split; [exact E2|]. split; [congruence|]. split.
    + intros k' x' [E|I].
      * injection E as <- <-. exists t, y0, y. split; [exact G|]. split; [exact S1|]. rewrite M2 by exact N1. rewrite L1, String.eqb_refl. reflexivity.
      * destruct (L2 k' x' I) as (t' & z0 & z & G' & S' & R'). exists t', z0, z. rewrite L1, Ne in G' by (apply in_map_iff; exists (k', x'); auto). auto.
    + intros k' NI. cbn in NI. rewrite M2 by tauto. rewrite L1. replace (String.eqb k k') with false; [reflexivity|]. symmetry. apply String.eqb_neq. intros E. apply NI. auto.
Qed.

Lemma fold_set_get meta : forall d k, NoDup (map fst meta) ->
  dict_get (fold_left (fun d e => dict_set String.eqb d (fst e) (snd e)) meta d) k =
  match dict_get meta k with Some a => Some a | None => dict_get (V := tarray) d k end.
Proof.
  induction meta as [|[k0 a0] meta IH]; intros d k N; cbn [fold_left fst snd]; [reflexivity|].
  cbn in N. inversion N as [|? ? N1 N2]; subst. rewrite IH by exact N2.
  unfold dict_get at 3. cbn [find fst]. destruct (String.eqb_spec k0 k) as [->|Ne].
  - apply dict_get_none in N1. rewrite N1, dict_get_set, String.eqb_refl. reflexivity.
  - fold (dict_get meta k). destruct (dict_get meta k); [reflexivity|]. rewrite dict_get_set. apply String.eqb_neq in Ne. now rewrite Ne.
Qed.

Lemma fold_put m meta : forall d, (forall k, In k (map fst meta) -> dict_get m k <> None) ->
  exists l, map fst l = map fst meta /\ (forall k x, In (k, x) l -> dict_get m k = Some x) /\
  fold_left (fun acc (e : string * tarray) => bindR acc (fun d =>
    match Some m with
    | None => Err EOther
    | Some m => match dict_get m (fst e) with None => Err EKey | Some x => put0 d (fst e) x end
    end)) meta (Ok d) = puts d l.
Proof.
  induction meta as [|[k a] meta IH]; intros d H.
  - exists []. cbn. tauto.
  - destruct (dict_get m k) as [x|] eqn:G; [|exfalso; apply (H k); [now left|exact G]].
    assert (H' : forall k, In k (map fst meta) -> dict_get m k <> None) by (intros; apply H; now right).
    cbn [fold_left bindR fst]. rewrite G.
    destruct (put0 d k x) as [d1|er] eqn:P.
    + destruct (IH d1 H') as (l & K & V & E). exists ((k, x) :: l). split; [cbn; now f_equal|]. split.
      * intros k' x' [E'|I]; [injection E' as <- <-; exact G|now apply V].
      * cbn [bindR]. rewrite E. cbn [TypedModel.puts]. rewrite P. reflexivity.
    + destruct (IH d H') as (l & K & V & _). exists ((k, x) :: l). split; [cbn; now f_equal|]. split.
      * intros k' x' [E'|I]; [injection E' as <- <-; exact G|now apply V].
      * cbn [TypedModel.puts]. rewrite P. cbn [bindR]. clear. induction meta as [|e meta IH]; cbn; [reflexivity|exact IH].
Qed.

Lemma meta_calc_ok tmpl meta j m :
  NoDup (map fst meta) ->
  (forall k, In k (map fst meta) -> k <> "gpi" /\ k <> "lon" /\ k <> "lat")%string ->
  (forall k a, In (k, a) meta -> dict_get tmpl k = Some a) ->
  dict_get tmpl "gpi"%string = Some (TArr Int32 [One (NpInt (-1))]) ->
  dict_get tmpl "lon"%string = Some (TArr Float64 [One nan64]) ->
  dict_get tmpl "lat"%string = Some (TArr Float64 [One nan64]) ->
  j_meta j = Some m ->
  forall g lo la, store Int32 (j_gpi j) = Ok g -> store Float64 (j_lon j) = Ok lo -> store Float64 (j_lat j) = Ok la ->
  (forall k a, In (k, a) meta -> exists t y0 x y, a = TArr t [One y0] /\ dict_get m k = Some x /\ store t x = Ok y) ->
  exists d, meta_calc big_int other tmpl meta j = Ok d /\ map fst d = map fst tmpl /\
    dict_get d "gpi"%string = Some (TArr Int32 [One g]) /\
    dict_get d "lon"%string = Some (TArr Float64 [One lo]) /\
    dict_get d "lat"%string = Some (TArr Float64 [One la]) /\
    (forall k a, In (k, a) meta -> exists t y0 x y, a = TArr t [One y0] /\ dict_get m k = Some x /\ store t x = Ok y /\ dict_get d k = Some (TArr t [One y])) /\
    (forall k, ~ In k (map fst meta) -> k <> "gpi" -> k <> "lon" -> k <> "lat" -> dict_get d k = dict_get tmpl k)%string.
Proof.
  intros N NL HT TG TO TA JM g lo la SG SO SA HM. unfold meta_calc.
  assert (Nloc : NoDup ["gpi"; "lon"; "lat"]%string).
  { repeat constructor; cbn; intros E; repeat (destruct E as [E|E]; [discriminate E|]); exact E. }
  destruct (puts_ok [("gpi", j_gpi j); ("lon", j_lon j); ("lat", j_lat j)]%string tmpl Nloc) as (d1 & E1 & K1 & L1 & M1).
  { intros k x [E|[E|[E|[]]]]; injection E as <- <-; eauto. }
  rewrite E1. cbn [bindR]. rewrite JM.
  destruct (fold_put m meta d1) as (l & Kl & Vl & El).
  { intros k I C. apply in_map_iff in I. destruct I as ((k' & a) & <- & I). destruct (HM _ _ I) as (t & y0 & x & y & _ & Gx & _). cbn in C. congruence. }
  rewrite El.
  assert (D1m : forall k, In k (map fst meta) -> dict_get d1 k = dict_get tmpl k).
  { intros k I. apply M1. destruct (NL k I) as (A & B & C). cbn. intuition. }
  assert (Inl : forall k x, In (k, x) l -> exists a, In (k, a) meta).
  { intros k x I. assert (J : In k (map fst meta)) by (rewrite <- Kl; apply in_map_iff; exists (k, x); auto). apply in_map_iff in J. destruct J as ((k' & a) & <- & J). eauto. }
  destruct (puts_ok l d1) as (d2 & E2 & K2 & L2 & M2); [now rewrite Kl| |].
  { intros k x I. destruct (Inl _ _ I) as (a & J). destruct (HM _ _ J) as (t & y0 & x' & y & -> & Gx & S1).
    pose proof (Vl _ _ I) as V. assert (x' = x) by congruence. subst x'. exists t, y0, y. split; [|exact S1].
    rewrite D1m by (apply in_map_iff; eexists; split; [|exact J]; reflexivity). now apply HT. }
  exists d2. split; [exact E2|]. split; [congruence|].
  assert (Old : forall k, ~ In k (map fst meta) -> dict_get d2 k = dict_get d1 k) by (intros k NI; apply M2; now rewrite Kl).
  assert (NI : forall k, (k = "gpi" \/ k = "lon" \/ k = "lat")%string -> ~ In k (map fst meta)) by (intros k E I; destruct (NL k I) as (A & B & C); destruct E as [E|[E|E]]; congruence).
  split; [|split; [|split]].
  - rewrite Old by auto. destruct (L1 "gpi"%string _ (or_introl eq_refl)) as (t & y0 & y & G & S1 & R1). rewrite TG in G. injection G as <- <-. rewrite R1. congruence.
  - rewrite Old by auto. destruct (L1 "lon"%string _ (or_intror (or_introl eq_refl))) as (t & y0 & y & G & S1 & R1). rewrite TO in G. injection G as <- <-. rewrite R1. congruence.
  - rewrite Old by auto. destruct (L1 "lat"%string _ (or_intror (or_intror (or_introl eq_refl)))) as (t & y0 & y & G & S1 & R1). rewrite TA in G. injection G as <- <-. rewrite R1. congruence.
  - split.
    + intros k a I. destruct (HM _ _ I) as (t & y0 & x & y & -> & Gx & S1). exists t, y0, x, y. split; [reflexivity|]. split; [exact Gx|]. split; [exact S1|].
      assert (J : In k (map fst l)) by (rewrite Kl; apply in_map_iff; eexists; split; [|exact I]; reflexivity).
      apply in_map_iff in J. destruct J as ((k' & x') & E & J). cbn in E. subst k'.
      destruct (L2 _ _ J) as (t' & z0 & z & G' & S' & R'). pose proof (Vl _ _ J) as V. assert (x' = x) by congruence. subst x'.
      rewrite D1m in G' by (apply in_map_iff; eexists; split; [|exact I]; reflexivity). rewrite (HT _ _ I) in G'. injection G' as <- <-. rewrite R'. congruence.
    + intros k NM NG NO NA. rewrite Old by exact NM. apply M1. cbn. intuition.
Qed.

(* ---- joining ---- *)
Lemma all_ones_map xs : all_ones (map One xs) = Some xs.
Proof. induction xs as [|x xs IH]; cbn; [reflexivity|now rewrite IH]. Qed.
Lemma np_array_typed d xs : Forall (has_type d) xs -> np_array big_int other d (map One xs) = Ok (TArr d (map One xs)).
Proof.
  intros H. unfold np_array. rewrite all_ones_map.
  assert (E : seqR (map (store d) xs) = Ok xs).
  { apply seqR_ok. apply map_ext_in. intros x I. apply store_typed. rewrite Forall_forall in H. auto. }
  rewrite E. reflexivity.
Qed.

Lemma compact_ok m0 rest :
  NoDup (map fst m0) ->
  (forall m k a, In m (m0 :: rest) -> dict_get m0 k = Some a -> exists x r, dict_get m k = Some (TArr (a_type a) (One x :: r)) /\ has_type (a_type a) x) ->
  exists res, compact big_int other (m0 :: rest) = Ok res /\ map fst res = map fst m0 /\
    forall k a, dict_get m0 k = Some a -> exists xs, dict_get res k = Some (TArr (a_type a) (map One xs)) /\ List.length xs = List.length (m0 :: rest) /\
      forall i m, nth_error (m0 :: rest) i = Some m -> exists x r, dict_get m k = Some (TArr (a_type a) (One x :: r)) /\ nth_error xs i = Some x.
Proof.
  intros N H. unfold compact. set (ms := m0 :: rest) in *.
  set (F := fun f : string * tarray => bindR (seqR (map (fun r => first_elem r (fst f)) ms)) (fun es => mapR (fun a => (fst f, a)) (np_array big_int other (a_type (snd f)) es))).
  assert (One_field : forall k a, dict_get m0 k = Some a -> exists xs, F (k, a) = Ok (k, TArr (a_type a) (map One xs)) /\ List.length xs = List.length ms /\
      forall i m, nth_error ms i = Some m -> exists x r, dict_get m k = Some (TArr (a_type a) (One x :: r)) /\ nth_error xs i = Some x).
  { intros k a G.
    assert (X : exists xs, map (fun r => first_elem r k) ms = map Ok (map One xs) /\ Forall (has_type (a_type a)) xs /\ List.length xs = List.length ms /\
      forall i m, nth_error ms i = Some m -> exists x r, dict_get m k = Some (TArr (a_type a) (One x :: r)) /\ nth_error xs i = Some x).
    { assert (Hk : forall m, In m ms -> exists x r, dict_get m k = Some (TArr (a_type a) (One x :: r)) /\ has_type (a_type a) x) by (intros m I; eauto).
      clear - Hk. induction ms as [|m ms IH].
      - exists []. cbn. repeat split; auto. intros [|i] m E; discriminate E.
      - destruct (IH (fun m' I => Hk m' (or_intror I))) as (xs & E & T & L & V). destruct (Hk m (or_introl eq_refl)) as (x & r & G & Tx).
        exists (x :: xs). split; [|split; [now constructor|split; [cbn; now rewrite L|]]].
        + cbn [map]. rewrite E. f_equal. unfold first_elem. rewrite G. reflexivity.
        + intros [|i] m' E'; cbn in E'; [injection E' as <-; exists x, r; auto|]. now apply V. }
    destruct X as (xs & E & T & L & V). exists xs. split; [|auto].
    unfold F. cbn [fst snd]. apply seqR_ok in E. rewrite E. cbn [bindR]. rewrite np_array_typed by exact T. reflexivity. }
  assert (Sub : forall l, (forall k a, In (k, a) l -> dict_get m0 k = Some a) -> exists res, seqR (map F l) = Ok res /\ map fst res = map fst l /\
     forall k a, In (k, a) l -> exists xs, In (k, TArr (a_type a) (map One xs)) res /\ List.length xs = List.length ms /\
      forall i m, nth_error ms i = Some m -> exists x r, dict_get m k = Some (TArr (a_type a) (One x :: r)) /\ nth_error xs i = Some x).
  { induction l as [|[k a] l IH]; intros Hl.
    - exists []. cbn. repeat split; auto. tauto.
    - destruct (IH (fun k a I => Hl k a (or_intror I))) as (res & E & K & V). destruct (One_field k a (Hl k a (or_introl eq_refl))) as (xs & E1 & L1 & V1).
      exists ((k, TArr (a_type a) (map One xs)) :: res). cbn [map seqR]. rewrite E1, E. cbn. split; [reflexivity|]. split; [now f_equal|].
      intros k' a' [E'|I]; [injection E' as <- <-; exists xs; auto|]. destruct (V _ _ I) as (ys & J & P). exists ys. auto. }
  destruct (Sub m0) as (res & E & K & V).
  { intros k a I. now apply dict_get_in. }
  exists res. split; [exact E|]. split; [exact K|]. intros k a G. apply dict_get_in in G; [|exact N].
  destruct (V _ _ G) as (xs & J & P). exists xs. split; [|exact P]. apply dict_get_in; [now rewrite K|exact J].
Qed.
End Typed.
