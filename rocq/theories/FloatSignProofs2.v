(* Changing the sign of a series that is filtered or collocated by means, in IEEE 754 arithmetic. *)
From Coq Require Import ZArith Reals List Lia Lra Bool.
From Flocq Require Import Core IEEE754.BinarySingleNaN.
From Verif Require Import Calendar FloatModel FloatSpec FloatProofs FloatProofs2 FloatSignProofs TypedModel ExpFloatModel BoxFloatModel JdModel MeanFloatModel.
Import ListNotations.
Open Scope Z_scope.

Notation os := (osem 53 1024).
Definition neg (p : double * double) : double * double := (fst p, Bopp (snd p)).

(* the marker of missing values is met by x if and only if it is met by -x *)
Definition marker_fits (nan : double) (pts : list (double * double)) : Prop :=
  Forall (fun p => f_missing nan (Bopp (snd p)) = f_missing nan (snd p)) pts.

Lemma exp_loop_sign : forall exp64 nan ctime pts lj l l' g, marker_fits nan pts -> os l l' ->
  Forall2 os (f_exp_loop exp64 nan ctime lj l g pts) (f_exp_loop exp64 nan ctime lj l' g (map neg pts)).
Proof.
  intros exp64 nan ctime. induction pts as [|[t x] r IH]; intros lj l l' g M O; cbn [f_exp_loop map neg fst snd]; [constructor|].
  inversion M as [|? ? M1 M2]; subst. cbn [snd] in M1. rewrite M1. destruct (f_missing nan x).
  - constructor; [exact Logic.I|]. apply IH; assumption.
  - cbv zeta. assert (U : os (f_update l (f_gain g (f_ef exp64 ctime lj t)) x) (f_update l' (f_gain g (f_ef exp64 ctime lj t)) (Bopp x))).
    { unfold f_update. apply fadd_osem; [exact O|]. apply fmul_osem_r. apply fsub_osem; [apply osem_opp|exact O]. }
    constructor; [exact U|]. apply IH; assumption.
Qed.
Lemma exp_sign : forall exp64 nan ctime pts, marker_fits nan pts ->
  Forall2 os (f_exp_filter exp64 nan ctime pts) (f_exp_filter exp64 nan ctime (map neg pts)).
Proof.
  intros exp64 nan ctime. induction pts as [|[t x] r IH]; intros M; cbn [f_exp_filter map neg fst snd]; [constructor|].
  inversion M as [|? ? M1 M2]; subst. cbn [snd] in M1. rewrite M1. destruct (f_missing nan x).
  - constructor; [exact Logic.I|]. apply IH; assumption.
  - constructor; [apply osem_opp|]. apply exp_loop_sign; [exact M2|apply osem_opp].
Qed.

Lemma scan_sign : forall nan limit ti pts a b n, marker_fits nan pts -> os a b ->
  os (fst (f_scan nan limit ti pts (a, n))) (fst (f_scan nan limit ti (map neg pts) (b, n)))
  /\ snd (f_scan nan limit ti (map neg pts) (b, n)) = snd (f_scan nan limit ti pts (a, n)).
Proof.
  intros nan limit ti. induction pts as [|[t x] r IH]; intros a b n M O; cbn [f_scan map neg fst snd]; [auto|].
  inversion M as [|? ? M1 M2]; subst. cbn [snd] in M1. rewrite M1. destruct (f_missing nan x); [apply IH; assumption|].
  destruct (Bleb (Babs (sub64 t ti)) limit); [|auto]. apply IH; [assumption|]. apply fadd_osem; [exact O|apply osem_opp].
Qed.
Lemma box_loop_sign : forall nan limit fillna min_obs pts before, marker_fits nan pts -> marker_fits nan before ->
  Forall2 os (f_box_loop nan limit fillna min_obs before pts) (f_box_loop nan limit fillna min_obs (map neg before) (map neg pts)).
Proof.
  intros nan limit fillna min_obs. induction pts as [|[t x] r IH]; intros before M B; cbn [map]; [constructor|].
  change (neg (t, x)) with (t, Bopp x). cbn [f_box_loop].
  inversion M as [|? ? M1 M2]; subst. constructor.
  - cbn [snd] in M1. unfold f_box_point. rewrite M1. destruct (negb (f_missing nan x) || fillna)%bool; [|exact Logic.I]. cbv zeta.
    change ((t, Bopp x) :: map neg r) with (map neg ((t, x) :: r)).
    destruct (scan_sign nan limit t ((t, x) :: r) zero64 zero64 0 M (zero_osem 53 1024)) as [A N].
    destruct (f_scan nan limit t ((t, x) :: r) (zero64, 0)) as [a n]. destruct (f_scan nan limit t (map neg ((t, x) :: r)) (zero64, 0)) as [a' n'].
    cbn [fst snd] in A, N. subst n'.
    destruct (scan_sign nan limit t before a a' n B A) as [A' N']. rewrite N'.
    destruct (min_obs <=? snd (f_scan nan limit t before (a, n))); [|exact Logic.I]. apply fdiv_osem, A'.
  - apply (IH ((t, x) :: before)); [exact M2|]. constructor; [exact M1|exact B].
Qed.
Lemma boxcar_sign : forall nan window fillna min_obs pts, marker_fits nan pts ->
  Forall2 os (f_boxcar nan window fillna min_obs pts) (f_boxcar nan window fillna min_obs (map neg pts)).
Proof. intros nan window fillna min_obs pts M. apply (box_loop_sign nan (f_limit window) fillna min_obs pts []); [exact M|constructor]. Qed.

Section Mean.
Variables prec emax : Z.
Context (Hp : Prec_gt_0 prec) (He : Prec_lt_emax prec emax).
Notation float := (binary_float prec emax).
Notation osg := (osem prec emax).
Lemma filter_opp : forall l : list float,
  filter (fun x => negb (BinarySingleNaN.is_nan x)) (map Bopp l) = map Bopp (filter (fun x => negb (BinarySingleNaN.is_nan x)) l).
Proof.
  induction l as [|x r IH]; [reflexivity|]. cbn [map filter]. rewrite is_nan_Bopp. destruct (negb (BinarySingleNaN.is_nan x)); [cbn [map]; f_equal|]; exact IH.
Qed.
Lemma fold_opp : forall (l : list float) a b, osg a b ->
  osg (fold_left (fadd prec emax Hp He) l a) (fold_left (fadd prec emax Hp He) (map Bopp l) b).
Proof. induction l as [|x r IH]; intros a b O; cbn [fold_left map]; [exact O|]. apply IH. apply fadd_osem; [exact O|apply osem_opp]. Qed.
Lemma nanmean_opp : forall l : list float, osg (f_nanmean prec emax Hp He l) (f_nanmean prec emax Hp He (map Bopp l)).
Proof.
  intros l. unfold f_nanmean. cbv zeta. rewrite filter_opp, map_length. apply fdiv_osem. apply fold_opp. apply zero_osem.
Qed.
Lemma rm_loop_opp : forall oob times values half targets st,
  Forall2 osg (f_rm_loop prec emax Hp He oob times values half st targets)
              (f_rm_loop prec emax Hp He oob times (map Bopp values) half st targets).
Proof.
  intros oob times values half. induction targets as [|t r IH]; intros [lo up]; cbn [f_rm_loop]; [constructor|].
  unfold f_rm_step. cbv zeta. constructor; [|apply IH].
  match goal with |- osg (if ?b then _ else _) _ => destruct b end; [exact Logic.I|].
  rewrite skipn_map, firstn_map. apply nanmean_opp.
Qed.
Lemma collocate_mean_opp : forall oob ref other values w_ns,
  Forall2 osg (f_collocate_mean prec emax Hp He oob ref other values w_ns)
              (f_collocate_mean prec emax Hp He oob ref other (map Bopp values) w_ns).
Proof. intros. apply rm_loop_opp. Qed.
End Mean.

Lemma all_opposite : forall prec emax l l', Forall2 (osem prec emax) l l' -> Forall2 (opposite prec emax) l l'.
Proof. intros prec emax l l' F. induction F as [|a b l l' O F IH]; constructor; [apply osem_opposite, O|exact IH]. Qed.
