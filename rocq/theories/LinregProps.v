(* C20: the parameters of the linear regression are those of the least-squares line. *)
From Coq Require Import List QArith Lqa Lia.
From Verif Require Import Base CdfModel ScalingModel CdfProofs CdfFitProofs ScalingProofs.
Import ListNotations.
Open Scope Q_scope.

(* the sum of squared differences between the reference and a line *)
Definition squared_error (src ref : list Q) (a b : Q) : Q :=
  qsum (map2 (fun x y => (y - (a * x + b)) * (y - (a * x + b))) src ref).

Lemma error_expand a b src : forall ref, List.length src = List.length ref ->
  squared_error src ref a b == dotq ref ref - 2 * a * dotq src ref - 2 * b * qsum ref + a * a * dotq src src + 2 * a * b * qsum src + b * b * qnat (List.length src).
Proof.
  induction src as [|x src IH]; intros [|y ref] L; try discriminate.
  - change (0 == 0 - 2 * a * 0 - 2 * b * 0 + a * a * 0 + 2 * a * b * 0 + b * b * 0). ring.
  - injection L as L. unfold squared_error, dotq in *. cbn [map2 List.length qsum]. rewrite (IH ref L), qnat_S. ring.
Qed.

Lemma shift_dot u v l : forall m, List.length l = List.length m ->
  dotq (map (fun x => x - u) l) (map (fun y => y - v) m) == dotq l m - u * qsum m - v * qsum l + u * v * qnat (List.length l).
Proof.
  induction l as [|x l IH]; intros [|y m] L; try discriminate.
  - change (0 == 0 - u * 0 - v * 0 + u * v * 0). ring.
  - injection L as L. unfold dotq in *. cbn [map map2 List.length qsum]. rewrite (IH m L), qnat_S. ring.
Qed.

Lemma dot_self l : 0 <= dotq l l.
Proof. induction l as [|x l IH]; unfold dotq in *; cbn [map2 qsum]; [lra|]. nra. Qed.

Lemma sq_nonneg x : 0 <= x * x.
Proof. nra. Qed.

Lemma least_squares src ref s i : linreg_params src ref = Ok (s, i) ->
  forall a b, squared_error src ref s i <= squared_error src ref a b /\
              (squared_error src ref a b == squared_error src ref s i -> a == s /\ b == i).
Proof.
  intros H a b. destruct (linreg_ok _ _ _ _ H) as [Hs _]. revert H. unfold linreg_params.
  destruct (Nat.eqb_spec (List.length src) (List.length ref)) as [L|]; [|discriminate].
  destruct (Qeq_bool _ _) eqn:E; [discriminate|]. intros H. injection H as H1 H2. rewrite H1 in H2.
  apply Qeq_bool_neq in E. pose proof (dot_self (centred src)) as P.
  assert (Pn : 0 < qnat (List.length src)) by (apply (qlen_pos src Hs)).
  rewrite !error_expand by exact L.
  unfold centred in *. 
  assert (Mx : qsum src == qmean src * qnat (List.length src)) by (unfold qmean, qlen; fold (qnat (List.length src)); field; lra).
  assert (My : qsum ref == qmean ref * qnat (List.length src)) by (unfold qmean, qlen; rewrite <- L; fold (qnat (List.length src)); field; lra).
  pose proof (shift_dot (qmean src) (qmean src) src src eq_refl) as Cxx.
  pose proof (shift_dot (qmean src) (qmean ref) src ref L) as Cxy.
  set (cxx := dotq _ _) in H1, E, P, Cxx. set (cxy := dotq (map _ src) (map _ ref)) in H1, Cxy.
  clearbody cxx cxy. 
  set (n := qnat _) in *. clearbody n. set (mx := qmean src) in *. set (my := qmean ref) in *. clearbody mx my.
  set (Sx := qsum src) in *. set (Sy := qsum ref) in *. clearbody Sx Sy.
  set (xx := dotq src src) in *. set (xy := dotq src ref) in *. set (yy := dotq ref ref) in *. clearbody xx xy yy.
  assert (Hsc : s * cxx == cxy) by (rewrite <- H1; field; exact E).
  assert (Hi : i == my - s * mx) by (rewrite <- H2; reflexivity). clear H1 H2 Hs L src ref.
  assert (D : yy - 2 * a * xy - 2 * b * Sy + a * a * xx + 2 * a * b * Sx + b * b * n -
              (yy - 2 * s * xy - 2 * i * Sy + s * s * xx + 2 * s * i * Sx + i * i * n) ==
              (a - s) * (a - s) * cxx + n * ((b - (my - a * mx)) * (b - (my - a * mx)))).
  { assert (X1 : xx == cxx + mx * mx * n) by (rewrite Cxx, Mx; ring).
    assert (X2 : xy == cxy + mx * my * n) by (rewrite Cxy, Mx, My; ring).
    rewrite X1, X2, Mx, My, Hi, <- Hsc. ring. }
  set (EA := yy - 2 * a * xy - 2 * b * Sy + a * a * xx + 2 * a * b * Sx + b * b * n) in *.
  set (ES := yy - 2 * s * xy - 2 * i * Sy + s * s * xx + 2 * s * i * Sx + i * i * n) in *.
  clearbody EA ES.
  assert (Q1 : 0 <= (a - s) * (a - s) * cxx) by (apply Qmult_le_0_compat; [apply sq_nonneg|exact P]).
  assert (Q2 : 0 <= n * ((b - (my - a * mx)) * (b - (my - a * mx)))) by (apply Qmult_le_0_compat; [lra|apply sq_nonneg]).
  set (T1 := (a - s) * (a - s) * cxx) in *. set (T2 := n * ((b - (my - a * mx)) * (b - (my - a * mx)))) in *.
  split; [clear - D Q1 Q2; clearbody T1 T2; lra|]. intros EQ.
  assert (Z1 : T1 == 0) by (clear - D Q1 Q2 EQ; clearbody T1 T2; lra).
  assert (Z2 : T2 == 0) by (clear - D Q1 Q2 EQ; clearbody T1 T2; lra).
  unfold T1, T2 in Z1, Z2.
  apply Qmult_integral in Z1. destruct Z1 as [Z1|Z1]; [|contradiction].
  assert (A : a == s) by (apply Qmult_integral in Z1; destruct Z1; lra). split; [exact A|].
  apply Qmult_integral in Z2. destruct Z2 as [Z2|Z2]; [lra|].
  assert (B : b - (my - a * mx) == 0) by (apply Qmult_integral in Z2; destruct Z2; lra).
  rewrite A in B. lra.
Qed.

Lemma dot_self_zero l : dotq l l == 0 -> forall x, In x l -> x == 0.
Proof.
  induction l as [|y l IH]; [intros _ x []|]. unfold dotq. cbn [map2 qsum]. intros H.
  pose proof (dot_self l) as P. unfold dotq in P, IH.
  assert (Y : y * y == 0) by nra. assert (R : qsum (map2 Qmult l l) == 0) by nra.
  intros x [<-|Hx]; [apply Qmult_integral in Y; tauto|exact (IH R x Hx)].
Qed.

Lemma centred_zero l : (forall x y, In x l -> In y l -> x == y) -> forall x, In x (centred l) -> x == 0.
Proof.
  intros H x Hx. unfold centred in Hx. apply in_map_iff in Hx. destruct Hx as (v & <- & Hv).
  assert (M : qmean l == v).
  { assert (S : forall l' : list Q, (forall x, In x l' -> x == v) -> qsum l' == v * qlen l').
    { induction l' as [|w l' IH]; intros Hl; [change (0 == v * 0); ring|]. cbn [qsum].
      assert (E1 : w == v) by exact (Hl w (or_introl eq_refl)).
      assert (E2 : qsum l' == v * qlen l') by exact (IH (fun x X => Hl x (or_intror X))). change (qlen (w :: l')) with (qnat (Datatypes.S (List.length l'))).
      rewrite qnat_S, E2. change (qlen l') with (qnat (List.length l')). rewrite E1. ring. }
    assert (E : qsum l == v * qlen l) by exact (S l (fun x X => H x v X Hv)). unfold qmean. rewrite E. field.
    assert (0 < qlen l) by (apply qlen_pos; intros ->; destruct Hv). lra. }
  rewrite M. ring.
Qed.

Lemma dot_zero l : (forall x, In x l -> x == 0) -> dotq l l == 0.
Proof.
  induction l as [|y l IH]; intros H; [reflexivity|]. unfold dotq in *. cbn [map2 qsum].
  assert (E1 : y == 0) by exact (H y (or_introl eq_refl)).
  assert (E2 : qsum (map2 Qmult l l) == 0) by exact (IH (fun x X => H x (or_intror X))). rewrite E1, E2. ring.
Qed.

Lemma linreg_defined src ref :
  (exists s i, linreg_params src ref = Ok (s, i)) <->
  List.length src = List.length ref /\ exists x y, In x src /\ In y src /\ ~ x == y.
Proof.
  unfold linreg_params. destruct (Nat.eqb_spec (List.length src) (List.length ref)) as [L|L].
  - destruct (Qeq_bool _ 0) eqn:E.
    + apply Qeq_bool_eq in E. split; [intros (s & i & D); discriminate|]. intros (_ & x & y & Hx & Hy & N). exfalso. apply N.
      pose proof (dot_self_zero _ E) as Z. unfold centred in Z.
      pose proof (Z _ (in_map (fun v => v - qmean src) _ _ Hx)) as Zx. pose proof (Z _ (in_map (fun v => v - qmean src) _ _ Hy)) as Zy.
      cbn beta in Zx, Zy. lra.
    + apply Qeq_bool_neq in E. split; [|intros _; eauto]. intros _. split; [exact L|].
      destruct (List.Exists_dec (fun x => ~ x == qmean src) src) as [X|X].
      { intros x. destruct (Qeq_dec x (qmean src)); [right|left]; tauto. }
      * apply Exists_exists in X. destruct X as (x & Hx & Nx).
        destruct (List.Exists_dec (fun y => ~ y == x) src) as [Y|Y].
        { intros y. destruct (Qeq_dec y x); [right|left]; tauto. }
        -- apply Exists_exists in Y. destruct Y as (y & Hy & Ny). exists y, x. tauto.
        -- exfalso. apply E, dot_zero, centred_zero. intros u v Hu Hv.
           assert (K : forall w, In w src -> w == x).
           { intros w Hw. destruct (Qeq_dec w x); [assumption|]. exfalso. apply Y, Exists_exists. exists w. tauto. }
           assert (Ku : u == x) by exact (K u Hu). assert (Kv : v == x) by exact (K v Hv). rewrite Ku, Kv. reflexivity.
      * exfalso. apply E, dot_zero. unfold centred. intros z Hz. apply in_map_iff in Hz. destruct Hz as (v & <- & Hv).
        destruct (Qeq_dec v (qmean src)) as [D|D]; [lra|]. exfalso. apply X, Exists_exists. exists v. tauto.
  - split; [intros (s & i & D); discriminate|tauto].
Qed.

(* C20: slope and intercept are those of the line with the smallest squared error, and no other
   line has that error *)
Theorem C20_least_squares : forall src ref s i, linreg_params src ref = Ok (s, i) ->
  forall a b, squared_error src ref s i <= squared_error src ref a b /\
              (squared_error src ref a b == squared_error src ref s i -> a == s /\ b == i).
Proof. exact least_squares. Qed.

(* a fit exists when both series are equally long and the source is not constant *)
Theorem C20_fit_exists : forall src ref,
  (exists s i, linreg_params src ref = Ok (s, i)) <->
  List.length src = List.length ref /\ exists x y, In x src /\ In y src /\ ~ x == y.
Proof. exact linreg_defined. Qed.

Example C20_least_squares_ex :
  match linreg_params [0; 1; 2] [0; 2; 1] with
  | Ok (s, i) => s == 1 # 2 /\ i == 1 # 2 /\ squared_error [0; 1; 2] [0; 2; 1] s i == 3 # 2
  | Err _ => False end.
Proof. vm_compute. auto. Qed.

Print Assumptions C20_least_squares.
Print Assumptions C20_fit_exists.
