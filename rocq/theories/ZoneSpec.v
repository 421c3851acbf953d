(* Vocabulary for time zones: what it means to read wall-clock times in a zone. *)
From Verif Require Export ZoneModel.

Section Spec.
Variable wall : string -> Z -> Z.
Variable localize : string -> Z -> option Z.

(* g holds the data of f at the instants of its wall-clock times in zone z *)
Definition read_in (z : string) (f g : frame) : Prop :=
  fcols g = fcols f /\ Forall2 (fun a b => localize z (fst a) = Some (fst b) /\ snd b = snd a) (frows f) (frows g).
(* g holds the data at their instants; times without a zone are read in z *)
Definition instants (z : string) (f : zframe) (g : frame) : Prop :=
  match zone f with Some _ => g = zdata f | None => read_in z (zdata f) g end.
(* a zone whose clock is c ahead of UTC all the time *)
Definition fixed_zone (z : string) (c : Z) : Prop := (forall t, wall z t = t + c) /\ (forall t, localize z t = Some (t - c)).
(* the clock shows w at the instant of w *)
Definition sound_zone (z : string) : Prop := forall w u, localize z w = Some u -> wall z u = w.
(* the nearest observation depends on instants only; means are taken by the wall clock *)
Definition by_instants (z : string) (o : tc_opts) : Prop := o_method o <> MMean \/ exists c, fixed_zone z c.
End Spec.
