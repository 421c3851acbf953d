(* Vocabulary: what an adapted reader is documented to return, without a store. *)
From Verif Require Export OwnModel.
Open Scope Z_scope.

(* what one adapter makes of the frame read *)
Definition adapted (a : adapter) (d : option (tab cell)) : res (tab cell) :=
  match a with
  | ABasic => Ok (basic d)
  | AMask f threshold n => mapR of_bools (masking_adapter f threshold n d)
  | ASelf f threshold n => self_masking f threshold n d
  | AAdvanced fs ign => advanced_masking fs ign d
  | AAnomaly f cols => anomaly_adapter f cols d
  | AClim f cols rc => anomaly_clim_adapter f cols rc d
  | ACombine f cols n => combine_adapter f cols n d
  | ATime o => timestamp_adapter o d
  end.
(* and a stack of adapters, the lowest first *)
Fixpoint composed (l : list adapter) (d : option (tab cell)) : res (option (tab cell)) :=
  match l with
  | [] => Ok d
  | a :: rest => bindR (adapted a d) (fun t => composed rest (Some t))
  end.
(* the adapters that make a new frame *)
Definition copies (a : adapter) : bool :=
  match a with AMask _ _ _ | ASelf _ _ _ | AAdvanced _ _ | ATime _ => true | _ => false end.
(* below the first adapter that computes columns there is one that makes a new frame *)
Fixpoint guarded (l : list adapter) : bool :=
  match l with
  | [] => true
  | ABasic :: rest => guarded rest
  | a :: _ => copies a
  end.
(* the content of a frame of the store *)
Definition content (h : store) (r : ref) : option (tab cell) := option_map o_tab (get h r).
(* what a caller sees of a read in a store *)
Definition seen (h : store) (x : res (option ref)) : res (option (tab cell)) :=
  match x with Ok (Some r) => Ok (content h r) | Ok None => Ok None | Err e => Err e end.
(* what the reader has to offer *)
Definition offers (rd : reader) (h : store) (d : option (tab cell)) : Prop :=
  match rd with
  | RNone => d = None
  | RShared r => exists t, content h r = Some t /\ d = Some t
  | RFresh o => d = Some (o_tab o)
  end.
(* every frame of the store [h] has the same content in [h'] *)
Definition kept (h h' : store) : Prop := forall r t, content h r = Some t -> content h' r = Some t.
