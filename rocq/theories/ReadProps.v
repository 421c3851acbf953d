(* Property theorems C28, C43, C44, C68: reading, the data manager and upscaling. *)
From Verif Require Import ReadSpec BaseProofs TemporalProofs MatchersProofs ReadProofs UpscaleProofs.
From Verif Require Import TemporalModel TemporalSpec.

(* ---- C68 ---- reading a dataset *)
Theorem C68_data_within_period :
  forall (period : option (Z * Z)) (o : read_outcome) (f : frame),
    accept_read period o = Ok (Some f) <->
    exists g, o = RFrame g /\ frows f <> [] /\
      f = match period with Some p => period_slice p g | None => g end.
Proof. exact accept_read_some. Qed.
Theorem C68_period_slice_rows :
  forall (p : Z * Z) (f : frame) (t : Z) (r : row),
    In (t, r) (frows (period_slice p f)) <-> In (t, r) (frows f) /\ fst p <= t <= snd p.
Proof.
  intros p f t r. unfold period_slice. cbn [frows]. rewrite filter_In. cbn [fst]. rewrite andb_true_iff, !Z.leb_le. tauto.
Qed.
Theorem C68_reading_errors :
  forall (period : option (Z * Z)) (o : read_outcome) (e : err),
    accept_read period o = Err e <->
    o = RRaise e \/ (o = RObject None /\ e = EType) \/
    (exists msg, o = RRuntime msg /\ msg <> "No such file or directory"%string /\ e = EOther).
Proof. exact accept_read_err. Qed.
Print Assumptions C68_data_within_period.
Print Assumptions C68_reading_errors.
Example C68_ex : accept_read (Some (5, 9)) (RFrame (mkFrame ["x"%string] [(4, [Some 1%Q]); (5, [None]); (9, [Some 2%Q]); (10, [None])]))
  = Ok (Some (mkFrame ["x"%string] [(5, [None]); (9, [Some 2%Q])])).
Proof. reflexivity. Qed.

(* ---- C28 ---- *)
Theorem C28_no_reference :
  forall reader period store oob unstable suffix (m : manager) (gpi : Z) (lon lat : Q),
    accept_read period (reader (m_ref m) gpi) = Ok None ->
    get_data reader period store oob unstable suffix m gpi lon lat = ([(m_ref m, gpi)], Ok []).
Proof. exact get_data_no_ref. Qed.
Theorem C28_reference_and_readable_others :
  forall reader period store oob unstable suffix (m : manager) (gpi : Z) (lon lat : Q) (rf : frame) outs,
    NoDup (m_ref m :: map d_name (m_others m)) ->
    accept_read period (reader (m_ref m) gpi) = Ok (Some rf) ->
    Forall2 (chosen reader period store oob unstable suffix m gpi lon lat) (m_others m) outs ->
    get_data reader period store oob unstable suffix m gpi lon lat =
    ((m_ref m, gpi) :: List.concat (map fst outs),
     Ok (match found (m_others m) outs with [] => [] | _ => found (m_others m) outs ++ [(m_ref m, rf)] end)).
Proof. exact get_data_spec. Qed.
(* the only other possibility is an error of the reference or of one of the other datasets *)
Theorem C28_cases :
  forall reader period store oob unstable suffix (m : manager) (gpi : Z) (lon lat : Q),
    NoDup (m_ref m :: map d_name (m_others m)) ->
    (exists e, accept_read period (reader (m_ref m) gpi) = Err e /\
       snd (get_data reader period store oob unstable suffix m gpi lon lat) = Err e) \/
    accept_read period (reader (m_ref m) gpi) = Ok None \/
    (exists rf, accept_read period (reader (m_ref m) gpi) = Ok (Some rf) /\
       ((exists outs, Forall2 (chosen reader period store oob unstable suffix m gpi lon lat) (m_others m) outs) \/
        (exists d e, In d (m_others m) /\ snd (get_other reader period store oob unstable suffix m gpi lon lat d) = Err e /\
           snd (get_data reader period store oob unstable suffix m gpi lon lat) = Err e))).
Proof. exact get_data_cases. Qed.
Print Assumptions C28_no_reference.
Print Assumptions C28_reference_and_readable_others.
Print Assumptions C28_cases.

Definition ex_reader (name : string) (g : Z) : read_outcome :=
  if String.eqb name "ref" then RFrame (mkFrame ["x"%string] [(0, [Some 1%Q])])
  else if g =? 7 then RFrame (mkFrame ["y"%string] [(0, [Some 2%Q])])
  else RIOError.
Definition ex_manager : manager :=
  mkMan "ref" [mkDs "same" ["y"] true None (fun _ _ => (0, None));
               mkDs "lut" ["y"] false (Some (fun g => Ok (g + 4))) (fun _ _ => (0, None));
               mkDs "unmapped" ["y"] false (Some (fun _ => Ok (-1))) (fun _ _ => (0, None));
               mkDs "near" ["y"] false None (fun _ _ => (7, Some 3%Q));
               mkDs "far" ["y"] false None (fun _ _ => (7, None))]%string None.
Example C28_ex :
  get_data ex_reader None (fun c => c) 0 (fun _ _ => false) (fun _ => "0"%string) ex_manager 3 0%Q 0%Q =
  ([("ref", 3); ("same", 3); ("lut", 7); ("near", 7)]%string,
   Ok [("lut", mkFrame ["y"] [(0, [Some 2%Q])]); ("near", mkFrame ["y"] [(0, [Some 2%Q])]);
       ("ref", mkFrame ["x"] [(0, [Some 1%Q])])]%string) /\
  NoDup (m_ref ex_manager :: map d_name (m_others ex_manager)).
Proof. split; [vm_compute; reflexivity|]. repeat constructor; cbn; intuition discriminate. Qed.

(* ---- C43, C44 ---- *)
Theorem C43_no_station :
  forall reader period store oob unstable suffix p points columns name gpi pts outs,
    find (fun e => fst e =? gpi) points = Some (gpi, pts) ->
    map (fun g => accept_read period (reader name g)) pts = map Ok outs ->
    (List.concat (map opt_list outs) = [] ->
       get_upscaled_ts reader period store oob unstable suffix p points columns name gpi = (map (fun g => (name, g)) pts, Ok None)) /\
    (forall f, List.concat (map opt_list outs) = [f] ->
       get_upscaled_ts reader period store oob unstable suffix p points columns name gpi = (map (fun g => (name, g)) pts, Ok (Some f))).
Proof. exact upscaled_cases. Qed.
Theorem C43_point_without_stations :
  forall reader period store oob unstable suffix p points columns name gpi,
    (forall l, ~ In (gpi, l) points) ->
    get_upscaled_ts reader period store oob unstable suffix p points columns name gpi = ([], Ok None).
Proof. exact upscaled_no_entry. Qed.

(* Each upscaled value lies between two of the station values matched to its time stamp; it is
   missing only if these are all missing.  [rows] are the series of the target column of the
   stations, [mask] the stations kept by the time stability filter. *)
Theorem C43_upscaled_within_stations :
  forall reader period store oob unstable suffix p points column cols name gpi pts outs rows,
    u_method p = "average"%string ->
    find (fun e => fst e =? gpi) points = Some (gpi, pts) ->
    map (fun g => accept_read period (reader name g)) pts = map Ok outs ->
    let stations := List.concat (map opt_list outs) in
    (2 <= List.length stations)%nat -> (forall s, In s stations -> usable s) ->
    Forall2 (station_rows column) stations rows ->
    exists f mask, get_upscaled_ts reader period store oob unstable suffix p points (column :: cols) name gpi
        = (map (fun g => (name, g)) pts, Ok (Some f)) /\
      fcols f = [column] /\ NoDup (findex f) /\ List.length mask = List.length stations /\
      forall t r, In (t, r) (frows f) -> exists c cs, r = [c] /\
        Forall2 (fun s c => nearest_row s 1 t (u_window p) [c]) rows cs /\
        let used := if u_stability p then mask_select mask cs else cs in
        match c with
        | None => forall x, In x used -> x = None
        | Some v => exists lo hi, In (Some lo) used /\ In (Some hi) used /\ (lo <= v <= hi)%Q /\
                      (forall x, In (Some x) used -> (lo <= x <= hi)%Q)
        end.
Proof.
  intros reader period store oob unstable suffix p points column cols name gpi pts outs rows Um F H stations Len U SR.
  destruct (upscaled_spec reader period store oob unstable suffix p points column cols name gpi pts outs rows Um F H Len U SR)
    as (f & ref & mask & E & Cf & Nf & _ & Lm & If & Sf).
  exists f, mask. split; [exact E|]. split; [exact Cf|]. split; [exact Nf|]. split; [exact Lm|].
  intros t r Hr. apply If in Hr as (cs & Ht & Fc & K & ->). exists (nanmean (mask_select mask cs)), cs.
  split; [reflexivity|]. split; [exact Fc|]. cbv zeta. destruct (u_stability p) eqn:St.
  - apply nanmean_hull.
  - rewrite (Sf eq_refl t cs Ht Fc K). apply nanmean_hull.
Qed.

(* C44: the time axis is that of the first of the longest series; a time stamp is only left out
   if drop_missing is set and a station has no match. *)
Theorem C44_longest_series_is_axis :
  forall reader period store oob unstable suffix p points column cols name gpi pts outs rows,
    u_method p = "average"%string ->
    find (fun e => fst e =? gpi) points = Some (gpi, pts) ->
    map (fun g => accept_read period (reader name g)) pts = map Ok outs ->
    let stations := List.concat (map opt_list outs) in
    (2 <= List.length stations)%nat -> (forall s, In s stations -> usable s) ->
    Forall2 (station_rows column) stations rows ->
    exists f ref, get_upscaled_ts reader period store oob unstable suffix p points (column :: cols) name gpi
        = (map (fun g => (name, g)) pts, Ok (Some f)) /\
      first_longest rows ref /\
      forall t, In t (findex f) <-> In t (map fst ref) /\ exists cs,
         Forall2 (fun s c => nearest_row s 1 t (u_window p) [c]) rows cs /\
         (u_drop_missing p = true -> forall c, In c cs -> c <> None).
Proof.
  intros reader period store oob unstable suffix p points column cols name gpi pts outs rows Um F H stations Len U SR.
  destruct (upscaled_spec reader period store oob unstable suffix p points column cols name gpi pts outs rows Um F H Len U SR)
    as (f & ref & mask & E & Cf & Nf & Lf & Lm & If & Sf).
  exists f, ref. split; [exact E|]. split; [exact Lf|]. intros t. unfold findex. rewrite in_map_iff. split.
  - intros ([t' r] & <- & X). cbn [fst]. apply If in X as (cs & Ht & Fc & K & _). split; [exact Ht|]. exists cs. auto.
  - intros (Ht & cs & Fc & K). exists (t, [nanmean (mask_select mask cs)]). split; [reflexivity|]. apply If. exists cs. auto.
Qed.
Print Assumptions C43_no_station.
Print Assumptions C43_point_without_stations.
Print Assumptions C43_upscaled_within_stations.
Print Assumptions C44_longest_series_is_axis.

(* If the time stability filter rejects every station, the series is missing everywhere, although
   all stations have values. *)
Theorem C43_all_stations_unstable_refuted :
  exists reader unstable p points f,
    get_upscaled_ts reader None (fun c => c) 0 unstable (fun n => match n with O => "0" | _ => "1" end)%string
      p points ["sm"%string] "net" 3 = ([("net", 10); ("net", 11)]%string, Ok (Some f)) /\
    frows f = [(0, [None]); (5, [None])] /\
    (forall g, In g [10; 11] -> exists s, reader "net"%string g = RFrame s /\
       forall t r, In (t, r) (frows s) -> forall c, In c r -> c <> None).
Proof.
  exists (fun _ g => if g =? 10 then RFrame (mkFrame ["sm"%string] [(0, [Some 1%Q]); (5, [Some 2%Q])])
                     else RFrame (mkFrame ["sm"%string] [(0, [Some 9%Q]); (5, [Some 3%Q])])).
  exists (fun _ _ => true), (mkUp "average" true 1 false 2), [(3, [10; 11])].
  eexists. split; [vm_compute; reflexivity|]. split; [reflexivity|].
  intros g [<-|[<-|[]]]; eexists; (split; [reflexivity|]); intros t r [E|[E|[]]]; injection E as <- <-; intros c [<-|[]]; discriminate.
Qed.
Print Assumptions C43_all_stations_unstable_refuted.

Definition ex_up_reader (name : string) (g : Z) : read_outcome :=
  if g =? 10 then RFrame (mkFrame ["sm"%string] [(0, [Some 1%Q]); (5, [None]); (9, [Some 4%Q])])
  else if g =? 11 then RFrame (mkFrame ["q"; "sm"]%string [(0, [None; Some 3%Q]); (4, [None; Some 2%Q]); (10, [None; Some 6%Q])])
  else RIOError.
Example C43_ex : exists f,
  get_upscaled_ts ex_up_reader None (fun c => c) 0 (fun _ _ => false) (fun n => match n with O => "0" | _ => "1" end)%string
    (mkUp "average" false 1 false 4) [(3, [10; 11; 12])] ["sm"%string] "net" 3
    = ([("net", 10); ("net", 11); ("net", 12)]%string, Ok (Some f)) /\
  frows f = [(0, [Some (4 / 2)%Q]); (4, [Some (2 / 1)%Q]); (10, [Some (10 / 2)%Q])] /\
  map (fun g => accept_read None (ex_up_reader "net" g)) [10; 11; 12] =
  map Ok [Some (mkFrame ["sm"%string] [(0, [Some 1%Q]); (5, [None]); (9, [Some 4%Q])]);
          Some (mkFrame ["q"; "sm"]%string [(0, [None; Some 3%Q]); (4, [None; Some 2%Q]); (10, [None; Some 6%Q])]); None].
Proof. eexists. split; [vm_compute; reflexivity|]. split; vm_compute; reflexivity. Qed.
