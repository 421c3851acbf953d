(* The anomaly adapters of src/pytesmo/validation_framework/adapters.py with the functions they call
   (AdaptersModel.v has them as parameters).  An index entry is a calendar date with its Julian date. *)
From Verif Require Export ClimModel AdaptersModel.
Open Scope Z_scope.

Definition stamp : Type := (date * Q)%type.
Definition obs_of (p : stamp * cell) : obs := mkObs (fst (fst p)) (snd (fst p)) (snd p).

(* adapters.py:369-378 AnomalyAdapter._adapt with calc_anomaly(data[column], window_size=...) (anomaly.py:89-93) *)
Definition moving_anomaly (window_size : Q) (s : list (stamp * cell)) : list cell :=
  map snd (calc_anomaly_ma (map (fun p => (snd (fst p), snd p)) s) window_size).
Definition anomaly_adapter_ma (window_size : Q) (columns : option (list string)) (data : option (tab stamp)) : res (tab stamp) :=
  anomaly_adapter (moving_anomaly window_size) columns data.

(* adapters.py:412-446 AnomalyClimAdapter: the keyword arguments go to calc_climatology only; calc_anomaly is called with
   its default respect_leap_years=True *)
Definition anomaly_clim_adapter_full (agg agg_std : list Q -> cell) (o : clim_opts) (span : option (option Q * option Q))
  (columns : option (list string)) (return_clim : bool) (data : option (tab stamp)) : res (tab stamp) :=
  let t := basic data in
  fold_left (fun acc n => bindR acc (fun t => bindR (column t n) (fun v =>
      let ser := map obs_of (series t v) in
      bindR (calc_climatology_span agg agg_std o span ser) (fun clim =>
      let anom := calc_anomaly_frame default_anomaly_respect clim ser in
      Ok (if return_clim then assign (assign t n (map a_anomaly anom)) (n ++ "_climatology")%string (map a_clim anom)
          else assign t n (map a_anomaly anom))))))
    (match columns with None => tcols t | Some l => l end) (Ok t).
