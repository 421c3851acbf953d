(* cdf_matching.py for a source with an integer data type: the tables and the prediction are arrays
   of the type of the source (cdf_matching.py:131-136, 142), so every number stored in them is
   truncated towards zero, and NaN becomes an integer [filler] that depends on the platform. *)
From Verif Require Export CdfModel.
Open Scope Z_scope.

Definition int_cell (filler : Z) (c : cell) : cell :=
  Some (inject_Z (match c with Some q => Z.quot (Qnum q) (Zpos (Qden q)) | None => filler end)).
(* cdf_matching.py:131-136 *)
Definition cdf_fit_int (filler : Z) (o : cdf_opts) (X : list Z) (Y : list cell) : res cdf_table :=
  mapR (fun t => mkTable (map (int_cell filler) (x_perc t)) (map (int_cell filler) (y_perc t)))
       (cdf_fit o (map (fun z => Some (inject_Z z)) X) Y).
(* cdf_matching.py:139-158; np.isnan is false for integers *)
Definition cdf_predict_int (filler : Z) (t : cdf_table) (X : list Z) : list cell :=
  map (int_cell filler) (cdf_predict t (map (fun z => Some (inject_Z z)) X)).
