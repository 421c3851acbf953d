(* Model of the metric calculators: /repo/src/pytesmo/validation_framework/metric_calculators.py.

   Simplifications: a python dictionary key is the list of its strings (one string, or a tuple of
   strings); the storage types np.int32/np.float32 of the results do not round; the data frame has
   distinct column names and rational (floating point) values; scipy's correlation functions, the
   rolling metrics and the random draws of the bootstrap are Section variables. *)
From Coq Require Import Reals Qreals List.
From Verif Require Import Base GroupingModel RStats MetricsModel RollingModel TcolModel ConfintModel.
Open Scope R_scope.
Open Scope list_scope.
Open Scope string_scope.

(* ---- result dictionaries ---- *)

Notation key := (list string).
Inductive rcell := RInt (z : Z) | RNum (v : option R) | RText (s : string) | RTime (t : ts).
(* a numpy array of one dimension, of two dimensions, or a plain number *)
Inductive value := Arr (l : list rcell) | Rows (l : list (list rcell)) | Scalar (c : rcell).
Notation dataset := (list (key * value)).

Definition k_eqb (a b : key) : bool := if list_eq_dec string_dec a b then true else false.
Definition ds_get (d : dataset) (k : key) : option value := option_map snd (find (fun e => k_eqb (fst e) k) d).
Definition ds_set (d : dataset) (k : key) (v : value) : dataset := dict_set k_eqb d k v.
(* dict.update *)
Definition ds_update (d e : dataset) : dataset := fold_left (fun d kv => ds_set d (fst kv) (snd kv)) e d.

(* dataset[key][0] = v *)
Definition set0 (d : dataset) (k : key) (v : rcell) : res dataset :=
  match ds_get d k with
  | None => Err EKey
  | Some (Arr (_ :: r)) => Ok (ds_set d k (Arr (v :: r)))
  | Some (Arr []) => Err EIndex
  | Some _ => Err EType
  end.
Fixpoint assigns (d : dataset) (l : list (key * rcell)) : res dataset :=
  match l with
  | [] => Ok d
  | (k, v) :: r => bindR (set0 d k v) (fun d' => assigns d' r)
  end.

Definition nan : value := Arr [RNum None].
Definition int0 : value := Arr [RInt 0].

(* error_handling.py 11, 13, 16, 19 *)
Definition UNCAUGHT : Z := (-1)%Z.
Definition OK : Z := 0%Z.
Definition INSUFFICIENT_DATA : Z := 1%Z.
Definition METRICS_CALCULATION_FAILED : Z := 2%Z.

(* ---- data ---- *)

Record frame := Frame { f_cols : list string; f_rows : list frow }.
Definition nrows (f : frame) : nat := List.length (f_rows f).
Fixpoint index_of (l : list string) (s : string) : option nat :=
  match l with [] => None | x :: r => if String.eqb x s then Some 0%nat else option_map S (index_of r s) end.
Definition col_at (f : frame) (i : nat) : list cell := map (fun r => nth i (snd r) None) (f_rows f).
(* data[name].values *)
Definition column (f : frame) (name : string) : res (list cell) :=
  match index_of (f_cols f) name with Some i => Ok (col_at f i) | None => Err EKey end.
(* data_matrix[:, i] *)
Definition column_at (f : frame) (i : nat) : res (list cell) :=
  if Nat.ltb i (List.length (f_cols f)) then Ok (col_at f i) else Err EIndex.
(* DataFrame.dropna() *)
Definition dropna (f : frame) : frame := Frame (f_cols f) (filter (fun r => forallb notna (snd r)) (f_rows f)).

(* two columns as pairs of real numbers if no value is missing *)
Definition rcol (l : list cell) : list (option R) := map (omap Q2R) l.
Definition complete (x y : list cell) : option pairs :=
  obind (all_some (rcol x)) (fun u => omap (fun v => combine u v) (all_some (rcol y))).
(* a metric of two arrays: one missing value makes it NaN *)
Definition on_pairs (f : pairs -> option R) (x y : list cell) : option R := obind (complete x y) f.

(* (gpi, lon, lat[, metadata]) *)
Record gpi_info := Info { i_gpi : Z; i_lon : R; i_lat : R; i_meta : option (list (string * rcell)) }.
Definition meta_get (m : list (string * rcell)) (k : string) : option rcell :=
  option_map snd (find (fun e => String.eqb (fst e) k) m).

(* ---- _get_metric_template, metric_calculators.py 95-151: every metric starts as NaN, n_obs as 0 ---- *)
Definition metric_template (names : list string) : dataset :=
  map (fun m => ([m], if String.eqb m "n_obs" then int0 else nan)) names.

(* ---- MetadataMetrics, metric_calculators.py 154-223 ---- *)

(* 176-190: the template of the base class; metadata are (field, initial value) *)
Notation metadata := (option (list (string * rcell))).
Definition base_template (meta : metadata) : dataset :=
  let t := [(["gpi"], Arr [RInt (-1)]); (["lon"], nan); (["lat"], nan); (["status"], Arr [RInt UNCAUGHT])] in
  match meta with
  | None => t
  | Some m => ds_update t (map (fun e => ([fst e], Arr [snd e])) m)
  end.

(* 212-220: one metadata field: no fourth entry in gpi_info gives an exception, a missing field KeyError *)
Definition meta_step (info : gpi_info) (d : dataset) (field : string) : res dataset :=
  match i_meta info with
  | None => Err EOther
  | Some m => match meta_get m field with Some v => set0 d [field] v | None => Err EKey end
  end.
Fixpoint meta_steps (info : gpi_info) (d : dataset) (fields : list string) : res dataset :=
  match fields with
  | [] => Ok d
  | k :: r => bindR (meta_step info d k) (fun d' => meta_steps info d' r)
  end.
(* 192-223: calc_metrics *)
Definition meta_calc (template : dataset) (meta : metadata) (info : gpi_info) : res dataset :=
  bindR (assigns template [(["gpi"], RInt (i_gpi info)); (["lon"], RNum (Some (i_lon info))); (["lat"], RNum (Some (i_lat info)))])
    (fun d => match meta with None => Ok d | Some m => meta_steps info d (map fst m) end).

Definition set_status (d : dataset) (s : Z) : res dataset := set0 d ["status"] (RInt s).
Definition count (f : frame) : rcell := RInt (Z.of_nat (nrows f)).

Section Calculators.
(* scipy.stats.pearsonr, spearmanr and kendalltau: (statistic, p-value) *)
Variables sp_pearson sp_spearman sp_kendall : list cell -> list cell -> option R * option R.
(* the minimal number of observations *)
Variable min_obs : nat.
Variable meta : metadata.

(* ---- BasicMetrics, metric_calculators.py 226-324 ---- *)
Definition basic_names : list string := ["n_obs"; "R"; "p_R"; "rho"; "p_rho"; "RMSD"; "BIAS"; "tau"; "p_tau"].
Definition basic_template : dataset := ds_update (base_template meta) (metric_template basic_names).

(* 305-319 *)
Definition basic_values (calc_tau : bool) (f : frame) (x y : list cell) : list (key * rcell) :=
  [(["R"], RNum (fst (sp_pearson x y))); (["p_R"], RNum (snd (sp_pearson x y)));
   (["rho"], RNum (fst (sp_spearman x y))); (["p_rho"], RNum (snd (sp_spearman x y)));
   (["RMSD"], RNum (on_pairs (fun d => rmsd d 0) x y)); (["BIAS"], RNum (on_pairs bias x y));
   (["n_obs"], count f)]
  ++ (if calc_tau then [(["tau"], RNum (fst (sp_kendall x y))); (["p_tau"], RNum (snd (sp_kendall x y)))] else []).

Definition basic_on (template : dataset) (other_name : string) (calc_tau : bool) (f : frame) (info : gpi_info) : res dataset :=
  bindR (meta_calc template meta info) (fun d =>
  if Nat.ltb (nrows f) min_obs then set_status d INSUFFICIENT_DATA else
  bindR (column f "ref") (fun x => bindR (column f other_name) (fun y =>
  bindR (assigns d (basic_values calc_tau f x y)) (fun d =>
  set_status d OK)))).
Definition basic_calc := basic_on basic_template.

(* ---- BasicMetricsPlusMSE, metric_calculators.py 327-357 ---- *)
Definition mse_names : list string := ["mse"; "mse_corr"; "mse_bias"; "mse_var"].
Definition plus_mse_template : dataset := ds_update basic_template (metric_template mse_names).
Definition mse_values (x y : list cell) : list (key * rcell) :=
  let m := obind (complete x y) mse_decomposition in
  [(["mse"], RNum (omap (fun q => fst (fst (fst q))) m)); (["mse_corr"], RNum (omap (fun q => snd (fst (fst q))) m));
   (["mse_bias"], RNum (omap (fun q => snd (fst q)) m)); (["mse_var"], RNum (omap snd m))].
Definition plus_mse_calc (other_name : string) (f : frame) (info : gpi_info) : res dataset :=
  bindR (basic_on plus_mse_template other_name false f info) (fun d =>
  bindR (set_status d UNCAUGHT) (fun d =>
  if Nat.ltb (nrows f) min_obs then set_status d INSUFFICIENT_DATA else
  bindR (column f "ref") (fun x => bindR (column f other_name) (fun y =>
  bindR (assigns d (mse_values x y)) (fun d => set_status d OK))))).

(* ---- FTMetrics, metric_calculators.py 360-446 ---- *)
Definition ft_template : dataset :=
  ds_update (base_template meta)
    [(["ssf_fr_temp_un"], nan); (["ssf_fr_temp_fr"], nan); (["ssf_un_temp_fr"], nan); (["ssf_un_temp_un"], nan); (["n_obs"], int0)].
(* np.where(cond)[0]: the positions; a[positions] *)
Fixpoint where_from (i : nat) (l : list bool) : list nat :=
  match l with [] => [] | b :: r => (if b then [i] else []) ++ where_from (S i) r end.
Definition np_where := where_from 0.
Definition at_positions (l : list cell) (p : list nat) : list cell := map (fun i => nth i l None) p.
(* comparisons with NaN are False, except != *)
Definition c_eqb (flag : Q) (c : cell) : bool := match c with Some q => Qeq_bool q flag | None => false end.
Definition c_neg (c : cell) : bool := match c with Some q => negb (Qle_bool 0 q) | None => false end.
Definition c_nonneg (c : cell) : bool := match c with Some q => Qle_bool 0 q | None => false end.
(* 418-443 *)
Definition ft_values (flag : Q) (f : frame) (ssf temp : list cell) : list (key * rcell) :=
  let ssf_frozen := np_where (map (c_eqb flag) ssf) in
  let ssf_unfrozen := np_where (map (fun c => negb (c_eqb flag c)) ssf) in
  let temp_ssf_frozen := at_positions temp ssf_frozen in
  let temp_ssf_unfrozen := at_positions temp ssf_unfrozen in
  let size (cond : cell -> bool) l := RNum (Some (INR (List.length (np_where (map cond l))))) in
  [(["ssf_fr_temp_un"], size c_nonneg temp_ssf_frozen); (["ssf_fr_temp_fr"], size c_neg temp_ssf_frozen);
   (["ssf_un_temp_fr"], size c_neg temp_ssf_unfrozen); (["ssf_un_temp_un"], size c_nonneg temp_ssf_unfrozen);
   (["n_obs"], count f)].
Definition ft_calc (flag : Q) (other_name : string) (f : frame) (info : gpi_info) : res dataset :=
  bindR (meta_calc ft_template meta info) (fun d =>
  if Nat.ltb (nrows f) min_obs then set_status d INSUFFICIENT_DATA else
  bindR (column f "ref") (fun ssf => bindR (column f other_name) (fun temp =>
  bindR (assigns d (ft_values flag f ssf temp)) (fun d => set_status d OK)))).

(* ---- RollingMetrics, metric_calculators.py 1300-1376 ---- *)
(* metrics.rolling_pr_rmsd of two columns; RollingModel describes it for complete data *)
Variable rolling : list ts -> list cell -> list cell -> list rout.
Definition rolling_template : dataset := ds_update (base_template meta) (metric_template ["R"; "p_R"; "RMSD"]).
Definition rolling_calc (f : frame) (info : gpi_info) : res dataset :=
  bindR (meta_calc rolling_template meta info) (fun d =>
  if Nat.ltb (nrows f) min_obs then set_status d INSUFFICIENT_DATA else
  bindR (column_at f 0) (fun x => bindR (column_at f 1) (fun y =>
  let idx := map fst (f_rows f) in
  let out := rolling idx x y in
  set_status
    (ds_set (ds_set (ds_set (ds_set d ["time"] (Rows [map RTime idx]))
      ["R"] (Rows [map (fun o => RNum (omap fst (fst o))) out]))
      ["p_R"] (Rows [map (fun o => RNum (omap snd (fst o))) out]))
      ["RMSD"] (Rows [map (fun o => RNum (snd o)) out])) OK))).

(* ---- PairwiseMetricsMixin and PairwiseIntercomparisonMetrics, metric_calculators.py 1415-1671 ---- *)
Variable betainc : R -> R -> R -> R.
Variable norm_ppf : R -> R.
Variables t_ppf chi2_ppf : R -> nat -> R.
Variable ppf : R -> option R.
Variable cdf : R -> R.
(* the draws of np.random.choice while the interval of a metric is bootstrapped *)
Variable draws : string -> list (list nat).

Record options := Options
  { o_spearman : bool; o_kendall : bool; o_analytical : bool; o_bootstrap : bool; o_boot_min : nat; o_alpha : R }.

(* 1416-1459 *)
Definition ci_names (m : string) : list string := [m ++ "_ci_lower"; m ++ "_ci_upper"].
Definition pairwise_names (o : options) : list string :=
  (["R"; "p_R"; "BIAS"; "RMSD"; "mse"; "RSS"; "mse_corr"; "mse_bias"; "urmsd"; "mse_var"]
   ++ (if o_spearman o then ["rho"; "p_rho"] else [])
   ++ (if o_kendall o then ["tau"; "p_tau"] else [])
   ++ (if o_analytical o then
         ci_names "BIAS" ++ ci_names "urmsd" ++ ci_names "R"
         ++ (if o_spearman o then ci_names "rho" else [])
         ++ (if o_kendall o then ci_names "tau" else [])
       else [])
   ++ (if o_bootstrap o then
         ci_names "mse_var" ++ ci_names "mse_corr" ++ ci_names "mse_bias" ++ ci_names "RMSD" ++ ci_names "mse"
         ++ ci_names "RSS"
       else []))%list.
Definition pairwise_template (o : options) : dataset :=
  ds_update (base_template meta) (metric_template (pairwise_names o ++ ["n_obs"])%list).

(* python's max(v, 0): a NaN first argument is kept *)
Definition max0 (v : option R) : option R := omap (fun v => Rmax v 0) v.
Definition ci_pair (m : string) (ci : option R * option R) : list (key * rcell) :=
  [([m ++ "_ci_lower"], RNum (fst ci)); ([m ++ "_ci_upper"], RNum (snd ci))].
Definition split_ci (ci : option (R * R)) : option R * option R := (omap fst ci, omap snd ci).

(* 1482-1532: the metrics and the analytical intervals; intervals of a NaN estimate are NaN *)
Definition ci_of (est : option R) (ci : R -> option R * option R) : option R * option R :=
  match est with Some v => ci v | None => (None, None) end.
Definition pairwise_values (o : options) (x y : list cell) : list (key * rcell) :=
  let d := match complete x y with Some d => d | None => [] end in
  let n := List.length x in
  let m := moments_welford d in
  let corr := omap mse_corr_from_moments m in
  let var := omap mse_var_from_moments m in
  let bias2 := omap mse_bias_from_moments m in
  let mse := max0 (obind corr (fun c => obind var (fun v => omap (fun b => c + v + b) bias2))) in
  let urmsd := obind mse (fun s => obind bias2 (fun b => np_sqrt (s - b))) in
  let r := pearson_of betainc d in
  ([(["BIAS"], RNum (omap (fun m => m_x m - m_y m) m));
    (["mse_corr"], RNum corr); (["mse_var"], RNum var); (["mse_bias"], RNum bias2); (["mse"], RNum mse);
    (["RSS"], RNum (omap (fun s => s * INR n) mse)); (["RMSD"], RNum (obind mse np_sqrt)); (["urmsd"], RNum urmsd);
    (["R"], RNum (omap fst r)); (["p_R"], RNum (omap snd r))]
   ++ (if o_spearman o then [(["rho"], RNum (fst (sp_spearman x y))); (["p_rho"], RNum (snd (sp_spearman x y)))] else [])
   ++ (if o_kendall o then [(["tau"], RNum (fst (sp_kendall x y))); (["p_tau"], RNum (snd (sp_kendall x y)))] else [])
   ++ (if o_analytical o then
         ci_pair "BIAS" (split_ci (obind m (fun m => bias_ci_from_moments t_ppf (1 / 20) m n)))
         ++ ci_pair "urmsd" (ci_of urmsd (fun u => ubrmsd_ci chi2_ppf n u (1 / 20)))
         ++ ci_pair "R" (ci_of (omap fst r) (fun v => pearson_r_ci norm_ppf n v (1 / 20)))
         ++ (if o_spearman o then ci_pair "rho" (ci_of (fst (sp_spearman x y)) (fun v => spearman_r_ci norm_ppf n v (1 / 20))) else [])
         ++ (if o_kendall o then ci_pair "tau" (ci_of (fst (sp_kendall x y)) (fun v => kendall_tau_ci norm_ppf n v (1 / 20))) else [])
       else []))%list.

(* 1534-1554: the bootstrapped intervals; too few observations raise *)
Definition boot_metric (m : string) (x y : list R) : option R :=
  let d := combine x y in
  if String.eqb m "mse" then msd d else if String.eqb m "RMSD" then rmsd d 0
  else if String.eqb m "mse_var" then mse_var d else if String.eqb m "mse_corr" then mse_corr d else mse_bias d.
Definition boot_names : list string := ["mse_var"; "mse_corr"; "mse_bias"; "mse"; "RMSD"].
Fixpoint boot_values (o : options) (x y : list R) (names : list string) : res (list (key * rcell)) :=
  match names with
  | [] => Ok []
  | m :: r => bindR (with_bootstrapped_ci ppf cdf (fun v => v) (boot_metric m) x y (o_alpha o) "percentile" (o_boot_min o) (draws m))
                (fun t => mapR (fun l => ci_pair m (snd (fst t), snd t) ++ l)%list (boot_values o x y r))
  end.

(* 1640-1671 *)
Definition pairwise_calc (o : options) (f : frame) (info : gpi_info) : res dataset :=
  bindR (meta_calc (pairwise_template o) meta info) (fun d =>
  let f := dropna f in
  bindR (set0 d ["n_obs"] (count f)) (fun d =>
  if Nat.ltb (nrows f) min_obs then set_status d INSUFFICIENT_DATA else
  bindR (column_at f 0) (fun x => bindR (column_at f 1) (fun y =>
  bindR (assigns d (pairwise_values o x y)) (fun d =>
  bindR (if o_bootstrap o then boot_values o (map Q2R (vals x)) (map Q2R (vals y)) boot_names else Ok []) (fun b =>
  bindR (assigns d b) (fun d => set_status d OK))))))).

(* ---- TripleCollocationMetrics, metric_calculators.py 1674-1813 ---- *)
(* 1736-1754 *)
Definition tc_names : list string := ["snr"; "err_std"; "beta"].
Definition tc_template (boot : bool) (names : list string) : dataset :=
  (flat_map (fun m => map (fun d => ([m; d], nan)) names) tc_names
   ++ (if boot then flat_map (fun m => flat_map (fun d => [([(m ++ "_ci_lower")%string; d], nan); ([(m ++ "_ci_upper")%string; d], nan)]) names) tc_names
       else []))%list.
(* list.remove: the first occurrence; ValueError if there is none *)
Fixpoint remove_first (s : string) (l : list string) : option (list string) :=
  match l with [] => None | x :: r => if String.eqb x s then Some r else option_map (cons x) (remove_first s r) end.
(* three columns as rows; a missing value makes the covariances NaN *)
Definition tc_rows (x y z : list cell) : option (list (nat -> R)) :=
  obind (all_some (rcol x)) (fun u => obind (all_some (rcol y)) (fun v => omap (fun w =>
    map (fun p => fun i : nat => match i with 0%nat => fst (fst p) | 1%nat => snd (fst p) | _ => snd p end) (combine (combine u v) w))
    (all_some (rcol z)))).
Definition tc_nan : tc_result := ([None; None; None], [None; None; None], [Some 1; None; None]).
Definition tc_values (names : list string) (t : tc_result) : list (key * rcell) :=
  flat_map (fun e => map (fun jm => ([snd jm; snd e], RNum (nth (fst e) (component (fst jm) t) None))) (combine (seq 0 3) tc_names))
           (combine (seq 0 (List.length names)) names).
Definition tc_boot_values (names : list string) (r : list (list (option R) * list (option R * option R))) : list (key * rcell) :=
  flat_map (fun e => flat_map (fun jm =>
      let part := nth (fst jm) r ([], []) in
      let ci := nth (fst e) (snd part) (None, None) in
      [([snd jm; snd e], RNum (nth (fst e) (fst part) None));
       ([snd jm ++ "_ci_lower"; snd e], RNum (fst ci)); ([snd jm ++ "_ci_upper"; snd e], RNum (snd ci))])
    (combine (seq 0 3) tc_names)) (combine (seq 0 (List.length names)) names).

(* 1756-1813; ValueError of the calculation is caught and replaces the status array by a number *)
Definition tc_calc (refname : string) (boot : bool) (o : options) (f : frame) (info : gpi_info) : res dataset :=
  bindR (meta_calc (ds_update (base_template meta) (metric_template ["n_obs"])) meta info) (fun d =>
  bindR (set0 d ["n_obs"] (count f)) (fun d =>
  match remove_first refname (f_cols f) with
  | None => Err EValue
  | Some others =>
      let names := refname :: others in
      let d := ds_update d (tc_template boot names) in
      if Nat.ltb (nrows f) min_obs then set_status d INSUFFICIENT_DATA else
      bindR (seqR (map (column f) names)) (fun arrays =>
      match arrays with
      | [x; y; z] =>
          let failed := Ok (ds_set d ["status"] (Scalar (RInt METRICS_CALCULATION_FAILED))) in
          if boot then
            match tc_rows x y z with
            | None => Err EOther (* bootstrapping data with missing values is not modelled *)
            | Some rows =>
                match tcol_with_bootstrapped_ci ppf cdf rows 0 (o_alpha o) "percentile" (None, None) (o_boot_min o) (draws "tcol") with
                | Ok r => bindR (assigns d (tc_boot_values names r)) (fun d => set_status d OK)
                | Err EValue => failed
                | Err e => Err e
                end
            end
          else
            match (match tc_rows x y z with None => Ok tc_nan | Some rows => tcol_metrics rows 0 end) with
            | Ok t => bindR (assigns d (tc_values names t)) (fun d => set_status d OK)
            | Err EValue => failed
            | Err e => Err e
            end
      | _ => Err EType
      end)
  end)).
End Calculators.
