(* Model of the calculators built on the data frame metrics: HSAF_Metrics, IntercomparisonMetrics and
   TCMetrics, /repo/src/pytesmo/validation_framework/metric_calculators.py 449-1297.

   Simplifications: column names do not contain "_and_" and are distinct, so that a pair or triple of columns
   is represented by the list of its names instead of the joined string that the code splits again; the
   metrics of two arrays and the scaling methods are Section variables; see CalcModel for the rest. *)
From Coq Require Import Reals Qreals List.
From Verif Require Import Base NamesModel GroupingModel RStats MetricsModel RollingModel TcolModel ConfintModel DfMetricsModel.
From Verif Require Import CalcModel.
Open Scope R_scope.
Open Scope list_scope.
Open Scope string_scope.

(* the frame as list of named columns, as df_metrics uses it *)
Definition table (f : frame) : DfMetricsModel.frame := combine (f_cols f) (map (col_at f) (seq 0 (List.length (f_cols f)))).
(* data[names] *)
Definition select (f : frame) (names : list string) : res frame :=
  mapR (fun cols => Frame names (map (fun ir => (fst (snd ir), map (fun c => nth (fst ir) c None) cols)) (combine (seq 0 (nrows f)) (f_rows f))))
       (seqR (map (column f) names)).

(* one dictionary of a data frame metric: column names to values *)
Notation metric_dict := (list (key * option (option R))).
Definition lookup_pair (d : metric_dict) (k : key) : res rcell :=
  match find (fun e => key_eqb (fst e) k) d with
  | Some (_, v) => Ok (RNum (obind v (fun x => x)))
  | None => Err EKey
  end.

(* ds_names_lut: 481-484, 732-735, 1001-1003 *)
Definition lut_get (lut : list (string * string)) (c : string) : res string :=
  match find (fun e => String.eqb (fst e) c) lut with Some (_, n) => Ok n | None => Err EKey end.
(* every combination of columns with the joined names of its datasets *)
Definition labels (lut : list (string * string)) (sep : string) (combs : list key) : res (list (key * string)) :=
  seqR (map (fun c => mapR (fun l => (c, String.concat sep l)) (seqR (map (lut_get lut) c))) combs).

(* df_columns, ds_names, the pairs and the triples with their labels, and the lookup table *)
Record layout := Layout { l_cols : list string; l_names : list string; l_lut : list (string * string); l_pairs : list (key * string); l_triples : list (key * string) }.

Section Pairs.
(* df_metrics.pearsonr, spearmanr, kendalltau, bias, ubrmsd, rmsd, mse_decomposition, RSS *)
Variables m_pearson m_spearman m_kendall m_bias m_ubrmsd m_rmsd m_mse m_rss : list (list cell) -> res (list (option R)).
(* scaling.scale(data, method="min_max") and "mean_std" *)
Variables scale_min_max scale_mean_std : frame -> res frame.
Variable min_obs : nat.
Variable meta : metadata.

(* a data frame metric with k results *)
Definition df_metric (m : list (list cell) -> res (list (option R))) (k : nat) (f : frame) : res (list metric_dict) :=
  bindR (nwise_apply m m (table f) 2 true MNone) (fun ds => if Nat.eqb (List.length ds) k then Ok ds else Err EValue).

(* the metrics of one pair *)
Definition pair_entries (named : list (string * metric_dict)) (p : key) : res (list (string * rcell)) :=
  seqR (map (fun nd => mapR (fun v => (fst nd, v)) (lookup_pair (snd nd) p)) named).

(* ---- HSAF_Metrics, metric_calculators.py 449-637 ---- *)
Definition seasons : list string := ["ALL"; "DJF"; "MAM"; "JJA"; "SON"].
Definition month_to_season : list string := [""; "DJF"; "DJF"; "MAM"; "MAM"; "MAM"; "JJA"; "JJA"; "JJA"; "SON"; "SON"; "SON"; "DJF"].

(* 456-491 *)
Definition hsaf_init (other1 other2 : string) (dataset_names : option (list string)) : res layout :=
  let cols := ["ref"; other1; other2] in
  let names := match dataset_names with None => cols | Some n => n end in
  let lut := combine cols names in
  mapR (fun pairs => Layout cols names lut pairs []) (labels lut "_" (combinations 2 cols)).

Definition sds_names : list string := ["snr"; "err_var"; "beta"].
Definition tds_names : list string := ["R"; "p_R"; "rho"; "p_rho"; "bias"; "ubrmsd"].
Definition n_key (season : string) : string := season ++ "_n_obs".
Definition s_key (name season metric : string) : string := name ++ "_" ++ season ++ "_" ++ metric.
(* 492-530 *)
Definition season_keys (lay : layout) (season : string) : list string :=
  (flat_map (fun name => map (s_key name season) sds_names) (l_names lay)
   ++ flat_map (fun p => map (s_key (snd p) season) tds_names) (l_pairs lay))%list.
Definition hsaf_template (lay : layout) : dataset :=
  ds_update (base_template meta)
    (flat_map (fun season => ([n_key season], int0) :: map (fun k => ([k], nan)) (season_keys lay season)) seasons).

(* 570-573 *)
Definition in_season (season : string) (r : frow) : bool :=
  if String.eqb season "ALL" then true
  else String.eqb (nth (Z.to_nat (dm (t_date (fst r)))) month_to_season "") season.
Definition season_mask (season : string) (f : frame) : list bool := map (in_season season) (f_rows f).
Definition true_count (m : list bool) : nat := List.length (filter (fun b => b) m).

(* 595-613, 615-621: these use all the data *)
Definition hsaf_tables (f : frame) : res (list (string * metric_dict)) :=
  bindR (df_metric m_pearson 2 f) (fun p =>
  bindR (df_metric m_spearman 2 f) (fun s =>
  bindR (scale_min_max f) (fun fs =>
  bindR (df_metric m_bias 1 fs) (fun b =>
  bindR (df_metric m_ubrmsd 1 fs) (fun u =>
  Ok (combine tds_names (p ++ s ++ b ++ u)%list)))))).

(* metrics.tcol_metrics(x, y, z) *)
Definition tcol_arrays (x y z : list cell) : res tc_result :=
  match tc_rows x y z with None => Ok tc_nan | Some rows => tcol_metrics rows 0 end.
Definition at_result (l : list (option R)) (i : nat) : res rcell :=
  match nth_error l i with Some v => Ok (RNum v) | None => Err EIndex end.
(* 590-593: snr[i], err[i], beta[i] of the i-th name *)
Definition sds_values (names : list string) (season : string) (t : tc_result) : res (list (key * rcell)) :=
  mapR (@List.concat _) (seqR (map (fun e =>
    seqR (map (fun jm => mapR (fun v => ([s_key (snd e) season (snd jm)], v)) (at_result (component (fst jm) t) (fst e)))
              (combine (seq 0 3) sds_names)))
    (combine (seq 0 (List.length names)) names))).

(* 578-634 *)
Definition hsaf_values (lay : layout) (season : string) (f : frame) : res (list (key * rcell)) :=
  let subset := season_mask season f in
  bindR (seqR (map (fun c => mapR (mask_select subset) (column f c)) (l_cols lay))) (fun xyz =>
  match xyz with
  | [x; y; z] =>
      bindR (tcol_arrays x y z) (fun t =>
      bindR (sds_values (l_names lay) season t) (fun sds =>
      bindR (hsaf_tables f) (fun named =>
      bindR (seqR (map (fun p => mapR (map (fun e => ([s_key (snd p) season (fst e)], snd e))) (pair_entries named (fst p))) (l_pairs lay))) (fun tds =>
      Ok (([n_key season], RInt (Z.of_nat (true_count subset))) :: sds ++ List.concat tds)%list))))
  | _ => Err EIndex
  end).

(* 566-634: the loop over the seasons *)
Fixpoint hsaf_loop (lay : layout) (f : frame) (d : dataset) (l : list string) : res dataset :=
  match l with
  | [] => Ok d
  | season :: r =>
      if Nat.ltb (true_count (season_mask season f)) min_obs then hsaf_loop lay f d r else
      bindR (hsaf_values lay season f) (fun v => bindR (assigns d v) (fun d => hsaf_loop lay f d r))
  end.
Definition hsaf_calc (lay : layout) (f : frame) (info : gpi_info) : res dataset :=
  bindR (meta_calc (hsaf_template lay) meta info) (fun d =>
  bindR (hsaf_loop lay f d seasons) (fun d => set_status d OK)).

(* ---- IntercomparisonMetrics, metric_calculators.py 640-927 ---- *)
Definition truthy (s : string) : bool := negb (String.eqb s "").
(* 692-756 *)
Definition intercomparison_init (refname : string) (others : list string) (between_nonref : bool) (dataset_names : option (list string)) : res layout :=
  let cols := refname :: others in
  let names := match dataset_names with None => cols | Some n => n end in
  let lut := combine cols names in
  let mi := if between_nonref then MNone else MOne refname in
  mapR (fun pairs => Layout cols names lut pairs []) (labels lut "_and_" (n_combinations String.eqb truthy cols 2 mi false)).

Definition pair_names : list string :=
  ["R"; "p_R"; "rho"; "p_rho"; "BIAS"; "RMSD"; "mse"; "RSS"; "mse_corr"; "mse_bias"; "urmsd"; "mse_var"; "tau"; "p_tau"].
Definition p_key (metric label : string) : string := metric ++ "_between_" ++ label.
(* 757-802: popping "rho" or "tau" has no effect, the keys are "rho_between_..." *)
Definition pair_template (lay : layout) : dataset :=
  ds_update (ds_update (base_template meta) (metric_template ["n_obs"]))
    (flat_map (fun p => map (fun m => ([p_key m (snd p)], nan)) pair_names) (l_pairs lay)).

(* 836-882: the metrics of the reordered data *)
Definition pair_tables (calc_rho calc_tau : bool) (f : frame) : res (list (string * metric_dict)) :=
  bindR (df_metric m_pearson 2 f) (fun r =>
  bindR (df_metric m_bias 1 f) (fun b =>
  bindR (df_metric m_rmsd 1 f) (fun q =>
  bindR (df_metric m_mse 4 f) (fun m =>
  bindR (df_metric m_rss 1 f) (fun s =>
  bindR (if calc_rho then df_metric m_spearman 2 f else Ok []) (fun rho =>
  bindR (if calc_tau then df_metric m_kendall 2 f else Ok []) (fun tau =>
  bindR (scale_mean_std f) (fun fs =>
  bindR (df_metric m_ubrmsd 1 fs) (fun u =>
  Ok (combine ["R"; "p_R"; "BIAS"; "RMSD"; "mse"; "mse_corr"; "mse_bias"; "mse_var"; "RSS"; "urmsd"] (r ++ b ++ q ++ m ++ s ++ u)
      ++ combine ["rho"; "p_rho"] rho ++ combine ["tau"; "p_tau"] tau)%list))))))))).
(* 884-924 *)
Definition pair_values (lay : layout) (named : list (string * metric_dict)) : res (list (key * rcell)) :=
  mapR (@List.concat _) (seqR (map (fun p => mapR (map (fun e => ([p_key (fst e) (snd p)], snd e))) (pair_entries named (fst p))) (l_pairs lay))).

(* 804-927 *)
Definition intercomparison_calc (lay : layout) (calc_rho calc_tau : bool) (f : frame) (info : gpi_info) : res dataset :=
  bindR (meta_calc (pair_template lay) meta info) (fun d =>
  bindR (set0 d ["n_obs"] (count f)) (fun d =>
  if Nat.ltb (nrows f) min_obs then set_status d INSUFFICIENT_DATA else
  bindR (select f (l_cols lay)) (fun data =>
  bindR (pair_tables calc_rho calc_tau data) (fun named =>
  bindR (pair_values lay named) (fun v =>
  bindR (assigns d v) (fun d => set_status d OK)))))).

(* ---- TCMetrics, metric_calculators.py 930-1297 ---- *)
(* 984-1017, 1080-1104: _make_names *)
Definition tcm_init (others : list string) (between_nonref : bool) (dataset_names : option (list string)) : res layout :=
  let cols := "ref" :: others in
  let names := match dataset_names with None => cols | Some n => n end in
  let lut := combine cols names in
  let mi := if between_nonref then MNone else MList ["ref"] in
  bindR (labels lut "_and_" (n_combinations String.eqb truthy cols 2 mi false)) (fun pairs =>
  mapR (fun triples => Layout cols names lut pairs triples)
       (labels lut "_and_" (n_combinations String.eqb truthy cols 3 (MList ["ref"]) false))).

Definition t_key (metric name label : string) : string := metric ++ "_" ++ name ++ "_between_" ++ label.
(* 1020-1078; a dataset of the triple is left out if it is the reference and tc_metrics_for_ref is False *)
Definition triple_template (lay : layout) (for_ref : bool) : res dataset :=
  bindR (seqR (map (lut_get (l_lut lay)) (filter (fun c => for_ref || negb (String.eqb c "ref")) (l_cols lay)))) (fun stored =>
  mapR (fun rows => List.concat rows) (seqR (map (fun t =>
    mapR (fun members => flat_map (fun m => flat_map (fun s => if existsb (String.eqb s) members then [([t_key m s (snd t)], nan)] else []) stored) tc_names)
         (seqR (map (lut_get (l_lut lay)) (fst t)))) (l_triples lay)))).
Definition tcm_template (lay : layout) (for_ref : bool) : res dataset :=
  mapR (fun t => ds_update (pair_template lay) t) (triple_template lay for_ref).

(* 1178-1181: the first column called "ref" *)
Definition ref_position (f : frame) : res nat :=
  match index_of (f_cols f) "ref" with Some i => Ok i | None => Err EIndex end.
(* 1106-1119: _tc_res_dict; a repeated triple keeps its position and gets the later values *)
Definition tc_res_dict (rs : list (list (string * option R))) : res (list (key * list (string * option R))) :=
  match rs with
  | [] => Err EIndex
  | _ => Ok (fold_left (fun d r => dict_set key_eqb d (map fst r) r) rs [])
  end.
Definition triple_get (d : list (key * list (string * option R))) (k : key) : res (list (string * option R)) :=
  match find (fun e => key_eqb (fst e) k) d with Some (_, r) => Ok r | None => Err EKey end.
(* 1188-1211: entries that are not part of the template are dropped *)
Definition triple_entries (lay : layout) (ds : list (string * list (key * list (string * option R)))) : res (list (key * rcell)) :=
  mapR (fun l => List.concat (List.concat l)) (seqR (map (fun t =>
    seqR (map (fun md => bindR (triple_get (snd md) (fst t)) (fun r =>
      seqR (map (fun cv => mapR (fun n => ([t_key (fst md) n (snd t)], RNum (snd cv))) (lut_get (l_lut lay) (fst cv))) r))) ds)) (l_triples lay))).
Fixpoint assign_known (d : dataset) (l : list (key * rcell)) : res dataset :=
  match l with
  | [] => Ok d
  | (k, v) :: r => match ds_get d k with
                   | Some _ => bindR (set0 d k v) (fun d' => assign_known d' r)
                   | None => assign_known d r
                   end
  end.

(* 1121-1297 *)
Definition tcm_calc (lay : layout) (template : dataset) (calc_tau : bool) (f : frame) (info : gpi_info) : res dataset :=
  bindR (meta_calc template meta info) (fun d =>
  bindR (set0 d ["n_obs"] (count f)) (fun d =>
  if Nat.ltb (nrows f) min_obs then set_status d INSUFFICIENT_DATA else
  bindR (pair_tables true calc_tau f) (fun named =>
  bindR (ref_position f) (fun ref =>
  bindR (df_tcol_metrics (table f) (Some ref)) (fun tc =>
  bindR (match tc with [snr; err; beta] => Ok (combine tc_names tc) | _ => Err EValue end) (fun ntc =>
  bindR (seqR (map (fun nd => mapR (fun d => (fst nd, d)) (tc_res_dict (snd nd))) ntc)) (fun ds =>
  bindR (triple_entries lay ds) (fun tv =>
  bindR (assign_known d tv) (fun d =>
  bindR (pair_values lay named) (fun v =>
  bindR (assigns d v) (fun d => set_status d OK))))))))))).
End Pairs.
