(* The deprecated confidence interval of the correlation for all numbers of observations (C56). *)
From Coq Require Import Reals List Lra Lia.
From Verif Require Import Base RStats MetricsModel ConfintModel ConfintProofs ConfintProps.
Open Scope R_scope.

Theorem C56_deprecated_pearson_conf_all norm_ppf r n c : pearson_conf norm_ppf r n c = pearson_r_ci norm_ppf n r (1 - c / 100).
Proof.
  unfold pearson_conf, pearson_r_ci, fisher_ci. set (q := norm_ppf _).
  assert (E : match over_sqrt 1 n with
              | Fin e => Fin (e * q)
              | NaN => NaN
              | PInf => if Rlt_dec 0 q then PInf else if Rlt_dec q 0 then NInf else NaN
              | NInf => if Rlt_dec 0 q then NInf else if Rlt_dec q 0 then PInf else NaN
              end = over_sqrt q n).
  { unfold over_sqrt. destruct (np_sqrt (INR n - 3)) as [s|]; [|reflexivity]. unfold e_div. destruct (Req_EM_T s 0) as [Z|N].
    - destruct (Rlt_dec 0 1) as [_|C]; [reflexivity|exfalso; lra].
    - f_equal. field. exact N. }
  rewrite E. reflexivity.
Qed.
Example C56_ex_deprecated_three : pearson_conf (fun _ => 2) (1/2) 3 95 = (Some (-1), Some 1).
Proof. rewrite C56_deprecated_pearson_conf_all. refine (proj1 (C56_few_observations (fun _ => 2) (1/2) (1 - 95/100) _ _)); lra. Qed.
Print Assumptions C56_deprecated_pearson_conf_all.
