(* Model of scaling.py mean_std over the reals; missing (NaN) is None. *)
From Verif Require Export RStats.

(* scaling.py:233-250 mean_std: a zero divisor (constant source) gives NaN everywhere *)
Definition mean_std (src ref : list R) : list (option R) :=
  if Req_EM_T (std src) 0 then map (fun _ => None) src
  else map (fun v => Some ((v - rmean src) / std src * std ref + rmean ref)) src.
