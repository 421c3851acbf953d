(* What the calculators of several datasets promise. *)
From Coq Require Import Reals Qreals List.
From Verif Require Import Base Calendar GroupingModel DfMetricsModel CalcModel.
Open Scope string_scope.

(* the seasons: December to February, March to May, June to August, September to November *)
Definition season_months (s : string) : list Z :=
  (if String.eqb s "DJF" then [12; 1; 2]
   else if String.eqb s "MAM" then [3; 4; 5]
   else if String.eqb s "JJA" then [6; 7; 8]
   else if String.eqb s "SON" then [9; 10; 11]
   else if String.eqb s "ALL" then [1; 2; 3; 4; 5; 6; 7; 8; 9; 10; 11; 12]
   else [])%Z.
(* the observations of a season *)
Definition season_data (s : string) (f : frame) : frame :=
  Frame (f_cols f) (filter (fun r => existsb (Z.eqb (dm (t_date (fst r)))) (season_months s)) (f_rows f)).
(* the index consists of dates *)
Definition dated (f : frame) : Prop := forall r, In r (f_rows f) -> (1 <= dm (t_date (fst r)) <= 12)%Z.
