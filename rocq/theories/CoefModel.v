(** The statistics of one cell and the variables that carry them in the files: StatInterface/generateStats.py:217-250
    (calculate), 400-483 (save) and TrackGenerator/TrackGenerator.py:1258-1636 (dumpAllCellCoefficients). Numbers are
    reals; the sample of a cell (extractParameter) is an argument. The placing of the cells on the map is in
    StoreModel.v; here is one cell. *)
From Coq Require Import Reals List String.
From Verif Require Import CircleModel WindModel SeriesModel.
Import ListNotations.
Open Scope R_scope.

(** Python's [min] of a sample that is not empty *)
Definition minR (l : list R) : R := match l with [] => 0 | a :: r => fold_right Rmin a r end.
(** numpy's [std]: population standard deviation *)
Definition std (l : list R) : R := sqrt (mean (map (fun x => (x - mean l) ^ 2) l)).
Record cstats := { c_mu : R; c_sig : R; c_alpha : R; c_phi : R; c_min : R }.
(** generateStats.py:231-250 *)
Definition calculate (angular : bool) (p : list R) : cstats :=
  let rad := map (fun x => x * (PI / 180)) p in
  {| c_mu := if angular then circmean rad else mean p; c_sig := if angular then circstd rad else std p;
     c_alpha := alphaOf p; c_phi := phiOf p; c_min := minR p |}.

(** A variable: name, value at the cell, units *)
Definition var := (string * (R * string))%type.
Fixpoint look (n : string) (vs : list var) : option (R * string) :=
  match vs with [] => None | (m, x) :: r => if String.eqb n m then Some x else look n r end.

Open Scope string_scope.
(** generateStats.py:425-476 for the statistics [o] over the sea and [l] over land, for every parameter *)
Definition saved (o l : cstats) : list var :=
  [("mu", (c_mu o, "m/s")); ("alpha", (c_alpha o, "")); ("sig", (c_sig o, "m/s")); ("min", (c_min o, "m/s"));
   ("lmu", (c_mu l, "m/s")); ("lalpha", (c_alpha l, "")); ("lsig", (c_sig l, "m/s")); ("lmin", (c_min l, "m/s"));
   ("phi", (c_phi o, "")); ("lphi", (c_phi l, ""))].
(** The eight variables of one parameter, TrackGenerator.py:1295-1630 *)
Definition dumped1 (pre units : string) (o l : cstats) : list var :=
  [(pre ++ "mu", (c_mu o, units)); (pre ++ "alpha", (c_alpha o, "")); (pre ++ "sig", (c_sig o, units)); (pre ++ "min", (c_min o, units));
   (pre ++ "lmu", (c_mu l, units)); (pre ++ "lalpha", (c_alpha l, "")); (pre ++ "lsig", (c_sig l, units)); (pre ++ "lmin", (c_min l, units))].
(** The samples of the four parameters over the sea and over land, and TrackGenerator.py:1295-1636. The statistics
    come from the files that StatInterface.py:203-280 writes, of the bearing with [angular]. *)
Record samples := { s_speed : list R; s_bearing : list R; s_pressure : list R; s_rate : list R }.
Definition dumped (o l : samples) : list var :=
  (dumped1 "v" "km/h" (calculate false (s_speed o)) (calculate false (s_speed l)) ++
   dumped1 "b" "degrees" (calculate true (s_bearing o)) (calculate true (s_bearing l)) ++
   dumped1 "p" "hPa" (calculate false (s_pressure o)) (calculate false (s_pressure l)) ++
   dumped1 "dp" "hPa/h" (calculate false (s_rate o)) (calculate false (s_rate l)))%list.
