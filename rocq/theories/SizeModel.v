(** Radius to maximum winds (TrackGenerator/trackSize.py): the formula used for generated tracks and its fit to
    observations.  Real arithmetic. *)
From Coq Require Import List Reals.
From Verif Require Import SeriesModel.
Import ListNotations.
Local Open Scope R_scope.

(** 21-55 rmax for scalars; [coeffs] of a wrong length are replaced by the default ones *)
Definition defaults : list R := [422 / 100; - (198 / 10000); 23 / 10000].
Definition rmax (dp lat eps : R) (coeffs : list R) : R :=
  let c := if Nat.eq_dec (length coeffs) 3 then coeffs else defaults in
  exp (nth 0 c 0 + nth 1 c 0 * dp + nth 2 c 0 * Rabs lat + eps).

(** 57-94 fitRmax.  An observation: radius, pressure deficit, latitude. *)
Record obs := { o_rmw : R; o_dp : R; o_lat : R }.
Definition col1 (o : obs) : R := o_dp o.
Definition col2 (o : obs) : R := Rabs (o_lat o).
Definition resp (o : obs) : R := ln (o_rmw o).
Definition dotp (f g : obs -> R) (l : list obs) : R := sumR (map (fun o => f o * g o) l).
(** sm.OLS(y, X).fit() for two columns and no constant: the solution of the normal equations.  [None]: dependent
    columns (statsmodels then returns the shortest solution, which is not modelled). *)
Definition ols (l : list obs) : option (R * R) :=
  let a := dotp col1 col1 l in let b := dotp col1 col2 l in let c := dotp col2 col2 l in
  let u := dotp col1 resp l in let v := dotp col2 resp l in
  if Req_EM_T (a * c - b * b) 0 then None
  else Some ((u * c - v * b) / (a * c - b * b), (a * v - b * u) / (a * c - b * b)).
Definition resid (p : R * R) (o : obs) : R := resp o - (fst p * col1 o + snd p * col2 o).
(** scipy.stats.norm.fit: mean and standard deviation *)
Definition normScale (r : list R) : R := sqrt (mean (map (fun x => (x - mean r) ^ 2) r)).
Definition fitRmax (l : list obs) : option (list R) :=
  match ols l with
  | Some p => Some [fst p; snd p; normScale (map (resid p) l)]
  | None => None
  end.
