(** The power law fit of hazard/evd.py:334-394 and the distribution classes of hazard/evd.py:44-255.
    scipy's [curve_fit] is a parameter; wind speeds and return periods are rationals, the fitted curve is over the
    reals.  [np.arange(1, nobs + 1, 1)] has one entry more than the array of wind speeds when 365.25 times the number of
    years is not whole; that entry is not used. *)
From Coq Require Import Reals List Arith ZArith Bool QArith Qreals.
From Verif Require Import CellModel FitModel DensityModel.
Import ListNotations.
Close Scope Q_scope. Close Scope R_scope. Open Scope nat_scope.

(** The curve [a - b * np.power(x, c)], evd.py:380-381 *)
Definition curve (p : R * R * R) (x : R) : R := let '(a, b, c) := p in (a - b * Rpower x c)%R.
(** Return levels, location, scale and shape; or an exception *)
Inductive exn := ValueError | NameError | AttributeError.
Inductive pres := PRaise (e : exn) | POk (w : list R) (loc scale shp : R).

(** evd.py:372-378: return period and wind speed of the days above the mean of the windy days *)
Definition points (data : list Q) (numsim : Z) : list (Q * Q) :=
  let wspd := empWspd data numsim in
  let windy := filter (fun v => qlt 0 v) wspd in
  match windy with
  | [] => []
  | _ => filter (fun p => qlt (meanq windy) (snd p)) (combine (empRp numsim) wspd)
  end.

Section Power.
(** [curve_fit] with starting values; it raises for fewer than three points, see [powerfit] *)
Variable curveFit : list (Q * Q) -> option (R * R * R).
(** evd.py:368-394; the assignment of the data to the last days (375) is outside the [try].  [minrecords] is not used. *)
Definition powerfit (data : list Q) (intervals : list R) (numsim : Z) (nodata : R) (minrecords : nat) : pres :=
  if (empDays numsim <? length data) || (length data =? 0) then PRaise ValueError else
  let missing := POk (map (fun _ => nodata) intervals) nodata nodata nodata in
  let pts := points data numsim in
  if length pts <? 3 then missing else
  match curveFit pts with
  | None => missing
  | Some p => POk (map (curve p) intervals) (fst (fst p)) (snd (fst p)) (snd p)
  end.
End Power.

(** * The distribution objects *)
Inductive distribution := GEVobj | GPDobj | EMPobj | POWERobj.
(** GEVDistribution.fit (92-133) and GPDDistribution.fit (147-175) multiply an unknown name [nodata]; EMPDistribution.fit
    (192-205) asks for the unknown [intervals] after filling the days; POWERDistribution.fit (229-254) names the unknown
    [wspd] inside its [try]. *)
Definition objectFit (d : distribution) (data : list Q) (intervals : list R) (numsim : Z) (nodata : R) : pres :=
  let fill := (empDays numsim <? length data) || (length data =? 0) in
  match d with
  | GEVobj | GPDobj => PRaise NameError
  | EMPobj => if fill then PRaise ValueError else PRaise NameError
  | POWERobj => if fill then PRaise ValueError else POk (map (fun _ => nodata) intervals) nodata nodata nodata
  end.
(** calculate, evd.py:58-75: [dims.shape] of the tuple [dims] *)
Definition objectCalculate {A} (d : distribution) (grid : A) : exn := AttributeError.
