(** Further statistics: circular statistics over a range, Utilities/stats.py:200-231, the size distribution, stats.py:46-59 (cdf)
    and 187-196 (rMaxDist), and the genesis potential, Utilities/metutils.py:492-500. Numbers are reals. *)
From Coq Require Import Reals List Arith ZArith QArith Qround.
From Verif Require Import SeriesModel.
Import ListNotations.
Local Open Scope R_scope.

(** stats.py:205, 216, 226: the samples as angles *)
Definition angles (high low : R) (s : list R) : list R := map (fun x => (x - low) * 2 * PI / (high - low)) s.
(** circmean 200-209, circvar 211-219, circstd 221-229 *)
Definition circmeanIn (high low : R) (s : list R) : R := circmean (angles high low s) * (high - low) / 2 / PI + low.
Definition circvarIn (high low : R) (s : list R) : R := ((high - low) / 2 / PI) ^ 2 * (1 - modulus (resultant (angles high low s))).
Definition circstdIn (high low : R) (s : list R) : R := (high - low) / 2 / PI * sqrt (1 - modulus (resultant (angles high low s))).

(** [np.arange(1., maxrad, 1.)] *)
Definition radii (maxrad : Q) : list R := map (fun i => INR (S i)) (seq 0 (Z.to_nat (Qceiling (maxrad - 1)))).
Fixpoint cumsumR (a : R) (l : list R) : list R := match l with [] => [] | y :: r => (a + y) :: cumsumR (a + y) r end.
(** stats.py:46-59 cdf; [None]: IndexError of [x\[1\]] *)
Definition cdfR (x y : list R) : option (list R) :=
  match x with
  | x0 :: x1 :: _ =>
      let cy := cumsumR 0 (map (fun v => Rabs (x1 - x0) * v) y) in
      Some (if Req_EM_T (last cy 0) 0 then cy else map (fun c => c / last cy 0) cy)
  | _ => None
  end.
Definition logPdf (mu sig x : R) : R := exp (- ((ln x - mu) ^ 2) / (2 * sig ^ 2)) / (x * sig * sqrt (2 * PI)).
Definition rMaxDist (mean sig : R) (maxrad : Q) : option (list R * list R * list R) :=
  let x := radii maxrad in
  let mu := ln mean - 1 / 2 * sig ^ 2 in
  let pdf := map (logPdf mu sig) x in
  match cdfR x pdf with Some cy => Some (x, pdf, cy) | None => None end.

(** metutils.py:492-500; [np.power(y, 1.5)] of [y >= 0] is [y * sqrt y] *)
Definition genesisPotential (zeta rh vmax shear : R) : R :=
  let y := Rabs (10 ^ 5 * zeta) in
  y * sqrt y * (rh / 50) ^ 3 * (vmax / 70) ^ 3 / (1 + 1 / 10 * shear) ^ 2.
