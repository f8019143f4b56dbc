(** Return level formulas and the L-moment estimator of the extreme value distribution over the
    reals (hazard/evd.py, hazard/GPD.py, Utilities/lmomentFit.py). *)
From Coq Require Import Reals Lra.
Open Scope R_scope.

(** evd.py:325-326; numpy's [power] of a positive base. *)
Definition gevLevel (loc scale shp yrspersim t : R) : R :=
  loc + (scale / shp) * (1 - Rpower (-1 * ln (1 - yrspersim / t)) shp).

(** gpdReturnLevel, evd.py:444-463 and GPD.py:25-46 *)
Definition gpdReturnLevel (t mu shape scale rate npyr : R) : R :=
  mu + (scale / shape) * (Rpower (t * npyr * rate) shape - 1).
(** The same as a floating point number: with shape zero [scale / shape] is infinite, the other factor zero and the
    product not a number ([None]). [gpdfit], evd.py:517-521, refuses positive shapes only. *)
Definition gpdLevelF (t mu shape scale rate npyr : R) : option R :=
  if Req_EM_T shape 0 then None else Some (gpdReturnLevel t mu shape scale rate npyr).
(** gpdRecurrenceIntervals, GPD.py:49-69 *)
Definition gpdRecurrence (v mu shape scale rate npyr : R) : R :=
  Rpower ((v - mu) * (shape / scale) + 1) (1 / shape) / (npyr * rate).

Section Pelgev.
  (** scipy.special.gamma *)
  Variable gamma : R -> R.

  (** lmomentFit.py:95-126, the constants. *)
  Definition small : R := 1 / 100000.
  Definition EU : R := 57721566 / 100000000.
  Definition DL2 : R := 69314718 / 100000000.
  Definition DL3 : R := 10986123 / 10000000.
  Definition A0 : R := 28377530 / 100000000.
  Definition A1 : R := - 121096399 / 100000000.
  Definition A2 : R := - 250728214 / 100000000.
  Definition A3 : R := - 113455566 / 100000000.
  Definition A4 : R := - 7138022 / 100000000.
  Definition B1 : R := 206189696 / 100000000.
  Definition B2 : R := 131912239 / 100000000.
  Definition B3 : R := 25077104 / 100000000.
  Definition C1 : R := 159921491 / 100000000.
  Definition C2 : R := - 48832213 / 100000000.
  Definition C3 : R := 1573152 / 100000000.
  Definition D1 : R := - 64363929 / 100000000.
  Definition D2 : R := 8985247 / 100000000.

  (** lmomentFit.py:137-138 *)
  Definition Gpos (t3 : R) : R :=
    let Z := 1 - t3 in (-1 + Z * (C1 + Z * (C2 + Z * C3))) / (1 + Z * (D1 + Z * D2)).
  (** lmomentFit.py:152-153 *)
  Definition Gneg (t3 : R) : R :=
    (A0 + t3 * (A1 + t3 * (A2 + t3 * (A3 + t3 * A4)))) / (1 + t3 * (B1 + t3 * (B2 + t3 * B3))).

  (** The Newton iteration for very negative skewness, lmomentFit.py:160-172. *)
  Fixpoint newton (T0 : R) (it : nat) (G : R) : R :=
    match it with
    | O => G
    | S it' =>
        let x2 := Rpower 2 (- G) in
        let x3 := Rpower 3 (- G) in
        let xx2 := 1 - x2 in
        let xx3 := 1 - x3 in
        let T := xx3 / xx2 in
        let deriv := (xx2 * x3 * DL3 - xx3 * x2 * DL2) / (xx2 * xx2) in
        let G' := G - (T - T0) / deriv in
        if Rle_dec (Rabs (G' - G)) (1 / 1000000 * G') then G' else newton T0 it' G'
    end.

  (** lmomentFit.py:145-149 and 178-182 *)
  Definition estimate (l1 l2 G : R) : R * R * R :=
    let gam := gamma (1 + G) in
    let scale := l2 * G / (gam * (1 - Rpower 2 (- G))) in
    (l1 - scale * (1 - gam) / G, scale, G).

  (** pelgev, lmomentFit.py:43-182: location, scale, shape. *)
  Definition pelgev (l1 l2 t3 : R) : R * R * R :=
    if Rle_dec l2 0 then (0, 0, 0)
    else if Rle_dec 1 (Rabs t3) then (0, 0, 0)
    else if Rlt_dec 0 t3 then
      let G := Gpos t3 in
      if Rlt_dec (Rabs G) small then (l1 - EU * (l2 / DL2), l2 / DL2, 0)
      else estimate l1 l2 G
    else
      let G := Gneg t3 in
      if Rlt_dec t3 (- 8 / 10) then
        let G := if Rle_dec t3 (- 97 / 100) then 1 - ln (1 + t3) / DL2 else G in
        estimate l1 l2 (newton ((t3 + 3) * (1 / 2)) 20 G)
      else estimate l1 l2 G.
End Pelgev.

(** pelgpa, lmomentFit.py:178-197 *)
Definition pelgpa (l1 l2 t3 : R) : R * R * R :=
  if Rle_dec l2 0 then (0, 0, 0)
  else if Rle_dec 1 (Rabs t3) then (0, 0, 0)
  else let gg := (1 - 3 * t3) / (1 + t3) in
       let scale := (1 + gg) * (2 + gg) * l2 in
       (l1 - scale / (1 + gg), scale, gg).
