(** Extreme value fits per grid cell: the guards of hazard/evd.py and hazard/GPD.py, the empirical
    curve, and the bootstrap blocks of hazard/__init__.py, over exact rationals.  The fitting
    routines themselves ([pelgev], scipy's [genpareto.fit]) and the closed return level formulas
    are parameters here; FitRModel.v has the formulas over the reals. *)
From Coq Require Import List Arith ZArith Lia Bool QArith Qround.
From Verif Require Import CellModel SampModel NumModel LmomModel.
Import ListNotations.
Open Scope Q_scope.

(** Return levels (None: not a number), location, scale and shape; or an exception. *)
Inductive fres := FOk (w : list (option Q)) (loc scale shp : Q) | FErr.

Fixpoint insertq (a : Q) (l : list Q) : list Q :=
  match l with [] => [a] | b :: r => if Qle_bool a b then a :: l else b :: insertq a r end.
(** numpy's [sort] of one column. *)
Definition sortq (l : list Q) : list Q := fold_right insertq [] l.

Section Gev.
  (** lmom.pelgev; [None] when the location is not finite. *)
  Variable pelgev : Q * Q * Q -> option (Q * Q * Q).
  (** [loc + (scale / shp) * (1 - (-log(1 - yrspersim / t)) ** shp)]; [None] when not finite. *)
  Variable level : Q * Q * Q -> Q -> option Q.

  (** The parameters, evd.py:291-316.  [None]: an exception.  [data\[ii\]] are the non-zero
      entries; their minimum and maximum exist because the maximum of [data] is positive.
      A comparison with a missing [t3] is false, but [l2] is then zero. *)
  Definition gevParams (data : list Q) (nodata : Q) (minrecords : Z) : option (Q * Q * Q) :=
    match data with
    | [] => None
    | x :: r =>
        let missing := Some (nodata, nodata, nodata) in
        if qlt 0 (amax x r) then
          let nz := filter (fun v => negb (Qeq_bool v 0)) data in
          match nz with
          | [] => None
          | y :: s =>
              if negb (Qeq_bool (amin y s) (amax y s)) then
                if (minrecords <=? Z.of_nat (length nz))%Z then
                  match samlmu3 data with
                  | LOk (l1, l2, ot3) =>
                      if Qle_bool l2 0 then missing
                      else match ot3 with
                           | None => None
                           | Some t3 =>
                               if Qle_bool 1 (Qabs.Qabs t3) then missing
                               else match pelgev (l1, l2, t3) with Some p => Some p | None => missing end
                           end
                  | _ => None
                  end
                else missing
              else missing
          end
        else missing
    end.

  (** evd.py:318-332 *)
  Definition gevLevels (p : Q * Q * Q) (nodata : Q) (intervals : list Q) : list (option Q) :=
    map (fun t => if Qle_bool (snd p) 0 then Some nodata
                  else match level p t with Some v => Some v | None => Some nodata end) intervals.

  (** gevfit, evd.py:256-332 *)
  Definition gevfit (data intervals : list Q) (nodata : Q) (minrecords : Z) : fres :=
    match gevParams data nodata minrecords with
    | None => FErr
    | Some (loc, scale, shp) => FOk (gevLevels (loc, scale, shp) nodata intervals) loc scale shp
    end.

  (** calculateGEV, hazard/__init__.py:580-628, for one cell: the column is sorted; cells without a
      positive value keep the zeros of the output arrays. *)
  Definition gevCell (column intervals : list Q) (nodata : Q) (minrecords : Z) : fres :=
    match sortq column with
    | [] => FErr
    | x :: r => if qlt 0 (amax x r) then gevfit (x :: r) intervals nodata minrecords
                else FOk (map (fun _ => Some 0) intervals) 0 0 0
    end.
End Gev.

Section Gpd.
  (** [scoreatpercentile(data, threshold)]. *)
  Variable percentile : list Q -> Q.
  (** scipy's [genpareto.fit(exceedances, floc=mu)]: shape, location, scale; [None]: exception. *)
  Variable genpareto : list Q -> Q -> option (Q * Q * Q).
  (** gpdReturnLevel; [None] when not a number. *)
  Variable level : Q -> Q -> Q -> Q -> Q -> option Q.   (* interval mu shape scale rate *)

  (** gpdfit, hazard/GPD.py:76-123 and evd.py:465-519 (the same text). *)
  Definition gpdfit (data intervals : list Q) (numsim : Z) (nodata : Q) (minrecords : Z) : fres :=
    let mu := percentile data in
    let missing := FOk (map (fun _ => Some nodata) intervals) nodata nodata nodata in
    if (Z.of_nat (length data) <? minrecords)%Z then missing else
    let days := Z.to_nat (Qfloor (inject_Z numsim * 365.25)) in
    if (days <? length data)%nat || (length data =? 0)%nat then FErr else
    let filled := (repeat 0 (days - length data) ++ data)%list in
    let exceed := filter (fun v => qlt mu v) filled in
    let rate := qn (length exceed) / qn (length filled) in
    match genpareto exceed mu with
    | None => missing
    | Some (shape, location, scale) =>
        let rp := map (fun t => level t mu shape scale rate) intervals in
        if qlt 0 shape then missing else FOk rp location scale shape
    end.
End Gpd.

(** * The empirical curve *)
(** scipy's [interp1d(x, y)(t)] for increasing [x] of at least two points; [None]: ValueError. *)
Definition interp (xs ys : list Q) (t : Q) : option Q :=
  match xs with
  | [] => None
  | x0 :: _ =>
      if qlt t x0 || qlt (last xs 0) t then None else
      let hi := Nat.min (Nat.max 1 (searchsorted xs t)) (length xs - 1) in
      let lo := (hi - 1)%nat in
      let slope := (nth hi ys 0 - nth lo ys 0) / (nth hi xs 0 - nth lo xs 0) in
      Some (slope * (t - nth lo xs 0) + nth lo ys 0)
  end.
Fixpoint allSome {A} (l : list (option A)) : option (list A) :=
  match l with
  | [] => Some []
  | None :: _ => None
  | Some a :: r => match allSome r with Some s => Some (a :: s) | None => None end
  end.

(** evd.py:424-430 *)
Definition empDays (numsim : Z) : nat := Z.to_nat (Qfloor (365.25 * inject_Z numsim)).
Definition empWspd (data : list Q) (numsim : Z) : list Q :=
  (repeat 0 (empDays numsim - length data) ++ sortq data)%list.
Definition empRp (numsim : Z) : list Q :=
  map (fun i => 1 / (1 - qn i / (365.25 * inject_Z numsim + 1)) / 365.25) (seq 1 (empDays numsim)).
(** empfit, evd.py:396-442; an empty [data] or more records than days does not fit the array. *)
Definition empfit (data intervals : list Q) (numsim : Z) (nodata : Q) : fres :=
  if (empDays numsim <? length data)%nat || (length data =? 0)%nat then FErr else
  match allSome (map (interp (empRp numsim) (empWspd data numsim)) intervals) with
  | Some w => FOk (map Some w) nodata nodata nodata
  | None => FErr
  end.

(** * Bootstrap blocks *)
(** The slices of calculateCI, hazard/__init__.py:842-846, for [nsamples = nrecords // sample_size]. *)
Definition ciBlocks {A} (records : list A) (sample_size : nat) : list (list A) :=
  map (fun n => slice (n * sample_size) ((n + 1) * sample_size - 1) records)
      (seq 0 (length records / sample_size)).
(** Python 3's [nrecords / sample_size] (824) is a float, which [np.zeros] (831) refuses as a
    dimension: [None] for TypeError. *)
Inductive pynum := PInt (z : Z) | PFloat (q : Q).
Definition truediv (a b : Z) : pynum := PFloat (inject_Z a / inject_Z b).
Definition asDimension (p : pynum) : option Z := match p with PInt z => Some z | PFloat _ => None end.
Definition calculateCI {A} (records : list A) (sample_size : nat) : option (list (list A)) :=
  match asDimension (truediv (Z.of_nat (length records)) (Z.of_nat sample_size)) with
  | None => None
  | Some _ => Some (ciBlocks records sample_size)
  end.
