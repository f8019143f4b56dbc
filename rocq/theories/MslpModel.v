(** The climatological sea level pressure at a day and position: Utilities/interp3d.py:20-69,
    TrackGenerator.py:168-202 (SamplePressure) and Utilities/loadData.py:622-664 (ltmPressure).
    Simplifications: numbers are exact rationals. scipy's spline evaluation inside the grid is the parameter [spl];
    what [map_coordinates] does with indices outside the grid ([mode='wrap']) is modelled after its documentation:
    the last point of an axis coincides with the first. The conversion to hPa is left out. *)
From Coq Require Import List Arith ZArith Bool QArith Qround.
From Verif Require Import CellModel.
Import ListNotations.
Open Scope Q_scope.

Definition qn (n : nat) : Q := inject_Z (Z.of_nat n).
(** interp3d.py:61-62: [d*(c - o) / s] *)
Definition index (d : nat) (c o s : Q) : Q := qn d * (c - o) / s.
(** [mode='wrap'] for an axis of [n] points *)
Definition wrap (n : nat) (x : Q) : Q :=
  if (n <=? 1)%nat then 0 else
  let sz := qn (n - 1) in
  if qlt x 0 then x + sz * (inject_Z (Qfloor (- x / sz)) + 1)
  else if qlt sz x then x - sz * inject_Z (Qfloor (x / sz)) else x.

Section Interp.
  (** The data of the file by day, row and column, and their numbers *)
  Definition cube := nat -> nat -> nat -> Q.
  Variable spl : cube -> nat * nat * nat -> Q -> Q -> Q -> Q.
  (** interp3d.py:55-69 for one point *)
  Definition interp3d (data : cube) (dims : nat * nat * nat) (coords scale offset : Q * Q * Q) : Q :=
    let '(n1, n2, n3) := dims in let '(c1, c2, c3) := coords in let '(s1, s2, s3) := scale in let '(o1, o2, o3) := offset in
    spl data dims (wrap n1 (index n1 c1 o1 s1)) (wrap n2 (index n2 c2 o2 s2)) (wrap n3 (index n3 c3 o3 s3)).
  (** TrackGenerator.py:185-202: day of the year, latitude, longitude *)
  Definition getPressure (data : cube) (dims : nat * nat * nat) (day lat lon : Q) : Q :=
    interp3d data dims (day, lat, lon) (365, 180, 360) (0, -90, 0).
  (** loadData.py:644-659: [np.modf(time)[0]] is the fraction of the day, [time] is positive *)
  Definition ltmPressure (data : cube) (dims : nat * nat * nat) (jday : Z) (time lat lon : Q) : Q :=
    interp3d data dims (inject_Z jday + (time - inject_Z (Qfloor time)), lat, lon) (365, 180, 360) (0, -90, 0).
End Interp.
