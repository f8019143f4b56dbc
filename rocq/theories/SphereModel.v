(** Positions, distances and directions on the sphere over the reals (Utilities/maputils.py,
    Utilities/maputils.f90). Arrays are modelled at one entry. *)
From Coq Require Import Reals Lra List.
From Verif Require Import CircleModel WindModel.
Open Scope R_scope.

(** math.radians, math.degrees, numpy.radians *)
Definition radians (x : R) : R := x * PI / 180.
Definition degrees (x : R) : R := x * 180 / PI.
(** numpy.mod for a positive modulus *)
Definition rmod (x m : R) : R := x - m * IZR (Int_part (x / m)).
(** the radius in km used by every function of maputils *)
Definition earth : R := 6367.

(** maputils.py:435-450, 452-467 *)
Definition bearing2theta (b : R) : R := rmod (PI / 2 - b) (2 * PI).
Definition theta2bearing (t : R) : R := rmod (2 * PI - (t - PI / 2)) (2 * PI).

(** distGC, maputils.py:174-199 *)
Definition distGC (lat0 lat1 lon0 lon1 : R) : R :=
  earth * acos (sin (radians lat0) * sin (radians lat1) +
                cos (radians lat0) * cos (radians lat1) * cos (radians lon0 - radians lon1)).

(** gridLatLonDist, maputils.py:203-313, in km; [hav] is its [a] *)
Definition hav (cLon cLat lon lat : R) : R :=
  sin ((radians lat - radians cLat) / 2) ^ 2 +
  cos (radians cLat) * cos (radians lat) * sin ((radians lon - radians cLon) / 2) ^ 2.
Definition gridDist (cLon cLat lon lat : R) : R :=
  let a := hav cLon cLat lon lat in earth * (2 * atan2 (sqrt (Rabs a)) (sqrt (1 - a))).

(** gridLatLonBear, maputils.py:315-433 *)
Definition bearAlpha (cLon lon lat : R) : R := sin (radians lon - radians cLon) * cos (radians lat).
Definition bearBeta (cLon cLat lon lat : R) : R :=
  cos (radians cLat) * sin (radians lat) -
  sin (radians cLat) * cos (radians lat) * cos (radians lon - radians cLon).
Definition gridBear (cLon cLat lon lat : R) : R := atan2 (bearAlpha cLon lon lat) (bearBeta cLon cLat lon lat).

(** bear2LatLon, maputils.py:99-124: longitude and latitude *)
Definition newLat (bearing distance oLat : R) : R :=
  asin (sin (radians oLat) * cos (distance / earth) +
        cos (radians oLat) * sin (distance / earth) * cos (radians bearing)).
Definition bear2LatLon (bearing distance oLon oLat : R) : R * R :=
  let nLat := newLat bearing distance oLat in
  let aa := sin (radians bearing) * sin (distance / earth) * cos (radians oLat) in
  let bb := cos (distance / earth) - sin (radians oLat) * sin nLat in
  (degrees (radians oLon + atan2 aa bb), degrees nLat).

(** distance and angle of one point in makeGrid, maputils.py:513-531, interpreted and compiled (maputils.f90).
    The compiled toRads is taken to be pi/180 exactly; it is a single precision literal. *)
Definition gridR (cLon cLat lon lat : R) : R :=
  let d := gridDist cLon cLat lon lat in if req d 0 then / 10 ^ 30 else d.
Definition gridTheta (cLon cLat lon lat : R) : R := PI / 2 - gridBear cLon cLat lon lat.
Definition fgridR (cLon cLat lon lat : R) : R :=
  let toRads := PI / 180 in
  let dLat_sin := sin (1 / 2 * (lat * toRads - cLat * toRads)) in
  let dhalfLon_sin := sin (1 / 2 * (lon * toRads - cLon * toRads)) in
  let a := dLat_sin * dLat_sin + cos (cLat * toRads) * cos (lat * toRads) * dhalfLon_sin * dhalfLon_sin in
  Rmax (earth * (2 * atan2 (sqrt (Rabs a)) (sqrt (1 - a)))) (/ 10 ^ 30).
Definition fgridTheta (cLon cLat lon lat : R) : R :=
  let toRads := PI / 180 in
  let dLon := lon * toRads - cLon * toRads in
  let alpha := sin dLon * cos (lat * toRads) in
  let beta := cos (cLat * toRads) * sin (lat * toRads) - sin (cLat * toRads) * cos (lat * toRads) * cos dLon in
  1 / 2 * PI - atan2 alpha beta.

(** latLon2XY, maputils.py:126-172, for one pair of consecutive points with xr = yr = 0: north and east
    distance rotated by [azimuth] *)
Definition latLon2XY (ieast azimuth lat0 lon0 lat1 lon1 : R) : R * R :=
  let xntru := earth * (radians lat1 - radians lat0) in
  let yetru := ieast * earth * (radians lon1 - radians lon0) * cos (radians lat1) in
  let a := radians azimuth in
  (xntru * cos a + yetru * sin a, - xntru * sin a + yetru * cos a).
(** latLon2Azi, maputils.py:48-97: bearing (radians) and distance; xy2r is lines 33-46 *)
Definition latLon2Azi (ieast azimuth lat0 lon0 lat1 lon1 : R) : R * R :=
  let (yn, xe) := latLon2XY ieast azimuth lat0 lon0 lat1 lon1 in
  (theta2bearing (atan2 yn xe), sqrt (yn ^ 2 + xe ^ 2)).

(** The positions of a generated track, TrackGenerator.py:951-961 with dist from 931 and 1053: one pair of
    bearing and speed for each time step; the positions are stored in single precision, which is not modelled. *)
Fixpoint positions (dt : R) (steps : list (R * R)) (p : R * R) : list (R * R) :=
  match steps with
  | nil => p :: nil
  | (b, v) :: r => p :: positions dt r (bear2LatLon b (dt * v) (fst p) (snd p))
  end%list.

(** The angle of the line of maximum wind that reaches a boundary layer model for the configured value in
    degrees: wind/__init__.py:937 (run), 114 (WindAroundTrack), 187 and 206; the models convert once more
    (windmodels.py:989, 1034; WindModel.mcconochie, hubbert). *)
Definition passedThetaMax (configured : R) : R := radians (radians configured).
