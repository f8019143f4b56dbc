(** Vorticity of a wind field on a grid (Utilities/vorticity.py).  Numbers are exact reals.  A masked array is a list of
    options, [None] being a missing value: the code marks it by a number (1e+20) and masks the values close to it, so a
    value that happens to be close to 1e+20 is not distinguished from a missing one there. *)
From Coq Require Import Reals List Arith Bool.
From Verif Require Import CircleModel WindModel.
Import ListNotations.
Local Open Scope R_scope.

Definition osub (a b : option R) : option R := match a, b with Some u, Some v => Some (u - v) | _, _ => None end.
(** division of a masked array: a zero denominator is masked (the code also masks results beyond the range of floats) *)
Definition oquot (a : option R) (d : R) : option R :=
  match a with Some u => if Req_EM_T d 0 then None else Some (u / d) | None => None end.

(** deriv with the algorithm order1, vorticity.py:135-187, for two vectors of the same length that is not 0.
    [padded] are the arrays with replicated ends, 157-165. *)
Definition padded {A} (d : A) (l : list A) : list A := hd d l :: l ++ [last l d].
Definition im1 {A} (d : A) (l : list A) : list A := firstn (length l) (padded d l).
Definition ip1 {A} (d : A) (l : list A) : list A := skipn 2 (padded d l).
Definition deriv (x : list R) (y : list (option R)) : list (option R) :=
  map (fun p => oquot (osub (fst (fst p)) (snd (fst p))) (fst (snd p) - snd (snd p)))
      (combine (combine (ip1 None y) (im1 None y)) (combine (ip1 0 x) (im1 0 x))).

(** A field on the grid: the value in row iy (latitude) and column ix (longitude). *)
Definition field := nat -> nat -> option R.
Definition row (nx : nat) (F : field) (iy : nat) : list (option R) := map (fun ix => F iy ix) (seq 0 nx).
Definition col (ny : nat) (F : field) (ix : nat) : list (option R) := map (fun iy => F iy ix) (seq 0 ny).

(** _order1_cartesian_curl, 603-628 *)
Definition curlCart (x y : list R) (Fx Fy : field) : field := fun iy ix =>
  osub (nth ix (deriv x (row (length x) Fy iy)) None) (nth iy (deriv y (col (length y) Fx ix)) None).

(** _order1_spherical_curl, 635-705; the radius is a scalar *)
Definition rad (d : R) : R := d * PI / 180.
Definition oscale (k : R) (o : option R) : option R := option_map (fun v => v * k) o.
Definition curlSphere (radius : R) (x y : list R) (Fx Fy : field) : field := fun iy ix =>
  let yrad := map rad y in
  let lat := nth iy y 0 in
  let c := osub (nth ix (deriv (map rad x) (row (length x) Fy iy)) None)
                (nth iy (deriv yrad (map (fun p => oscale (cos (fst p)) (snd p)) (combine yrad (col (length y) Fx ix)))) None) in
  if (rlt 88 lat || rlt lat (-88))%bool then None else oquot c (radius * cos (rad lat)).

(** relative and absolute, 788-801: the argument of the former is the wind in east and north direction.  Missing values
    of the relative vorticity are the number 1e+20 there, to which the Coriolis parameter is added in vain. *)
Definition relative (u v : field) (x y : list R) : field := curlSphere 6378137 x y u v.
Definition absolute (u v : field) (x y : list R) : field := fun iy ix =>
  option_map (fun z => z + coriolis (nth iy y 0)) (relative u v x y iy ix).

(** * Choice of the algorithm, 757-785, deriv, 96-133 *)
Inductive algorithm := Default | DefaultSpherical | Order1Cartesian | Order1Spherical | Spherepack | BadName.
Inductive method := Cartesian | Spherical | Spectral | ValueError | ImportError | TypeError.
(** [sphere]: the package sphere can be imported; [usable]: it accepts the grid (can_use_sphere); [gaps]: one of the
    components has a missing value (has_close); [none]: the argument missing is None, with which has_close and
    numpy.ma.masked_values fail (isclose does not accept None) *)
Definition choose (a : algorithm) (sphere usable gaps none : bool) : method :=
  match a with
  | Default | Order1Cartesian => if none then TypeError else Cartesian
  | Order1Spherical => if none then TypeError else Spherical
  | DefaultSpherical =>
      if none then TypeError else if sphere && usable && negb gaps then Spectral else Spherical
  | Spherepack => if none then TypeError else if gaps then ValueError else if sphere then Spectral else ImportError
  | BadName => ValueError
  end%bool.
