(** Model of the wind field evolution files: WriteFoliationCallback of
    wind/writer.py, called from regionalExtremes (wind/__init__.py:310-314)
    with the window [lonGrid[imin:imax] / 100.], [latGrid[jmin:jmax] / 100.].

    Coordinates are exact rationals (the file stores them as f4).  One data
    variable stands for the four (gust_speed, velocity_east, velocity_north,
    pressure), which are written in the same way; None is the fill value. *)
From Coq Require Import List QArith ZArith Bool.
From Verif Require Import Base GenModel.
Import ListNotations.
Local Open Scope Z_scope.

(** One axis of the file: [series(lo - margin, hi + margin)] and the affine
    transformation, wind/writer.py:63-72.  [np.linspace] with one element
    gives the start. *)
Record faxis := mkFaxis { fa_start : Q; fa_stop : Q; fa_res : Q }.
Definition fileAxis (lo hi margin res : Q) : faxis :=
  mkFaxis (lo - margin)%Q (hi + margin)%Q res.
Definition fa_len (a : faxis) : Z := rint ((fa_stop a - fa_start a) / fa_res a) + 1.
Definition fa_coord (a : faxis) (k : Z) : Q :=
  if fa_len a =? 1 then fa_start a
  else (fa_start a + inject_Z k * ((fa_stop a - fa_start a) / inject_Z (fa_len a - 1)))%Q.

(** [np.rint(self.affine * coord)], wind/writer.py:121-122, one axis. *)
Definition fa_index (a : faxis) (c : Q) : Z := rint ((c - fa_start a) / fa_res a).

(** The slice [slice(a, b + 1)] of a window from its first and last
    coordinate, wind/writer.py:121-123. *)
Definition fa_slice (a : faxis) (cs : list Q) : Z * Z :=
  (fa_index a (hd 0%Q cs), fa_index a (last cs 0%Q) + 1).

(** A layer of the file: row and column to value. *)
Definition layer (V : Type) := Z -> Z -> option V.

Section Writer.
  Context {V : Type}.

  (** What one call hands over: the time (in minutes), the coordinates of
      the window and its values by row and column. *)
  Record call := mkCall { c_time : Q; c_lon : list Q; c_lat : list Q; c_val : Z -> Z -> V }.

  (** The file: the reference time written into the units of the time
      variable at the first call (whole minutes, wind/writer.py:115-118) and
      the layers with their stored times in days since the reference. *)
  Record file := mkFile { f_units : option Q; f_layers : list (Q * layer V) }.
  Definition emptyFile : file := mkFile None [].

  (** A window can be assigned to a slice only if their sizes agree; a slice
      outside the dimension is an error (None).  Negative indices are
      treated as errors too. *)
  Definition fits (a : faxis) (cs : list Q) : bool :=
    let '(u, v) := fa_slice a cs in
    (0 <=? u) && (v <=? fa_len a) && (v - u =? Z.of_nat (length cs)) && (0 <? v - u).

  Definition window (ax ay : faxis) (c : call) : layer V := fun i j =>
    let '(i0, i1) := fa_slice ay (c_lat c) in
    let '(j0, j1) := fa_slice ax (c_lon c) in
    if (i0 <=? i) && (i <? i1) && (j0 <=? j) && (j <? j1)
    then Some (c_val c (i - i0) (j - j0)) else None.

  (** __call__, wind/writer.py:108-134.  netCDF4.date2num is the number of
      days since the reference time. *)
  Definition callFile (ax ay : faxis) (f : file) (c : call) : option file :=
    let units := match f_layers f with
                 | [] => inject_Z (Qround.Qfloor (c_time c))
                 | _ => match f_units f with Some u => u | None => 0%Q end
                 end in
    if fits ax (c_lon c) && fits ay (c_lat c)
    then Some (mkFile (Some units)
                 (f_layers f ++ [(((c_time c - units) / 1440)%Q, window ax ay c)]))
    else None.

  Fixpoint writeAll (ax ay : faxis) (f : file) (cs : list call) : option file :=
    match cs with
    | [] => Some f
    | c :: cs' => match callFile ax ay f c with
                  | Some f' => writeAll ax ay f' cs'
                  | None => None
                  end
    end.

  (** The time of a stored value, as a reader of the file decodes it. *)
  Definition decode (f : file) (d : Q) : Q :=
    (match f_units f with Some u => u | None => 0 end + d * 1440)%Q.
End Writer.
Arguments call : clear implicits.
Arguments file : clear implicits.

(** The regional grid of regionalExtremes along one axis
    (wind/__init__.py:241-250) and its slice [grid[k0:k1] / 100.]. *)
Definition gridCoord (a0 step : Z) (k : Z) : Q := inject_Z (a0 + k * step) / 100.
Definition gridWindow (a0 step k0 k1 : Z) : list Q :=
  map (fun n => gridCoord a0 step (k0 + Z.of_nat n)) (seq 0 (Z.to_nat (k1 - k0))).
(** Its number of points, [len(np.arange(lo, hi + step, step))]. *)
Definition gridLen (lo hi step : Z) : Z := - ((- (hi + step - lo)) / step).
