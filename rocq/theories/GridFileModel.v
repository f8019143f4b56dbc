(** ASCII grid files and sampling of gridded data: Utilities/grid.py.
    Numbers are exact rationals; the UTM option of [grdSave] is in UtmModel.v; netCDF input of [grdRead] is not
    modelled. *)
From Coq Require Import List Arith ZArith Bool QArith.
From Verif Require Import CellModel NumModel GenModel.
Import ListNotations.
Open Scope Q_scope.

(** The file as the numbers [float()] reads back from its text. *)
Record gridfile := mkGf { gncols : nat; gnrows : nat; gxll : Q; gyll : Q; gcell : Q; gnodata : Q;
                          grows : list (list Q) }.

(** What happens to the file: nothing is touched and an exception is raised, the file is left
    empty or incomplete and an exception is raised, or it is written. *)
Inductive saved := SaveRefused | SaveBroken | SaveOk (f : gridfile).

(** grdSave, grid.py:36-103, with a file name.  [exist] whether the file exists, [gz] whether its
    name ends in ".gz", [fmt] the number read back after formatting a value.  For an existing file
    line 71 calls [file], a NameError in Python 3, or lines 69 and 88 write text to a binary file,
    a TypeError after the file has been emptied.  Lines 85-86 raise ValueError for empty
    coordinates, after the file has been created. *)
Definition grdSave (fmt : Q -> Q) (exist gz : bool) (data : list (list Q)) (lon lat : list Q)
    (delta nodata : Q) : saved :=
  if exist then (if gz then SaveBroken else SaveRefused)
  else match lon, lat with
       | x :: lx, y :: ly =>
           SaveOk (mkGf (List.length lon) (List.length lat) (amin x lx) (amin y ly) delta nodata
                        (map (map fmt) data))
       | _, _ => SaveBroken
       end.

(** [range(n) * cellsize + lower left corner], grid.py:193-197 *)
Definition axis (n : nat) (cell x0 : Q) : list Q :=
  map (fun i => inject_Z (Z.of_nat i) * cell + x0) (seq 0 n).

(** One line, grid.py:205-212; missing values become NaN ([None]) and columns without a value are
    zero.  [None]: IndexError of a line with more values than columns. *)
Definition readRow (ncols : nat) (nodata : Q) (line : list Q) : option (list (option Q)) :=
  if (ncols <? List.length line)%nat then None
  else Some (map (fun v => if Qeq_bool v nodata then None else Some v) line
             ++ repeat (Some 0) (ncols - List.length line)).

Fixpoint readRows (n ncols : nat) (nodata : Q) (lines : list (list Q)) : option (list (list (option Q))) :=
  match n with
  | O => Some []
  | S n' =>
      (** At the end of the file [readline] gives an empty line. *)
      let (line, rest) := match lines with [] => ([], []) | l :: ls => (l, ls) end in
      match readRow ncols nodata line, readRows n' ncols nodata rest with
      | Some r, Some rs => Some (r :: rs)
      | _, _ => None
      end
  end.

(** grdRead, grid.py:171-218: longitudes, latitudes (from north to south, line 198), values. *)
Definition grdRead (f : gridfile) : option (list Q * list Q * list (list (option Q))) :=
  match readRows (gnrows f) (gncols f) (gnodata f) (grows f) with
  | Some d => Some (axis (gncols f) (gcell f) (gxll f), rev (axis (gnrows f) (gcell f) (gyll f)), d)
  | None => None
  end.

(** [a.searchsorted(v)]: numpy's binary search between [lo] and [hi]. *)
Fixpoint bsearch (fuel : nat) (a : list Q) (v : Q) (lo hi : nat) : nat :=
  match fuel with
  | O => lo
  | S fuel' =>
      if (lo <? hi)%nat then
        let mid := (lo + (hi - lo) / 2)%nat in
        if qlt (nth mid a 0) v then bsearch fuel' a v (S mid) hi else bsearch fuel' a v lo mid
      else lo
  end.
Definition npSearch (a : list Q) (v : Q) : nat := bsearch (List.length a) a v 0 (List.length a).

(** SampleGrid, grid.py:237-269: the rows are reversed on loading; [None]: IndexError. *)
Section Sample.
  Context {V : Type}.
  Definition sampleGrid (lon lat : list Q) (data : list (list V)) (x y : Q) : option V :=
    let grid := rev data in
    match nth_error grid (npSearch lat y) with
    | Some row => nth_error row (npSearch lon (qmod x 360))
    | None => None
    end.
End Sample.
