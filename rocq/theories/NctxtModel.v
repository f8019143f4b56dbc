(** Conversion of a NetCDF file to ASCII grids: process of Utilities/nc2txt.py:53-101, with ncGetDims and
    ncGetData of Utilities/nctools.py:86-144.  Numbers are exact rationals; the parsing of the command line is
    left out, except that the variable may be missing.  Masked values come as the numbers stored under the mask
    (nctools.py:142: [np.array] of a masked array drops the mask). *)
From Coq Require Import List Arith ZArith Bool QArith.
From Verif Require Import CellModel NumModel GenModel GridFileModel.
Import ListNotations.
Open Scope Q_scope.

(** ['%6.2f' % v] read back: two decimals, half to even *)
Definition fmt2 (v : Q) : Q := inject_Z (rint (v * 100)) / 100.

(** The name of an output file: without ([None]) or with the value of a record, 88-89 and 95; two values have the
    same name if they print alike, here if they are the same number. *)
Definition name := option Q.
Definition sameName (a b : name) : bool :=
  match a, b with
  | None, None => true
  | Some x, Some y => Qeq_bool x y
  | _, _ => false
  end.

(** Lines 78-82: both coordinates moved by half the spacing of the longitudes; [None]: IndexError *)
Definition moved (lon lat : list Q) : option (list Q * list Q * Q) :=
  match lon with
  | x0 :: x1 :: _ => let delta := x1 - x0 in
      Some (map (fun x => x - delta / 2) lon, map (fun y => y - delta / 2) lat, delta)
  | _ => None
  end.

(** Lines 91-92 and 97-98: one grid, from north to south after [np.flipud]; [present]: the files there *)
Definition saveOne (present : list name) (n : name) (data : list (list Q)) (lon lat : list Q) (delta mv : Q) : saved :=
  grdSave fmt2 (existsb (sameName n) present) false (rev data) lon lat delta mv.

(** Lines 86-92: the records one after the other; the files written, and whether the loop came to its end *)
Fixpoint saveRecords (present : list name) (recs : list Q) (data : list (list (list Q))) (lon lat : list Q)
    (delta mv : Q) : list (name * gridfile) * bool :=
  match recs with
  | [] => ([], true)
  | v :: recs' =>
      match data with
      | [] => ([], false)
      | d :: data' =>
          match saveOne present (Some v) d lon lat delta mv with
          | SaveOk f => let (fs, ok) := saveRecords (Some v :: present) recs' data' lon lat delta mv in
                        ((Some v, f) :: fs, ok)
          | _ => ([], false)
          end
      end
  end.

(** The whole program: [recs] the values of the record dimension if one was named, and the variable with one grid
    for each of them or just one grid. *)
Inductive source := OneGrid (data : list (list Q)) | Records (recs : list Q) (data : list (list (list Q))).
Definition nc2txt (present : list name) (lon lat : list Q) (mv : Q) (src : source) : list (name * gridfile) * bool :=
  match moved lon lat with
  | None => ([], false)
  | Some (lon', lat', delta) =>
      match src with
      | OneGrid data => match saveOne present None data lon' lat' delta mv with
                        | SaveOk f => ([(None, f)], true)
                        | _ => ([], false)
                        end
      | Records recs data => saveRecords present recs data lon' lat' delta mv
      end
  end.
