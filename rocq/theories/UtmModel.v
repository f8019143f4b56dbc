(** Conversion to and from UTM coordinates: Utilities/lat_long_UTM_conversion.py:75-282, and the option
    [coords='UTM'] of grdSave, Utilities/grid.py:79-83. Numbers are exact rationals. Only the operations up to the
    first exception are modelled: both conversions use the name [int], which is the built-in type, where the
    longitude is meant, so that nothing after these lines is ever reached. *)
From Coq Require Import List ZArith QArith Qround Ascii.
From Verif Require Import CellModel NumModel GridFileModel.
Import ListNotations.

(** _UTMLetterDesignator, lat_long_UTM_conversion.py:157-184. [qle], [qlt]: <=, < *)
Definition qle (a b : Q) : bool := Qle_bool a b.
Definition between (lo hi : Z) (lat : Q) : bool := qlt lat (inject_Z hi) && qle (inject_Z lo) lat.
Definition letter (lat : Q) : ascii :=
  if qle lat 84 && qle 72 lat then "X"%char else if between 64 72 lat then "W"%char else if between 56 64 lat then "V"%char
  else if between 48 56 lat then "U"%char else if between 40 48 lat then "T"%char else if between 32 40 lat then "S"%char
  else if between 24 32 lat then "R"%char else if between 16 24 lat then "Q"%char else if between 8 16 lat then "P"%char
  else if between 0 8 lat then "N"%char else if between (-8) 0 lat then "M"%char else if between (-16) (-8) lat then "L"%char
  else if between (-24) (-16) lat then "K"%char else if between (-32) (-24) lat then "J"%char else if between (-40) (-32) lat then "H"%char
  else if between (-48) (-40) lat then "G"%char else if between (-56) (-48) lat then "F"%char else if between (-64) (-56) lat then "E"%char
  else if between (-72) (-64) lat then "D"%char else if between (-80) (-72) lat then "C"%char else "Z"%char.

(** Values of Python expressions: a number, the built-in type [int], or a TypeError *)
Inductive val := Num (q : Q) | IntType | TypeErr.
Definition py_op (f : Q -> Q -> Q) (a b : val) : val := match a, b with Num x, Num y => Num (f x y) | _, _ => TypeErr end.
(** [int(a)]: truncation *)
Definition py_int (a : val) : val :=
  match a with Num q => Num (inject_Z (if qlt q 0 then Qceiling q else Qfloor q)) | _ => TypeErr end.
(** Line 100: [(int+180)-int((int+180)/360)*360-180] for the value of the name used *)
Definition longTemp (l : val) : val :=
  let s := py_op Qplus l (Num 180) in
  py_op Qminus (py_op Qminus s (py_op Qmult (py_int (py_op Qdiv s (Num 360))) (Num 360))) (Num 180).
(** The name in line 100 is [int], the longitude is the argument [long]. [None]: TypeError; [rest] what would follow *)
Definition LLtoUTM {A} (rest : Q -> Q -> A) (lat long : Q) : option A :=
  match longTemp IntType with Num l => Some (rest lat l) | _ => None end.
(** Lines 278-282: [long = longOrigin + int * _rad2deg] after everything else *)
Definition UTMtoLL (latOf : Q -> Q -> Q) (rad2deg longOrigin northing easting : Q) : option (Q * val) :=
  match py_op Qplus (Num longOrigin) (py_op Qmult IntType (Num rad2deg)) with
  | Num _ => Some (latOf northing easting, IntType) | _ => None end.
(** grdSave with [coords='UTM'], grid.py:66-103: the file is opened, and emptied, before the conversion *)
Definition grdSaveUTM (rest : Q -> Q -> Q * Q) (metres : Q -> Q) (fmt : Q -> Q) (exist gz : bool) (data : list (list Q))
    (lon lat : list Q) (delta nodata : Q) : saved :=
  if exist then (if gz then SaveBroken else SaveRefused)
  else match lon, lat with
       | x :: lx, y :: ly =>
           match LLtoUTM rest (amin y ly) (amin x lx) with
           | Some (e, n) => SaveOk (mkGf (List.length lon) (List.length lat) e n (metres delta) nodata (map (map fmt) data))
           | None => SaveBroken
           end
       | _, _ => SaveBroken
       end.
