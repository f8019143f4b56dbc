(** Wind multipliers, the rasters: ProcessMultipliers/processMultipliers.py: calculateBearing (723-741),
    createRaster (581-633), the calls of processMult (835-840), main (1213-1221), the call of processMult
    in wind/__init__.py (531-561, 738-770), combineDirections (278-315), computeOutputExtentIfInvalid
    (506-551), s3_path_segments_from_vsis3 (490-503).
    Coordinates are exact rationals, wind components real numbers; float32 storage and reprojection to
    the grid of the multipliers are not modelled. *)
From Coq Require Import List Arith ZArith Lia Bool QArith Qround Reals Ascii String.
From Verif Require Import CircleModel WindModel SphereModel UtilModel MultModel CellModel.
Import ListNotations.
Close Scope R_scope. Close Scope string_scope. Open Scope list_scope. Open Scope Q_scope.

(** 739-741 calculateBearing, one cell *)
Definition calculateBearing (uu vv : R) : R :=
  (180 / PI * rmod (2 * PI - (atan2 (- vv) (- uu) - PI / 2)) (2 * PI))%R.

(** 892-897, the mask of one sector with a real bearing (the table [indices] of MultModel) *)
Definition in_sectorR (b : R) (s : sector) : bool :=
  (negb (rlt b (Q2R (s_min s))) && rlt b (Q2R (s_max s)))%bool.

Section Raster.
  Context {A : Type}.
  (** A raster in memory: the geotransform (origin, pixel sizes; no rotation) and the rows. *)
  Record raster := { originX : Q; originY : Q; pixelX : Q; pixelY : Q; band : list (list A) }.
  (** The last element of a non-empty array; [None] is IndexError *)
  Definition last_error {B} (l : list B) : option B := nth_error l (List.length l - 1).
  (** 581-633. [None]: IndexError for empty coordinates, ValueError for a slice step of zero. *)
  Definition createRaster (array : list (list A)) (x y : list Q) (dx dy : Q) : option raster :=
    match nth_error x 0, last_error y with
    | Some ox, Some oy =>
        if Qeq_bool dy 0 then None
        else Some {| originX := ox; originY := oy; pixelX := dx; pixelY := dy;
                     band := if qlt 0 dy then array else rev array |}
    | _, _ => None
    end.
  (** What GDAL finds in a raster at a position: the pixel that contains it ([None]: outside). *)
  Definition pixel (o d p : Q) : Z := Qfloor ((p - o) / d).
  Definition at_ (r : raster) (px py : Q) : option A :=
    let c := pixel (originX r) (pixelX r) px in
    let l := pixel (originY r) (pixelY r) py in
    if ((c <? 0) || (l <? 0))%Z then None
    else match nth_error (band r) (Z.to_nat l) with
         | Some row => nth_error row (Z.to_nat c)
         | None => None
         end.
  (** 829-840 processMult, 953-961 processMultV2: the raster of a variable; [delta] is [lon[1] - lon[0]]. *)
  Definition windRaster (array : list (list A)) (lon lat : list Q) : option raster :=
    match nth_error lon 0, nth_error lon 1 with
    | Some l0, Some l1 => createRaster (rev array) lon lat (l1 - l0) (l1 - l0)
    | _, _ => None
    end.
  (** 1213-1221 main; wind/__init__.py 763-770 calcLocalWindfield: half a cell is subtracted from both
      coordinates before processMult. *)
  Definition shifted (lon lat : list Q) : option (list Q * list Q) :=
    match nth_error lon 0, nth_error lon 1 with
    | Some l0, Some l1 => let h := (l1 - l0) / 2 in
        Some (map (fun v => v - h) lon, map (fun v => v - h) lat)
    | _, _ => None
    end.
  Definition processRaster (array : list (list A)) (lon lat : list Q) : option raster :=
    match shifted lon lat with Some (lo, la) => windRaster array lo la | None => None end.
  (** A field on a grid: the wind fields of wind/__init__.py have ascending latitudes (lonGrid, latGrid,
      line 249-250, 330). The gust file holds the flipped field (551-558) and is read by
      processMultipliers.main; calcLocalWindfield (560-561, 763) is given the field itself. *)
  Record field := { f_lat : list Q; f_lon : list Q; f_val : list (list A) }.
  Definition gustFile (f : field) : field :=
    {| f_lat := rev (f_lat f); f_lon := f_lon f; f_val := rev (f_val f) |}.
  Definition mainRaster (f : field) : option raster :=
    let g := gustFile f in processRaster (f_val g) (f_lon g) (f_lat g).
  Definition calcLocalRaster (f : field) : option raster := processRaster (f_val f) (f_lon f) (f_lat f).
End Raster.
Arguments raster : clear implicits.
Arguments field : clear implicits.

(** * 278-315 combineDirections, one cell *)
(** numpy masked array cell: data and mask. *)
Record mcell := { m_data : Q; m_mask : bool }.
Definition nodata : Q := inject_Z (-9999).
(** [ma.masked_values(d, -9999)]; the tolerance of the comparison is not modelled. *)
Definition masked (d : Q) : mcell := {| m_data := d; m_mask := Qeq_bool d nodata |}.
(** numpy.ma multiplication: where the result is masked the data of the first operand are kept. *)
Definition mmul (a b : mcell) : mcell :=
  let m := (m_mask a || m_mask b)%bool in
  {| m_data := if m then m_data a else m_data a * m_data b; m_mask := m |}.
(** The value written to m4_<dir>.tif: [dataOut.data] *)
Definition combineCell (terrain topographic shielding : Q) : Q :=
  m_data (mmul (mmul (masked terrain) (masked topographic)) (masked shielding)).

(** * 506-551 computeOutputExtentIfInvalid *)
Record extent := { e_xMin : option Q; e_xMax : option Q; e_yMin : option Q; e_yMax : option Q }.
(** 657: GetGeoTransform and the size of the image *)
Record image := { gt0 : Q; gt1 : Q; gt2 : Q; gt3 : Q; gt4 : Q; gt5 : Q; im_width : Z; im_height : Z }.
Definition listMin (l : list Q) : option Q :=
  match l with [] => None | a :: l => Some (fold_left (fun m x => if qlt x m then x else m) l a) end.
Definition listMax (l : list Q) : option Q :=
  match l with [] => None | a :: l => Some (fold_left (fun m x => if qlt m x then x else m) l a) end.
Definition max2 (a b : Q) : Q := if qlt a b then b else a.
Definition min2 (a b : Q) : Q := if qlt b a then b else a.
(** [None]: ValueError of min() for an empty coordinate *)
Definition outputExtent (e : extent) (lon lat : list Q) (im : image) : option extent :=
  match e_xMin e, e_xMax e, e_yMin e, e_yMax e with
  | Some _, Some _, Some _, Some _ => Some e
  | _, _, _, _ =>
      match listMin lon, listMax lon, listMin lat, listMax lat with
      | Some x0, Some x1, Some y0, Some y1 =>
          let w := inject_Z (im_width im) in let h := inject_Z (im_height im) in
          Some {| e_xMin := Some (max2 x0 (gt0 im));
                  e_xMax := Some (min2 x1 (gt0 im + w * gt1 im + h * gt2 im));
                  e_yMin := Some (max2 y0 (gt3 im + w * gt4 im + h * gt5 im));
                  e_yMax := Some (min2 y1 (gt3 im)) |}
      | _, _, _, _ => None
      end
  end.
Definition noExtent : extent := {| e_xMin := None; e_xMax := None; e_yMin := None; e_yMax := None |}.

(** * 490-503 s3_path_segments_from_vsis3 *)
Inductive s3result := Segments (bucket key file : string) | S3ValueError | S3IndexError.
Definition s3segments (path : string) : s3result :=
  let segs := split "/"%char path in
  match segs with
  | [] => S3IndexError
  | s0 :: rest =>
      if negb (String.eqb s0 "")%string then S3ValueError
      else match rest with
           | [] => S3IndexError
           | s1 :: rest' =>
               if negb (String.eqb s1 "vsis3")%string then S3ValueError
               else match rest' with
                    | [] => S3IndexError
                    | s2 :: key => Segments s2 (join "/"%char key) (List.last segs ""%string)
                    end
           end
  end.
