(** Hazard tiles and the output arrays: hazard/__init__.py:81-194, 352-429, 952-974. *)
From Verif Require Import Base MWModel.
Open Scope Z_scope.

(** hazard/__init__.py:88-131, attributes of a TileGrid after construction.
    Index pairs are inclusive. *)
Record tgrid := { imin : Z; imax : Z; jmin : Z; jmax : Z; xstep : Z; ystep : Z }.
Definition xdim (g : tgrid) : Z := imax g - imin g + 1.   (* hazard/__init__.py:122 *)
Definition ydim (g : tgrid) : Z := jmax g - jmin g + 1.   (* hazard/__init__.py:123 *)

(** hazard/__init__.py:107-115: [((c >= lo) & (c <= hi)).nonzero()].
    Coordinates are given in thousandths of a degree, already rounded to integers
    (np.round(wf_lon*1000).astype(int)). *)
Fixpoint sel_indices (k : Z) (c : list Z) (lo hi : Z) : list Z :=
  match c with
  | [] => []
  | x :: c' => if (lo <=? x) && (x <=? hi) then k :: sel_indices (k+1) c' lo hi
               else sel_indices (k+1) c' lo hi
  end.

(** hazard/__init__.py:88-131: [ii[0]], [ii[-1]]; [None] is the IndexError on an empty selection. *)
Definition mk_tgrid (lon lat : list Z) (xMin xMax yMin yMax xs ys : Z) : option tgrid :=
  match sel_indices 0 lon xMin xMax, sel_indices 0 lat yMin yMax with
  | i0 :: ii, j0 :: jj =>
      Some {| imin := i0; imax := last (i0 :: ii) 0; jmin := j0; jmax := last (j0 :: jj) 0;
              xstep := xs; ystep := ys |}
  | _, _ => None
  end.

(** [int(np.ceil(a / float(b)))] for positive [b]. *)
Definition zceil (a b : Z) : Z := - ((- a) / b).

(** hazard/__init__.py:139-140 *)
Definition maxcols (g : tgrid) : Z := zceil (xdim g) (xstep g).
Definition maxrows (g : tgrid) : Z := zceil (ydim g) (ystep g).

(** hazard/__init__.py:148-156, one loop iteration: (x_start, x_end, y_start, y_end). *)
Definition tile_at (g : tgrid) (i j : Z) : Z * Z * Z * Z :=
  (i * xstep g + imin g,
   Z.min ((i + 1) * xstep g + imin g) (xdim g + imin g) - 1,
   j * ystep g + jmin g,
   Z.min ((j + 1) * ystep g + jmin g) (ydim g + jmin g) - 1).

(** hazard/__init__.py:148-156: the nested loops fill position k = 0, 1, ... *)
Definition tile_arrays (g : tgrid) : list (Z * Z * Z * Z) :=
  flat_map (fun i => map (fun j => tile_at g (Z.of_nat i) (Z.of_nat j))
                         (seq 0 (Z.to_nat (maxrows g))))
           (seq 0 (Z.to_nat (maxcols g))).

(** hazard/__init__.py:159-179: half-open limits (x1, x2, y1, y2). *)
Definition grid_limit (t : Z * Z * Z * Z) : Z * Z * Z * Z :=
  let '(xs, xe, ys, ye) := t in (xs, xe + 1, ys, ye + 1).

(** hazard/__init__.py:952-974 getTiles / getTileLimits for all tile numbers. *)
Definition get_tiles (g : tgrid) : list (Z * Z * Z * Z) := map grid_limit (tile_arrays g).

Section Arrays.
  Context {V : Type}.
  (** One output array, indexed (row, column). [V] stands for all values kept for a grid
      point (Rp[:, y, x], loc, scale, shp and, with calcCI, RPupper[:, y, x], RPlower[:, y, x]). *)
  Definition arr := Z -> Z -> V.
  (** A result: the limits and the block of values, indexed from 0 (hazard/__init__.py:324-328). *)
  Definition hres := ((Z * Z * Z * Z) * arr)%type.

  (** hazard/__init__.py:362-378 (and 415-427): [a[ymin:ymax, xmin:xmax] = block]
      after subtracting imin/jmin.  The block has the shape of the slice; indices are
      non-negative (proved: tiles lie inside the domain). *)
  Definition store_tile (g : tgrid) (a : arr) (r : hres) : arr :=
    let '((xmin, xmax, ymin, ymax), b) := r in
    let xmin := xmin - imin g in let xmax := xmax - imin g in
    let ymin := ymin - jmin g in let ymax := ymax - jmin g in
    fun y x => if (ymin <=? y) && (y <? ymax) && (xmin <=? x) && (x <? xmax)
               then b (y - ymin) (x - xmin) else a y x.

  (** hazard/__init__.py:264-328 calculateHazard: returns the given limits together with
      the block; [None] is an exception. [f] computes the block. *)
  Definition calc_tile (f : Z * Z * Z * Z -> option arr) (t : Z * Z * Z * Z) : option hres :=
    match f t with Some b => Some (t, b) | None => None end.
End Arrays.
