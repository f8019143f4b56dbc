(** Regional wind extremes: wind/__init__.py:120-141, 212-330, 478-508 and
    Utilities/maputils.py:469-531. Exact rationals stand for floats. *)
From Verif Require Import Base TileModel.
From Coq Require Import QArith Qround.
Open Scope Z_scope.

(** Python [int(x)]: truncation towards zero. *)
Definition qint (x : Q) : Z := Z.quot (Qnum x) (QDen x).

(** Values kept for one grid point: gust, bearing, eastward and northward component, pressure
    (wind/__init__.py:262-266). *)
Record cell := { g : Q; b : Q; u : Q; v : Q; p : Q }.

(** wind/__init__.py:306-322 at one grid point: one mask for gust, bearing and components,
    a separate one for the pressure. *)
Definition upd_cell (old loc : cell) : cell :=
  let mask := negb (Qle_bool (g loc) (g old)) in          (* localGust > gust *)
  let low := negb (Qle_bool (p old) (p loc)) in           (* P < pressure *)
  {| g := if mask then g loc else g old;
     b := if mask then b loc else b old;
     u := if mask then u loc else u old;
     v := if mask then v loc else v old;
     p := if low then p loc else p old |}.

Definition grid := Z -> Z -> cell.                          (* row (lat), column (lon) *)

(** A local field: number of rows, of columns, values indexed from 0. *)
Record local := { rows : Z; cols : Z; val : Z -> Z -> cell }.

(** Half-open window of grid indices (jmin, jmax, imin, imax). *)
Definition win := (Z * Z * Z * Z)%type.

(** [a[jmin:jmax, imin:imax] = np.where(mask, local, a[jmin:jmax, imin:imax])]. *)
Definition upd_grid (w : win) (l : local) (a : grid) : grid :=
  let '(jmin, jmax, imin, imax) := w in
  fun j i => if (jmin <=? j) && (j <? jmax) && (imin <=? i) && (i <? imax)
             then upd_cell (a j i) (val l (j - jmin) (i - imin)) else a j i.

(** Limits of the centidegree grid along one axis (wind/__init__.py:247-257). *)
Record axis := { amin : Z; amax : Z; astep : Z; amargin : Z }.
Definition mk_axis (lo hi margin res : Q) : axis :=
  let m := qint (100 * margin) in
  {| amin := qint (100 * lo) - m; amax := qint (100 * hi) + m;
     astep := qint (100 * res); amargin := m |}.
(** [len(np.arange(a, b, s))] for [s > 0]. *)
Definition arange_len (a c s : Z) : Z := Z.max 0 (zceil (c - a) s).
Definition axis_len (ax : axis) : Z := arange_len (amin ax) (amax ax + astep ax) (astep ax).
(** Grid coordinate (centidegrees) of index k. *)
Definition axis_coord (ax : axis) (k : Z) : Z := amin ax + k * astep ax.

Inductive domain := Full | Bounded.

(** wind/__init__.py:282-297: index window along one axis for a centre at [c] centidegrees. *)
Definition axis_win (d : domain) (ax : axis) (c : Z) : Z * Z :=
  match d with
  | Full => (0, Z.quot (amax ax - amin ax + 2 * amargin ax) (astep ax) + 1)
  | Bounded => (Z.quot (c - amin ax - amargin ax) (astep ax),
                Z.quot (c - amin ax + amargin ax) (astep ax) + 1)
  end.
(** numpy clips a slice to the array. *)
Definition clip (w : Z * Z) (n : Z) : Z * Z := (fst w, Z.min (snd w) n).

(** Utilities/maputils.py:494-515 and wind/__init__.py:128-140, number of points along one axis.
    [lim] is [Some (min, max)] with domain 'full'. [if minLon:] treats 0 as absent. *)
Definition truthy (x : Q) : bool := negb (Qeq_bool x 0).
Definition makeGrid_len (c margin res : Q) (lim : option (Q * Q)) : Z :=
  let m := qint (1000 * margin) in
  let lo := match lim with
            | Some (a, _) => if truthy a then qint (1000 * a) else qint (1000 * c)
            | None => qint (1000 * c) end - m in
  let hi := match lim with
            | Some (_, z) => if truthy z then qint (1000 * z) else qint (1000 * c)
            | None => qint (1000 * c) end + m + 1 in
  arange_len lo hi (qint (res * 1000)).

(** wind/__init__.py:271-274: inclusive test with the unextended region. *)
Definition in_region (xMin xMax yMin yMax : Q) (pos : Q * Q) : bool :=
  Qle_bool xMin (fst pos) && Qle_bool (fst pos) xMax &&
  Qle_bool yMin (snd pos) && Qle_bool (snd pos) yMax.

Inductive wf_error := BadShape | ZeroStep.

(** wind/__init__.py:278-322: loop over the time steps in the region.
    [steps] pairs each position with the local field computed for it. *)
Fixpoint run_steps (d : domain) (xMin xMax yMin yMax : Q) (axlon axlat : axis)
    (steps : list ((Q * Q) * local)) (a : grid) : grid + wf_error :=
  match steps with
  | [] => inl a
  | (pos, l) :: rest =>
      if in_region xMin xMax yMin yMax pos then
        let '(jmin, jmax) := clip (axis_win d axlat (qint (100 * snd pos))) (axis_len axlat) in
        let '(imin, imax) := clip (axis_win d axlon (qint (100 * fst pos))) (axis_len axlon) in
        if (rows l =? jmax - jmin) && (cols l =? imax - imin)
        then run_steps d xMin xMax yMin yMax axlon axlat rest
               (upd_grid (jmin, jmax, imin, imax) l a)
        else inr BadShape                       (* numpy cannot broadcast *)
      else run_steps d xMin xMax yMin yMax axlon axlat rest a
  end.

Definition zero_cell (env : Q) : cell := {| g := 0; b := 0; u := 0; v := 0; p := env |}.

(** wind/__init__.py:212-330 regionalExtremes. Each time step carries its position and the
    values that localWindField and the gust formula give there (wind/__init__.py:299-307, not
    modelled); the shape of the local arrays is the one makeGrid gives. *)
Definition local_of (d : domain) (xMin xMax yMin yMax margin res : Q) (pos : Q * Q)
    (f : Z -> Z -> cell) : local :=
  {| rows := makeGrid_len (snd pos) margin res
               (match d with Full => Some (yMin, yMax) | Bounded => None end);
     cols := makeGrid_len (fst pos) margin res
               (match d with Full => Some (xMin, xMax) | Bounded => None end);
     val := f |}.

Definition regionalExtremes (d : domain) (xMin xMax yMin yMax margin res env : Q)
    (track : list ((Q * Q) * (Z -> Z -> cell))) : grid + wf_error :=
  if qint (100 * res) =? 0 then inr ZeroStep
  else
    run_steps d xMin xMax yMin yMax
      (mk_axis xMin xMax margin res) (mk_axis yMin yMax margin res)
      (map (fun pf => (fst pf, local_of d xMin xMax yMin yMax margin res (fst pf) (snd pf)))
         track)
      (fun _ _ => zero_cell env).

(** wind/__init__.py:494-508 at one grid point: combine the results of several tracks.
    [gust] is updated first and then used in the masks of the components; the bearing is
    never updated. *)
Definition comb_cell (old new : cell) : cell :=
  let gust := if negb (Qle_bool (g new) (g old)) then g new else g old in
  let mask := negb (Qle_bool (g new) gust) in
  {| g := gust; b := b old;
     u := if mask then u new else u old;
     v := if mask then v new else v old;
     p := if negb (Qle_bool (p old) (p new)) then p new else p old |}.
(** [next(results)] on an empty file raises StopIteration. *)
Definition combine_tracks (l : list cell) : option cell :=
  match l with [] => None | c :: l' => Some (fold_left comb_cell l' c) end.
