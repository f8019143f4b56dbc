(** Grid cells and the samples drawn from them: Utilities/stats.py:89-150, 233-240,
    StatInterface/GenerateDistributions.py:235-319, 336-366 and
    StatInterface/generateStats.py:251-383.
    Domain limits and cell sizes are whole degrees (integers, also when written as floats);
    positions are rationals. *)
From Coq Require Import QArith Qround.
From Verif Require Import Base TileModel.
Close Scope Q_scope. Open Scope Z_scope.

Record glimit := { xMin : Z; xMax : Z; yMin : Z; yMax : Z }.
Record gspace := { gx : Z; gy : Z }.

(** stats.py:89-103 getCellNum; [None] is the ValueError. *)
Definition getCellNum (lon lat : Q) (g : glimit) (s : gspace) : option Z :=
  let lon := Qfloor lon in
  let lat := Qceiling lat in
  if (lon <? xMin g) || (xMax g <=? lon) || (lat <=? yMin g) || (yMax g <? lat) then None
  else
    let j := Z.abs (Z.abs lon - Z.abs (xMin g)) / Z.abs (gx s) in
    let i := Z.abs (Z.abs lat - Z.abs (yMax g)) / Z.abs (gy s) in
    Some (i * Z.abs ((xMax g - xMin g) / gx s) + j).

(** [np.size(np.arange(a, b, step))] for positive step (and, mirrored, for a negative one). *)
Definition arange_size (a b step : Z) : Z := Z.max 0 (zceil (b - a) step).
Definition latCells (g : glimit) (s : gspace) : Z := arange_size (yMin g) (yMax g) (gy s).
Definition lonCells (g : glimit) (s : gspace) : Z := arange_size (xMin g) (xMax g) (gx s).

(** stats.py:106-117 getCellLonLat; [None] is the IndexError. *)
Definition getCellLonLat (c : Z) (g : glimit) (s : gspace) : option (Z * Z) :=
  if c <? 0 then None
  else
    let indLat := c / lonCells g s in
    let indLon := c mod lonCells g s in
    if (indLat <? latCells g s) && (indLon <? lonCells g s)
    then Some (xMin g + indLon * gx s, yMax g - indLat * gy s) else None.
(** stats.py:139-150 *)
Definition maxCellNum (g : glimit) (s : gspace) : Z := latCells g s * lonCells g s - 1.
(** stats.py:120-136 *)
Definition validCellNum (c : Z) (g : glimit) (s : gspace) : bool :=
  if c <? 0 then false else if c >? latCells g s * lonCells g s - 1 then false else true.

(** One observation: position, land flag and value ([None]: the missing value). *)
Record obs := { o_lon : Q; o_lat : Q; o_ls : Q; o_val : option Q }.
Record box := { wLon : Q; eLon : Q; nLat : Q; sLat : Q }.
Definition qlt (a b : Q) : bool := negb (Qle_bool b a).
(** GenerateDistributions.py:265-266 *)
Definition in_box (b : box) (o : obs) : bool :=
  (Qle_bool (sLat b) (o_lat o) && qlt (o_lat o) (nLat b)) &&
  (Qle_bool (wLon b) (o_lon o) && qlt (o_lon o) (eLon b)).
(** 267-269 with statRemoveNum (stats.py:233-240): missing values removed. *)
Definition keep_vals (l : list obs) : list Q :=
  flat_map (fun o => match o_val o with Some v => [v] | None => [] end) l.

Section Extract.
  Variables (xMn xMx yMn yMx : Q).      (* gridLimit *)
  Variables (ix iy : Q).                (* gridInc *)
  (** Observations considered: all of them (GenerateDistributions), or those with the land flag
      wanted (generateStats.py:283-288: [lsflag > 0] on land, [lsflag == 0] at sea). *)
  Variable sel : obs -> bool.
  Variable data : list obs.
  Variable minSample : nat.

  Definition sample (b : box) : list Q := keep_vals (filter (fun o => in_box b o && sel o) data).
  (** _checkGridLimits (GenerateDistributions.py:354-366, generateStats.py:369-383) *)
  Definition checkGridLimits (b : box) : box :=
    {| wLon := if qlt (wLon b) xMn then xMn else wLon b;
       eLon := if qlt xMx (eLon b) then xMx else eLon b;
       nLat := if qlt yMx (nLat b) then yMx else nLat b;
       sLat := if qlt (sLat b) yMn then yMn else sLat b |}.
  (** _expandCell (GenerateDistributions.py:336-352) *)
  Definition expandCell (b : box) : box :=
    checkGridLimits {| wLon := wLon b - ix; eLon := eLon b + ix;
                       nLat := nLat b + iy; sLat := sLat b - iy |}%Q.
  Definition same_box (a b : box) : bool :=
    Qeq_bool (wLon a) (wLon b) && Qeq_bool (eLon a) (eLon b) &&
    Qeq_bool (nLat a) (nLat b) && Qeq_bool (sLat a) (sLat b).

  Inductive outcome := Sample (p : list Q) (b : box) | Exhausted | OutOfFuel.
  (** 272-291 and 297-316: a loop that grows the cell while [bad] holds of the sample. *)
  Fixpoint grow (bad : list Q -> bool) (fuel : nat) (b : box) : outcome :=
    if bad (sample b) then
      match fuel with
      | O => OutOfFuel
      | S fuel => let b' := expandCell b in
                  if same_box b' b then Exhausted else grow bad fuel b'
      end
    else Sample (sample b) b.
  Definition too_few (p : list Q) : bool := (length p <=? minSample)%nat.
  (** [p.max() == p.min()] *)
  Definition all_same (p : list Q) : bool :=
    match p with [] => false | x :: p' => forallb (fun y => Qeq_bool y x) p' end.
  (** 235-319 extractParameter from the first window on: the two loops in sequence. *)
  Definition extract (fuel : nat) (b : box) : outcome :=
    match grow too_few fuel b with
    | Sample _ b1 => grow all_same fuel b1
    | r => r
    end.
End Extract.

(** 257-263: the first window of a cell. *)
Definition cell_box (g : glimit) (s : gspace) (lon lat : Z) : box :=
  {| wLon := inject_Z lon; eLon := inject_Z (lon + gx s); nLat := inject_Z lat; sLat := inject_Z (lat - gy s) |}.
(** GenerateDistributions.extractParameter of a cell number; [None] is the IndexError. *)
Definition extractParameter (g : glimit) (s : gspace) (ix iy : Q) data minSample fuel (c : Z) : option outcome :=
  if negb (validCellNum c g s) then None
  else match getCellLonLat c g s with
       | None => None
       | Some (lon, lat) =>
           Some (extract (inject_Z (xMin g)) (inject_Z (xMax g)) (inject_Z (yMin g)) (inject_Z (yMax g)) ix iy
                   (fun _ => true) data minSample fuel (cell_box g s lon lat))
       end.
(** GenerateStats.extractParameter (generateStats.py:251-351): an exhausted search over land
    starts again over sea (314, 339). *)
Definition extractParameterLS (g : glimit) (s : gspace) (ix iy : Q) data minSample fuel (c : Z) (onLand : bool) : option outcome :=
  if negb (validCellNum c g s) then None
  else match getCellLonLat c g s with
       | None => None
       | Some (lon, lat) =>
           let go sel := extract (inject_Z (xMin g)) (inject_Z (xMax g)) (inject_Z (yMin g)) (inject_Z (yMax g)) ix iy
                   sel data minSample fuel (cell_box g s lon lat) in
           let sea := go (fun o => Qeq_bool (o_ls o) 0) in
           Some (if onLand then match go (fun o => qlt 0 (o_ls o)) with Exhausted => sea | r => r end else sea)
       end.
