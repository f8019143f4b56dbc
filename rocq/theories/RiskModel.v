(** From the directory of wind fields to the arrays of return levels: hazard/__init__.py:44-61 (setDomain), 264-328
    (calculateHazard), 579-794 (calculateGEV and its three copies), 865-949 (aggregateWindFields, loadFilesFromPath,
    loadFile) and 977-1033 (run) on one process, with the tiles of TileModel.  Wind speeds are integers in some small
    unit; the fits of hazard/evd.py are a parameter (FitModel, FitRModel, LmomModel have them). *)
From Coq Require Import List ZArith Bool String.
From Verif Require Import MWModel TileModel.
Import ListNotations.
Open Scope Z_scope.

(** A wind field: number of the simulation in its name (gust.KKK-SSSSS.nc), axes in thousandths of a degree, and vmax
    by row and column. *)
Record field := { w_sim : nat; w_lon : list Z; w_lat : list Z; w_val : Z -> Z -> Z }.
(** The entries of output/windfield in the order of os.listdir; [Foreign]: any other file. *)
Inductive entry := Gust (w : field) | Foreign.

(** setDomain, 44-61: the axes of the first file; [None]: IndexError, or an error on a foreign file *)
Definition setDomain (dir : list entry) : option (list Z * list Z) :=
  match dir with Gust w :: _ => Some (w_lon w, w_lat w) | _ => None end.

Definition zlen {A} (l : list A) : Z := Z.of_nat (List.length l).
(** loadFile, 922-949, assigned to an array of the size of the tile; [None]: ValueError for a field that is too small
    (numpy would still broadcast a single row or column) *)
Definition loadFile (t : Z * Z * Z * Z) (w : field) : option (Z -> Z -> Z) :=
  let '(xmin, xmax, ymin, ymax) := t in
  if (ymax <=? zlen (w_lat w)) && (xmax <=? zlen (w_lon w))
  then Some (fun y x => w_val w (y + ymin) (x + xmin)) else None.

Fixpoint mapO {A B} (f : A -> option B) (l : list A) : option (list B) :=
  match l with
  | [] => Some []
  | a :: r => match f a, mapO f r with Some b, Some s => Some (b :: s) | _, _ => None end
  end.

(** aggregateWindFields, 865-894: the files of a year found by name; the greatest value at each point, zeros for a
    year without files *)
Definition ofYear (year : nat) (dir : list entry) : list field :=
  flat_map (fun e => match e with Gust w => if Nat.eqb (w_sim w) year then [w] else [] | Foreign => [] end) dir.
Definition yearMax (t : Z * Z * Z * Z) (dir : list entry) (year : nat) : option (Z -> Z -> Z) :=
  match ofYear year dir with
  | [] => Some (fun _ _ => 0)
  | w :: r => match loadFile t w, mapO (loadFile t) r with
              | Some b, Some bs => Some (fun y x => fold_left Z.max (map (fun c => c y x) bs) (b y x))
              | _, _ => None
              end
  end.
Definition aggregateWindFields (numsim : nat) (dir : list entry) (t : Z * Z * Z * Z) : option (list (Z -> Z -> Z)) :=
  mapO (yearMax t dir) (seq 0 numsim).
(** loadFilesFromPath, 896-920: every file of the directory.  (They are read in the order of their names, which is the
    order of [dir] here: the columns are sorted anyway.) *)
Definition loadEntry (t : Z * Z * Z * Z) (e : entry) : option (Z -> Z -> Z) :=
  match e with Gust w => loadFile t w | Foreign => None end.
Definition loadFilesFromPath (dir : list entry) (t : Z * Z * Z * Z) : option (list (Z -> Z -> Z)) := mapO (loadEntry t) dir.

(** 283-322: the distribution named in Hazard/ExtremeValueDistribution *)
Inductive evd := GEV | GPD | Power | Emp.
Definition evdOf (name : string) : option evd :=
  if String.eqb name "GPD" then Some GPD else if String.eqb name "GEV" then Some GEV
  else if String.eqb name "power" then Some Power else if String.eqb name "emp" then Some Emp else None.
Definition records (d : evd) (numsim : nat) (dir : list entry) (t : Z * Z * Z * Z) : option (list (Z -> Z -> Z)) :=
  match d with GEV => aggregateWindFields numsim dir t | _ => loadFilesFromPath dir t end.

Fixpoint insertz (a : Z) (l : list Z) : list Z :=
  match l with [] => [a] | b :: r => if a <=? b then a :: l else b :: insertz a r end.
Definition sortz (l : list Z) : list Z := fold_right insertz [] l.

Section Risk.
  (** what is stored for a cell: return levels and three parameters *)
  Context {V : Type}.
  Variable zero : V.
  (** the fit of a sorted column; [None]: an exception *)
  Variable fit : evd -> list Z -> option V.

  (** 606-626, 659-678, 712-738, 769-793: one cell *)
  Definition cell (d : evd) (column : list Z) : option V :=
    match column with
    | [] => None
    | _ => if existsb (fun v => 0 <? v) column then fit d (sortz column) else Some zero
    end.
  Definition zrange (n : Z) : list Z := map Z.of_nat (seq 0 (Z.to_nat n)).
  (** calculateHazard, 264-328, without confidence intervals *)
  Definition calcTile (d : evd) (numsim : nat) (dir : list entry) (t : Z * Z * Z * Z) : option (Z -> Z -> V) :=
    let '(xmin, xmax, ymin, ymax) := t in
    match records d numsim dir t with
    | None => None
    | Some vr =>
        let at_ y x := cell d (map (fun b => b y x) vr) in
        if forallb (fun y => forallb (fun x => match at_ y x with Some _ => true | None => false end) (zrange (xmax - xmin)))
                   (zrange (ymax - ymin))
        then Some (fun y x => match at_ y x with Some v => v | None => zero end) else None
    end.
  (** run, 977-1033; [limits]: the domain in thousandths of a degree, [steps]: the size of the tiles (100 x 100) *)
  Record limits := { l_xMin : Z; l_xMax : Z; l_yMin : Z; l_yMax : Z }.
  Definition tilegrid (dir : list entry) (l : limits) (xs ys : Z) : option tgrid :=
    match setDomain dir with
    | None => None
    | Some (lon, lat) => mk_tgrid lon lat (l_xMin l) (l_xMax l) (l_yMin l) (l_yMax l) xs ys
    end.
  Definition hazardOn (d : evd) (numsim : nat) (dir : list entry) (g : tgrid) : option (Z -> Z -> V) :=
    serial (calc_tile (calcTile d numsim dir)) (store_tile g) (fun _ _ => zero) (get_tiles g).
  Definition run (name : string) (numsim : nat) (dir : list entry) (l : limits) (xs ys : Z) : option (Z -> Z -> V) :=
    match tilegrid dir l xs ys, evdOf name with
    | Some g, Some d => hazardOn d numsim dir g
    | _, _ => None
    end.
  (** getDomainExtent, 181-194, and saveHazard, 433-577: the axes of the file *)
  Definition slice {A} (a b : Z) (l : list A) : list A := firstn (Z.to_nat (b - a)) (skipn (Z.to_nat a) l).
  Definition domainExtent (dir : list entry) (g : tgrid) : option (list Z * list Z) :=
    match setDomain dir with
    | None => None
    | Some (lon, lat) => Some (slice (imin g) (imax g + 1) lon, slice (jmin g) (jmax g + 1) lat)
    end.
End Risk.

(** saveHazard, 513-545: the percentages recorded with the confidence limits, whatever Hazard/PercentileRange *)
Definition recordedPercentiles (prange : Z) : Z * Z := (5, 95).
(** calculateCI, 822-823, in half per cents *)
Definition usedPercentiles (prange : Z) : Z * Z := (100 - prange, 200 - (100 - prange)).
