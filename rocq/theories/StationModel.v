(** Station time series (Utilities/timeseries.py), their local adjustment
    (Utilities/tsmultipliers.py) and the runs that produce them (wind/__init__.py).
    Numbers are exact rationals; the wind bearing computed from the components is a parameter.
    The growable record arrays are lists (see UtilModel, C39). *)
From Coq Require Import List Arith ZArith Bool QArith String.
From Verif Require Import CellModel NumModel UtilModel.
Import ListNotations.
Open Scope Q_scope.

(** timeseries.py:67-73, without the data *)
Record station := mkSt { sid : string; slon : Q; slat : Q }.
(** One record, timeseries.py:31-34 *)
Record rcd := mkRc { rid : string; rtm : string; rlon : Q; rlat : Q;
                     rspd : Q; ruu : Q; rvv : Q; rbrg : Q; rprs : Q }.
(** The format [|U16] of the first two columns keeps 16 characters, timeseries.py:34 *)
Definition u16 (s : string) : string := substring 0 16 s.

(** The arguments of one call of the time step callback, wind/__init__.py:304-309: the time,
    speed, components and pressure on the local grid (rows are latitudes) and its coordinates. *)
Record tstep := mkTs { tdt : string; tspd : list (list Q); tuu : list (list Q);
                       tvv : list (list Q); tprs : list (list Q); tgx : list Q; tgy : list Q }.

Definition cellOf (g : list (list Q)) (y x : nat) : option Q :=
  match nth_error g y with Some row => nth_error row x | None => None end.

(** Station.insideGrid, timeseries.py:85-96; [None]: ValueError of [min] of an empty array. *)
Definition insideGrid (st : station) (gx gy : list Q) : option bool :=
  match gx with
  | [] => None
  | x :: lx =>
      if Qle_bool (amin x lx) (slon st) && Qle_bool (slon st) (amax x lx) then
        match gy with
        | [] => None
        | y :: ly => Some (Qle_bool (amin y ly) (slat st) && Qle_bool (slat st) (amax y ly))
        end
      else Some false
  end.

Section Series.
  (** [np.mod((180/pi) * np.arctan2(-ux, -vy), 360)], timeseries.py:198 *)
  Variable brg : Q -> Q -> Q.

  (** Timeseries.sample, timeseries.py:176-201; [None]: IndexError or ValueError. *)
  Definition sample (st : station) (p : tstep) : option (Q * Q * Q * Q * Q) :=
    match findIndex (tgx p) (slon st), findIndex (tgy p) (slat st) with
    | Some xx, Some yy =>
        match cellOf (tspd p) yy xx, cellOf (tuu p) yy xx, cellOf (tvv p) yy xx, cellOf (tprs p) yy xx with
        | Some ss, Some ux, Some vy, Some pp => Some (ss, ux, vy, brg ux vy, pp)
        | _, _, _, _ => None
        end
    | _, _ => None
    end.

  (** The body of the loop of Timeseries.extract, timeseries.py:220-231 *)
  Definition extract1 (p : tstep) (st : station) : option rcd :=
    match insideGrid st (tgx p) (tgy p) with
    | None => None
    | Some true =>
        match sample st p with
        | Some (ss, ux, vy, bb, pp) =>
            Some (mkRc (u16 (sid st)) (u16 (tdt p)) (slon st) (slat st) ss ux vy bb pp)
        | None => None
        end
    | Some false =>
        match cellOf (tprs p) 0 0 with
        | Some pp => Some (mkRc (u16 (sid st)) (u16 (tdt p)) (slon st) (slat st) 0 0 0 0 pp)
        | None => None
        end
    end.

  (** Timeseries.extract, timeseries.py:204-232: every station gets one more record.  An
      exception ends the run; the records appended before it are not modelled. *)
  Fixpoint extract (p : tstep) (tbl : list (station * list rcd)) : option (list (station * list rcd)) :=
    match tbl with
    | [] => Some []
    | (st, rs) :: tbl' =>
        match extract1 p st, extract p tbl' with
        | Some r, Some t => Some ((st, rs ++ [r])%list :: t)
        | _, _ => None
        end
    end.

  (** timeseries.py:146-173: the table starts with empty series. *)
  Definition fresh (sts : list station) : list (station * list rcd) := map (fun s => (s, [])) sts.

  (** The calls of the callback over a run, wind/__init__.py:269-309 *)
  Fixpoint runSteps (ps : list tstep) (tbl : list (station * list rcd)) : option (list (station * list rcd)) :=
    match ps with
    | [] => Some tbl
    | p :: ps' => match extract p tbl with Some t => runSteps ps' t | None => None end
    end.

  (** WindfieldGenerator.dumpGustsFromTracks, wind/__init__.py:531-545, as far as the callback is
      concerned: a track with a complete gust file ([done]) is skipped before the callback is used. *)
  Fixpoint runTracks {T} (done : T -> bool) (stepsOf : T -> list tstep) (ts : list T)
      (tbl : list (station * list rcd)) : option (list (station * list rcd)) :=
    match ts with
    | [] => Some tbl
    | t :: ts' =>
        if done t then runTracks done stepsOf ts' tbl
        else match runSteps (stepsOf t) tbl with Some tbl' => runTracks done stepsOf ts' tbl' | None => None end
    end.
End Series.

(** [np.argmax]: the first largest entry. *)
Fixpoint argmaxFrom (l : list Q) (i b : nat) (v : Q) : nat :=
  match l with
  | [] => b
  | y :: l' => if qlt v y then argmaxFrom l' (S i) i y else argmaxFrom l' (S i) b v
  end.
Definition argmax (l : list Q) : nat :=
  match l with [] => 0%nat | y :: l' => argmaxFrom l' 1 0 y end.

(** What [shutdown] leaves on disk: the series files by station name and the two summaries. *)
Record output := mkOut { series : dict (list rcd); maxima : list rcd; minima : list rcd }.

(** One station of Timeseries.shutdown, timeseries.py:249-261 *)
Definition close1 (o : output) (e : station * list rcd) : output :=
  let (st, rs) := e in
  if existsb (fun r => qlt 0 (rspd r)) rs then
    let mx := argmax (map rspd rs) in
    let mn := argmin (map rprs rs) in
    mkOut (dput (series o) (sid st) rs)
          (maxima o ++ match nth_error rs mx with Some r => [r] | None => [] end)%list
          (minima o ++ match nth_error rs mn with Some r => [r] | None => [] end)%list
  else o.

(** Timeseries.shutdown, timeseries.py:234-267, on a disk with series files [d]: the summary files
    are written anew. *)
Definition shutdown (d : dict (list rcd)) (tbl : list (station * list rcd)) : output :=
  fold_left close1 tbl (mkOut d [] []).

(** wind.run, wind/__init__.py:974-979: every process calls [shutdown] on its own table.  The
    processes write the same files; [order] is the order in which they finish writing. *)
Fixpoint shutdowns (o : output) (order : list (list (station * list rcd))) : output :=
  match order with
  | [] => o
  | tbl :: order' => shutdowns (shutdown (series o) tbl) order'
  end.

(** * tsmultipliers.py *)
(** The eight multipliers in the order n, ne, e, se, s, sw, w, nw; tsmultipliers.py:79 *)
Record mults := mkM { mcn : Q; mcne : Q; mce : Q; mcse : Q; mcs : Q; mcsw : Q; mcw : Q; mcnw : Q }.

Definition between (b lo hi : Q) : bool := Qle_bool lo b && qlt b hi.
Definition weight (m1 m2 lo hi b : Q) : Q := (1 / 45) * (m1 * (b - lo) + m2 * (hi - b)).

(** tsmultipliers.py:83-106, the eight masked in-place multiplications of one gust [g] with
    bearing [b] in degrees. *)
Definition applyMult (m : mults) (g b : Q) : Q :=
  let g := if between b 0 45 then g * weight (mcn m) (mcne m) 0 45 b else g in
  let g := if between b 45 90 then g * weight (mcne m) (mce m) 45 90 b else g in
  let g := if between b 90 135 then g * weight (mce m) (mcse m) 90 135 b else g in
  let g := if between b 135 180 then g * weight (mcse m) (mcs m) 135 180 b else g in
  let g := if between b 180 225 then g * weight (mcs m) (mcsw m) 180 225 b else g in
  let g := if between b 225 270 then g * weight (mcsw m) (mcw m) 225 270 b else g in
  let g := if between b 270 315 then g * weight (mcw m) (mcnw m) 270 315 b else g in
  let g := if Qle_bool 315 b && Qle_bool b 360 then g * weight (mcnw m) (mcn m) 315 360 b else g in
  g.

(** tsmultiply, tsmultipliers.py:48-123, from the records of a series file: the adjusted records
    and the records of the highest gust and the lowest pressure.  [brg2 uu vv] is the bearing of
    lines 76-77, a number from 0 up to but excluding 360; lines 109-110 reset it for calm records.
    [None]: ValueError of [argmax] of an empty array. *)
Definition tsmult1 (brg2 : Q -> Q -> Q) (m : mults) (r : rcd) : rcd :=
  let b := brg2 (ruu r) (rvv r) in
  let g := applyMult m (rspd r) b in
  mkRc (rid r) (rtm r) (rlon r) (rlat r) g (ruu r) (rvv r) (if Qeq_bool g 0 then 0 else b) (rprs r).
Definition tsmultiply (brg2 : Q -> Q -> Q) (m : mults) (rs : list rcd) : option (list rcd * rcd * rcd) :=
  let out := map (tsmult1 brg2 m) rs in
  match nth_error out (argmax (map rspd out)), nth_error out (argmin (map rprs out)) with
  | Some a, Some b => Some (out, a, b)
  | _, _ => None
  end.
