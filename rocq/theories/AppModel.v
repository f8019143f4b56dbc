(** Model of the code around the calculations: progress messages
    (Utilities/progressbar.py:18-93), the timing decorator (tcrm.py:61-79 and
    tcevent.py:42-59), the creation of the output directories
    (tcrm.py:143-174, tcevent.py:61-90), the choice of the plotted event
    (tcevent.py:110-170) and the impact calculation (impact/__init__.py:46-77).

    Numbers are exact rationals, times are in seconds.  File system paths are
    lists of names; symbolic links and permissions are not modelled. *)
From Coq Require Import QArith Qround ZArith List Bool Arith Ascii String.
From Verif Require Import Base CellModel GenModel NamesModel UtilModel.
Import ListNotations.
Close Scope Q_scope. Close Scope string_scope. Open Scope list_scope. Open Scope nat_scope.

(** ** Progress bars *)

(** _percentage, Utilities/progressbar.py:53-54: ['%3d%%'] drops the
    fraction. *)
Definition percent (prg : Q) : Z := trunc (prg * 100).

(** _formatTime, lines 56-58: hours, minutes, seconds ([gmtime] drops the
    fraction of a second). *)
Definition formatTime (s : Q) : Z * Z * Z :=
  (trunc (s / 3600), Z.modulo (Z.div (Qfloor s) 60) 60, Z.modulo (Qfloor s) 60).

(** _getTimeStr, lines 60-67. *)
Inductive ptime := Unknown | Elapsed (t : Q) | Remaining (t : Q).
Definition timeStr (prg elapsed : Q) : ptime :=
  if Qeq_bool prg 0 then Unknown
  else if Qeq_bool prg 1 then Elapsed elapsed
  else Remaining (elapsed / prg - elapsed).

(** One message: percentage, length of the bar, of the blanks, time. *)
Record pmsg := mkMsg { m_percent : Z; m_fill : nat; m_blank : nat; m_time : ptime }.

(** ProgressBar.update, lines 32-51; the state is lastPercentage. *)
Definition position (progress startPos endPos : Q) : Q := (progress * (endPos - startPos) + startPos)%Q.
Definition barUpdate (showbar : bool) (width : Z) (last : option Z) (prg elapsed : Q) : option Z * list pmsg :=
  if showbar && negb (match last with Some z => (z =? percent prg)%Z | None => false end) then
    let fill := rint (inject_Z width * prg) in
    (Some (percent prg),
     [mkMsg (percent prg) (Z.to_nat fill) (Z.to_nat (width - fill)) (timeStr prg elapsed)])
  else (last, []).

(** A sequence of updates, each with its position and the elapsed time; the
    constructor (lines 20-30) performs the first update with the bar
    switched off. *)
Fixpoint runBar (showbar : bool) (width : Z) (last : option Z) (ups : list (Q * Q)) : list pmsg :=
  match ups with
  | [] => []
  | (p, t) :: ups' =>
      let (last', ms) := barUpdate showbar width last p t in ms ++ runBar showbar width last' ups'
  end.
Definition progressBar (tty : bool) (setting : bool) (width : Z) (ups : list (Q * Q)) : list pmsg :=
  let last := fst (barUpdate false width None 0 0) in
  runBar (if tty then setting else false) width last ups.

(** SimpleProgressBar.update, lines 76-93, with the step of 5 per cent: the
    percentages printed. *)
Definition simpleUpdate (show : bool) (last : Q) (prg : Q) : Q * list Q :=
  let pc := (prg * 100)%Q in
  if show && (Qle_bool 99 pc || Qle_bool (last + 5) pc) then ((last + 5)%Q, [pc]) else (last, []).
Fixpoint runSimple (show : bool) (last : Q) (ps : list Q) : list Q :=
  match ps with
  | [] => []
  | p :: ps' => let (last', ms) := simpleUpdate show last p in ms ++ runSimple show last' ps'
  end.

(** [config.get('Logging', 'ProgressBar')] (tcrm.py:120 and seven more,
    tcevent.py:196) returns the text of the option; a text counts as true
    unless it is empty. *)
Definition truthy (txt : string) : bool := match txt with EmptyString => false | _ => true end.
Definition showSetting (txt : string) : bool := truthy txt.

(** The decorator [timer], tcrm.py:71-74: [divmod] by 60 twice. *)
Definition divmod60 (x : Q) : Z * Q := (Qfloor (x / 60), (x - 60 * inject_Z (Qfloor (x / 60)))%Q).
Definition hms (t : Q) : Z * Q * Q :=
  let (m, s) := divmod60 t in let (h, m') := divmod60 (inject_Z m) in (h, m', s).

(** ** Output directories *)

Definition path := list string.
Inductive node := Absent | Dir | File.
Definition fsys := path -> node.
Definition path_eqb (a b : path) : bool := if list_eq_dec string_dec a b then true else false.
Definition mkdir (fs : fsys) (p : path) : fsys := fun q => if path_eqb q p then Dir else fs q.

(** [os.makedirs]: missing ancestors are created; None: OSError (an ancestor
    is a file, or the path exists). *)
Definition ancestors (p : path) : list path := map (fun n => firstn n p) (seq 1 (length p - 1)).
Definition ensure (st : option fsys) (q : path) : option fsys :=
  match st with
  | None => None
  | Some fs => match fs q with Absent => Some (mkdir fs q) | Dir => Some fs | File => None end
  end.
Definition makedirs (fs : fsys) (p : path) : option fsys :=
  match fold_left ensure (ancestors p) (Some fs) with
  | None => None
  | Some g => match g p with Absent => Some (mkdir g p) | _ => None end
  end.

(** The loop of doOutputDirectoryCreation: a directory is made unless it is
    one already. *)
Definition makeMissing (st : option fsys) (p : path) : option fsys :=
  match st with
  | None => None
  | Some fs => match fs p with Dir => Some fs | _ => makedirs fs p end
  end.
Definition createOutput (fs : fsys) (out : path) (subdirs : list path) : option fsys :=
  fold_left makeMissing (out :: map (fun s => out ++ s) subdirs) (Some fs).

Local Open Scope string_scope.
Definition tcrmDirs : list path :=
  [["tracks"]; ["hazard"]; ["windfield"]; ["plots"]; ["plots"; "hazard"]; ["plots"; "stats"]; ["log"];
   ["process"]; ["process"; "timeseries"]; ["process"; "dat"]].
Definition tceventDirs : list path :=
  [["tracks"]; ["windfield"]; ["plots"]; ["plots"; "timeseries"]; ["log"]; ["process"];
   ["process"; "timeseries"]].
Local Close Scope string_scope.

(** Several processes run the loop side by side (tcevent.py:61 has no
    [disableOnWorkers]): between the test and the creation another process
    may act. *)
Inductive proc := Running (todo : list path) | Making (p : path) (todo : list path) | Raised.
Inductive dstep : fsys * list proc -> fsys * list proc -> Prop :=
| d_exists fs a b p l : fs p = Dir ->
    dstep (fs, a ++ Running (p :: l) :: b) (fs, a ++ Running l :: b)
| d_missing fs a b p l : fs p <> Dir ->
    dstep (fs, a ++ Running (p :: l) :: b) (fs, a ++ Making p l :: b)
| d_make fs g a b p l : makedirs fs p = Some g ->
    dstep (fs, a ++ Making p l :: b) (g, a ++ Running l :: b)
| d_fail fs a b p l : makedirs fs p = None ->
    dstep (fs, a ++ Making p l :: b) (fs, a ++ Raised :: b).

(** ** The plotted event *)

(** [s.endswith(suf)] and [s.split('.')[1]] (None: IndexError). *)
Definition ends_with (suf s : str) : bool := starts_with (rev suf) (rev s).
Fixpoint splitStr (c : ascii) (s : str) : list str :=
  match s with
  | [] => [[]]
  | x :: s' => if Ascii.eqb x c then [] :: splitStr c s'
               else match splitStr c s' with w :: ws => (x :: w) :: ws | [] => [[x]] end
  end.
(** doWindfieldPlotting, tcevent.py:128-138: the name of the wind field file
    read for the map; the argument is the base name of the input file. *)
Definition plotFile (input : str) : option str :=
  if ends_with (lit ".nc") input then
    match splitStr "."%char input with
    | _ :: t :: _ => Some (lit "gust." ++ t ++ lit ".nc")
    | _ => None
    end
  else Some (lit "gust.001-00001.nc").

(** The identifiers of the tracks of an input file: a text file with n
    cyclones (Utilities/loadData.py:956-960), an xml file with n
    (Evaluate/interpolateTracks.py:302, 346), and the n tracks of simulation
    s written by the track generator (TrackGenerator.py:704, 1890: (j, s),
    in the file tracks.s.nc).  Interpolation keeps them
    (Evaluate/interpolateTracks.py:241). *)
Definition csvIds (n : nat) : list (nat * nat) := map (fun i => (i, n)) (seq 1 n).
Definition xmlIds (n : nat) : list (nat * nat) := map (fun i => (i, i)) (seq 0 n).
Definition simIds (n s : nat) : list (nat * nat) := map (fun j => (j, s)) (seq 0 n).
Definition simFile (s : nat) : str := lit "tracks." ++ padded 5 s ++ lit ".nc".

(** The window of the map, tcevent.py:148-159: the indices inside the limits
    and the values there; None: the extent of an empty map is taken
    (ValueError, line 160). *)
Definition inside (lo hi x : Q) : bool := Qle_bool lo x && Qle_bool x hi.
Definition whereIn (lo hi : Q) (xs : list Q) : list nat :=
  filter (fun i => inside lo hi (nth i xs 0%Q)) (seq 0 (length xs)).
Definition window {V} (d : V) (xMin xMax yMin yMax : Q) (xs ys : list Q) (v : list (list V))
  : option (list Q * list Q * list (list V)) :=
  let ii := whereIn xMin xMax xs in
  let jj := whereIn yMin yMax ys in
  match ii, jj with
  | [], _ | _, [] => None
  | _, _ => Some (map (fun i => nth i xs 0%Q) ii, map (fun j => nth j ys 0%Q) jj,
                  map (fun j => map (fun i => nth i (nth j v []) d) ii) jj)
  end.

(** ** Impact *)

(** run, impact/__init__.py:63-66: one output for each wind field file
    [gust.*.nc], named after it. *)
Definition impactName (gust : str) : str := firstn (length gust - 3) gust ++ lit ".csv".

(** run_optional, impact/__init__.py:68-77.  [sections] are the sections of
    the file; those of Utilities/config.py:143-253 are always there.
    [execute] is the text of Actions/ExecuteImpact.  None: getboolean raises
    ValueError. *)
Local Open Scope string_scope.
Definition defaultSections : list string :=
  ["Actions"; "Region"; "DataProcess"; "StatInterface"; "TrackGenerator"; "WindfieldInterface"; "Hazard";
   "RMW"; "Input"; "Output"; "Timeseries"; "Logging"; "Source"; "IBTRACS"; "LTMSLP"].
Definition hasSection (sections : list string) (s : string) : bool :=
  existsb (String.eqb s) (defaultSections ++ sections).
Definition runImpact (sections : list string) (execute : option string) : option bool :=
  if hasSection sections "Actions" then
    match execute with None => Some false | Some t => getboolean t end
  else Some (hasSection sections "Impact").
