(** The sequence of barriers and actions of a run (tcrm.py main), executed by
    every rank of the communicator. *)
From Coq Require Import List Arith Lia Bool.
From Verif Require Import Base.
Import ListNotations.
Open Scope nat_scope.

(** The pieces of work between barriers; communication inside a piece (the
    master/worker loops) is not split further: MWModel.v has it. *)
Inductive work :=
| WOutDirs        (* tcrm.py:515, master only (144) *)
| WConfig         (* tcrm.py:517-518 *)
| WDownload       (* tcrm.py:523, master only (88) *)
| WDataProcess    (* tcrm.py:528, master only (234) *)
| WStatistics     (* tcrm.py:533, master only (345) *)
| WTrackSetup     (* TrackGenerator.py:1740-1820 *)
| WTrackLoad      (* TrackGenerator.py:1824-1868 *)
| WTracks         (* TrackGenerator.py:1872-1894 *)
| WWindSetup      (* wind/__init__.py:900-970 *)
| WWinds          (* wind/__init__.py:974-979 *)
| WHazardSetup    (* hazard/__init__.py:990-1011 *)
| WHazard         (* hazard/__init__.py:1016-1027 *)
| WHazardSave     (* hazard/__init__.py:1031 *)
| WPlotData       (* tcrm.py:553, master only (261) *)
| WDbSetup        (* database/__init__.py:702-717 *)
| WDbEvents       (* database/__init__.py:720 *)
| WDbHazard       (* database/__init__.py:723 *)
| WDbTracks       (* database/__init__.py:726 *)
| WEvalSetup      (* Evaluate/__init__.py:28-32 *)
| WEvalHist (k : nat)   (* historic() of the k-th evaluation *)
| WEvalSyn (k : nat)    (* synthetic() *)
| WEvalPlot (k : nat)   (* plots and save() *)
| WPlotHazard.    (* tcrm.py:567, master only (424) *)

Inductive op := Bar | Do (w : work).

(** The [Actions] section (tcrm.py:522-566). *)
Record actions := mkActions {
  aDownload : bool; aProcess : bool; aStat : bool; aTracks : bool; aWind : bool;
  aHazard : bool; aPlotData : bool; aDatabase : bool; aEvaluate : bool; aPlotHazard : bool }.

Definition when (b : bool) (l : list op) : list op := if b then l else [].
(** Functions under [disableOnWorkers] (Utilities/parallel.py:118-133). *)
Definition master (rank : nat) (w : work) : list op := if rank =? 0 then [Do w] else [].

(** TrackGenerator.run, TrackGenerator.py:1740-1896 (barriers 1822, 1870, 1896). *)
Definition trackRun : list op := [Do WTrackSetup; Bar; Do WTrackLoad; Bar; Do WTracks; Bar].
(** wind.run, wind/__init__.py:880-983 (barriers 972, 981). *)
Definition windRun : list op := [Do WWindSetup; Bar; Do WWinds; Bar].
(** hazard.run, hazard/__init__.py:980-1033 (barriers 1015, 1029). *)
Definition hazardRun : list op := [Do WHazardSetup; Bar; Do WHazard; Bar; Do WHazardSave].
(** database.run, database/__init__.py:692-732 (barriers 719, 721, 725, 727, 730). *)
Definition databaseRun : list op :=
  [Do WDbSetup; Bar; Do WDbEvents; Bar; Do WDbHazard; Bar; Do WDbTracks; Bar; Bar].
(** Evaluate.run, Evaluate/__init__.py:20-40: five evaluations, each with two
    barriers (pressureDistribution.py:570/574, trackDensity.py:366/370,
    longitudeCrossing.py:518/522, landfallRates.py:297/299, genesisDensity.py:474/478). *)
Definition evalRun : list op :=
  Do WEvalSetup :: flat_map (fun k => [Do (WEvalHist k); Bar; Do (WEvalSyn k); Bar; Do (WEvalPlot k)]) (seq 0 5).

(** tcrm.main, tcrm.py:501-571, as executed by rank [rank]. *)
Definition mainProg (a : actions) (rank : nat) : list op :=
  master rank WOutDirs ++ [Do WConfig; Bar]
  ++ when (aDownload a) (master rank WDownload) ++ [Bar]
  ++ when (aProcess a) (master rank WDataProcess) ++ [Bar]
  ++ when (aStat a) (master rank WStatistics) ++ [Bar]
  ++ when (aTracks a) trackRun ++ [Bar]
  ++ when (aWind a) windRun ++ [Bar]
  ++ when (aHazard a) hazardRun ++ [Bar]
  ++ when (aPlotData a) (master rank WPlotData) ++ [Bar]
  ++ when (aDatabase a) databaseRun ++ [Bar]
  ++ when (aEvaluate a) evalRun ++ [Bar]
  ++ when (aPlotHazard a) (master rank WPlotHazard) ++ [Bar].

Section Run.
  (** [fails r w]: work [w] raises on rank [r]. startup (tcrm.py:643-658) logs the
      exception and the process leaves main. *)
  Variable fails : nat -> work -> bool.
  Variable n : nat.
  Variable prog : nat -> list op.

  (** Where a process is: what remains of its program, or it left main on an exception. *)
  Inductive proc := Run (l : list op) | Dead.
  (** [bars] counts the barriers passed (a history variable). *)
  Record bst := mkB { procs : nat -> proc; bars : nat }.
  Definition binit : bst := mkB (fun r => Run (prog r)) 0.

  Inductive bstep : bst -> bst -> Prop :=
  | b_work s r w l : r < n -> procs s r = Run (Do w :: l) -> fails r w = false ->
      bstep s (mkB (upd (procs s) r (Run l)) (bars s))
  | b_fail s r w l : r < n -> procs s r = Run (Do w :: l) -> fails r w = true ->
      bstep s (mkB (upd (procs s) r Dead) (bars s))
  (** [comm.barrier()] returns on every rank once every rank has called it. *)
  | b_bar s f : 1 <= n -> (forall r, r < n -> procs s r = Run (Bar :: f r)) ->
      bstep s (mkB (fun r => Run (f r)) (bars s + 1)).
End Run.
