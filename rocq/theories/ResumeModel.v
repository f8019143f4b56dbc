(** Interrupted wind field runs: wind/__init__.py:400-414 (gustFileComplete), 510-561
    (dumpGustsFromTracks), 581-705 (saveGustToFile), 738-770 (calcLocalWindfield) and
    Utilities/nctools.py:255-395 (ncSaveGrid), 207-230 (ncCreateDim). *)
From Verif Require Import Base.
Set Implicit Arguments.

Inductive var := Vlat | Vlon | Vvmax | Vua | Vva | Vslp | Vcrs.
Definition var_eqb (a b : var) : bool :=
  match a, b with
  | Vlat, Vlat | Vlon, Vlon | Vvmax, Vvmax | Vua, Vua | Vva, Vva | Vslp, Vslp | Vcrs, Vcrs => true
  | _, _ => false
  end.

Section Resume.
  (** File names, values, tracks and domains. *)
  Variables (N V T D : Type).
  Variable N_eq : forall a b : N, {a = b} + {a <> b}.
  (** gustFilename of a track. *)
  Variable name : T -> N.
  (** The configured domain, if any, and the domain a track sets otherwise (setGridLimit). *)
  Variable config_domain : option D.
  Variable domain_of : T -> D.
  (** calculateExtremesFromTrack: the values of each variable for a domain and a track. *)
  Variable field : D -> T -> var -> V.
  (** Whether wind multipliers are configured. *)
  Variable multipliers : bool.
  Variable tracks : list T.

  (** Contents of a file: a created variable without data reads as fill values ([None]). *)
  Definition file := list (var * option V).
  (** Disk: gust files by name, and local_wind.tif, overwritten by each track
      (processMultipliers.py:908). *)
  Record disk := { gust : N -> option file; local_wind : option (D * T) }.

  Definition has (f : file) (v : var) : bool := existsb (fun e => var_eqb (fst e) v) f.
  (** wind/__init__.py:400-414: the file exists, is not empty and has the six variables;
      the data themselves are not examined. *)
  Definition complete (d : disk) (n : N) : bool :=
    match gust d n with
    | None => false
    | Some f => has f Vlat && has f Vlon && has f Vvmax && has f Vua && has f Vva && has f Vslp
    end.

  Definition put (d : disk) (n : N) (f : file) : disk :=
    {| gust := fun m => if N_eq m n then Some f else gust d m; local_wind := local_wind d |}.

  (** Effects on the disk, in program order (write-through; a Python exception inside
      ncSaveGrid closes the file with what was written so far). *)
  Inductive op :=
  | Open (t : T)                        (* Dataset(filename, 'w', clobber=True) *)
  | Create (t : T) (v : var)            (* createVariable *)
  | Write (dm : D) (t : T) (v : var)    (* var[:] = values *)
  | Mult (dm : D) (t : T).              (* calcLocalWindfield *)
  Definition contents (d : disk) (n : N) : file := match gust d n with Some f => f | None => [] end.
  Definition set_var (f : file) (v : var) (x : V) : file :=
    map (fun e => if var_eqb (fst e) v then (v, Some x) else e) f.
  Definition apply_op (d : disk) (o : op) : disk :=
    match o with
    | Open t => put d (name t) []
    | Create t v => put d (name t) (contents d (name t) ++ [(v, None)])
    | Write dm t v => put d (name t) (set_var (contents d (name t)) v (field dm t v))
    | Mult dm t => {| gust := gust d; local_wind := Some (dm, t) |}
    end.
  (** ncSaveGrid: dimensions, then variables in order; crs has no data. Then the multipliers. *)
  Definition save_ops (dm : D) (t : T) : list op :=
    Open t ::
    flat_map (fun v => [Create t v; Write dm t v]) [Vlat; Vlon; Vvmax; Vua; Vva; Vslp] ++
    [Create t Vcrs] ++
    if multipliers then [Mult dm t] else [].

  (** State of a run: domain of the generator object, remaining tracks, remaining operations
      of the current track, disk. *)
  Record st := { dom : option D; todo : list T; ops : list op; dsk : disk }.
  Definition start (d : disk) : st := {| dom := config_domain; todo := tracks; ops := []; dsk := d |}.
  Inductive step : st -> st -> Prop :=
  | Sop s o os : ops s = o :: os ->
      step s {| dom := dom s; todo := todo s; ops := os; dsk := apply_op (dsk s) o |}
  | Sskip s t ts : ops s = [] -> todo s = t :: ts -> complete (dsk s) (name t) = true ->
      step s {| dom := dom s; todo := ts; ops := []; dsk := dsk s |}
  | Scalc s t ts : ops s = [] -> todo s = t :: ts -> complete (dsk s) (name t) = false ->
      (* setGridLimit only when no domain is set yet (wind/__init__.py:449-451) *)
      let dm := match dom s with Some x => x | None => domain_of t end in
      step s {| dom := Some dm; todo := ts; ops := save_ops dm t; dsk := dsk s |}.
  (** The process dies; the next run starts over with the disk as it is. *)
  Definition crash (s : st) : st := start (dsk s).
  Definition finished (s : st) : Prop := ops s = [] /\ todo s = [].
  (** The crash point inside the window between creating and filling the last variable. *)
  Definition slp_unwritten (s : st) : Prop := exists dm t os, ops s = Write dm t Vslp :: os.
End Resume.
Arguments Open {T D} t.
Arguments Create {T D} t v.
