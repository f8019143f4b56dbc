(** Loading the tracks of a directory: loadTracks, loadTracksFromFiles and
    loadTracksFromPath (Utilities/track.py:402-471, and the copies in
    Evaluate/genesisDensity.py:38-77 and wind/__init__.py:858-873). *)
From Coq Require Import List Arith Bool Ascii String.
From Verif Require Import SplitModel.
Import ListNotations.
Open Scope string_scope.

Section Path.
(** A track read from a file. *)
Variable T : Type.

(** An element of the list of files: a text or any other object. *)
Inductive item := Name (s : string) | NotText.
(** The argument of loadTracksFromFiles. *)
Inductive arg := Lst (l : list item) | NotList.

(** Exceptions; [Other] is whatever the NetCDF reader raises on a file it cannot read. *)
Inductive exn := TypeError | IOError | Other.

(** The file system: [None] is a path that does not exist, [Some None] one that exists but is
    not a track file, [Some (Some ts)] a file with the tracks ncReadTrackData gives. *)
Variable disk : string -> option (option (list T)).

(** track.py:402-421 *)
Definition loadTracks (f : item) : list T + exn :=
  match f with
  | NotText => inr TypeError
  | Name s => match disk s with
              | None => inr IOError
              | Some None => inr Other
              | Some (Some ts) => inl ts
              end
  end.

(** track.py:423-449: the generator, before its first step, within a file, and finished.
    One step ([next]) gives a track, stops, or raises; the third component is the files
    opened by the step. *)
Inductive gen := Start (a : arg) | Within (ts : list T) (fs : list item) | Done.
Inductive step := Yield (t : T) | Stop | Raise (e : exn).

Fixpoint nextFile (fs : list item) : step * gen * list item :=
  match fs with
  | [] => (Stop, Done, [])
  | f :: fs' =>
      match loadTracks f with
      | inr e => (Raise e, Done, [f])
      | inl [] => let '(r, g, o) := nextFile fs' in (r, g, f :: o)
      | inl (t :: ts) => (Yield t, Within ts fs', [f])
      end
  end.

Definition next (g : gen) : step * gen * list item :=
  match g with
  | Start NotList => (Raise TypeError, Done, [])
  | Start (Lst fs) => nextFile fs
  | Within (t :: ts) fs => (Yield t, Within ts fs, [])
  | Within [] fs => nextFile fs
  | Done => (Stop, Done, [])
  end.

(** [k] steps: what they give and the files opened meanwhile. *)
Fixpoint steps (k : nat) (g : gen) : list step * list item :=
  match k with
  | O => ([], [])
  | S k' => let '(r, g', o) := next g in
            let '(rs, os) := steps k' g' in (r :: rs, o ++ os)
  end%list.

(** [f.startswith('tracks')] *)
Definition isTrackFile (f : string) : bool := prefix "tracks" f.

(** posixpath.join for a name without a leading slash (a name of os.listdir has none). *)
Fixpoint endsSlash (s : string) : bool :=
  match s with
  | EmptyString => true
  | String c EmptyString => Ascii.eqb c "/"
  | String _ s' => endsSlash s'
  end.
Definition pjoin (path f : string) : string :=
  if endsSlash path then path ++ f else path ++ "/" ++ f.

(** The listing of a directory: [None] makes os.listdir raise an OSError. *)
Variable listdir : string -> option (list string).

(** track.py:451-471.  The handler covers the listing only: the generator does nothing yet. *)
Definition loadTracksFromPath (path : string) : gen + exn :=
  match listdir path with
  | None => inr IOError
  | Some files =>
      inl (Start (Lst (map Name (isort String.leb (map (pjoin path) (filter isTrackFile files))))))
  end.

(** wind/__init__.py:858-873: the function called there takes three arguments
    (wind/__init__.py:808) and is given one. *)
Definition windCall (args : nat) (g : gen) : gen + exn :=
  if (args =? 3)%nat then inl g else inr TypeError.
Definition windTracksFromPath (path : string) : gen + exn :=
  match listdir path with
  | None => inr IOError
  | Some files =>
      windCall 1 (Start (Lst (map Name (isort String.leb (map (pjoin path) (filter isTrackFile files))))))
  end.
End Path.
Arguments Lst l : assert. Arguments Start {T} _. Arguments Within {T} _ _. Arguments Done {T}.
Arguments Yield {T} _. Arguments Stop {T}. Arguments Raise {T} _.
Arguments loadTracks {T} _ _. Arguments nextFile {T} _ _. Arguments next {T} _ _.
Arguments steps {T} _ _ _. Arguments loadTracksFromPath {T} _ _. Arguments windTracksFromPath {T} _ _.
