(** Downloading of input data sets: Utilities/datasets.py and tcrm.py doDataDownload. *)
From Coq Require Import List Arith Bool String.
From Verif Require Import UtilModel.
Import ListNotations.

(** datasets.py:32-39: the file the data are stored in, with its path, and the compression. *)
Inductive comp := Plain | Gz | Zip.
Record dataset := mkDs { dsfile : string; dscomp : comp }.

(** Sequences of bytes; a byte is a number. *)
Definition bytes := list nat.

(** How reading the response ends, datasets.py:64-71: an empty buffer, an exception, or the end of
    the process. *)
Inductive ending := EEof | EExc | EKill.
(** What happens to one attempt.  [urlopen] fails with URLError or delivers a response with the
    Content-Length header (or none) and a stream of non-empty buffers of at most 8192 bytes. *)
Inductive response := RUrlError | ROpen (clen : option nat) (bufs : list bytes) (e : ending).
(** Opening the file fails; the process ends after some bytes have reached the disk; all is written. *)
Inductive writing := WNoOpen | WKill (n : nat) | WDone.

(** Result of one attempt: return, IOError, another exception, end of the process. *)
Inductive outcome := ODone | OIOError | OExc | OKilled.

Section Download.
  (** Reading a GzipFile ([None]: an exception) and opening a ZipFile ([false]: BadZipFile). *)
  Variable gunzip : bytes -> option bytes.
  Variable zipOk : bytes -> bool.

  (** datasets.py:83-84.  [open] creates the file before [data.read()] is evaluated; for a ZipFile
      [read] without a name is a TypeError. *)
  Definition store (w : writing) (c : comp) (data : bytes) : option bytes * outcome :=
    match w with
    | WNoOpen => (None, OExc)
    | _ =>
        match (match c with Plain => Some data | Gz => gunzip data | Zip => None end) with
        | None => (Some [], OExc)
        | Some out => match w with WKill n => (Some (firstn n out), OKilled) | _ => (Some out, ODone) end
        end
    end.

  (** DataSet.download, datasets.py:41-87: the file before and after the attempt. *)
  Definition download (ds : dataset) (f : option bytes) (r : response) (w : writing) : option bytes * outcome :=
    match f with
    | Some _ => (f, ODone)
    | None =>
        match r with
        | RUrlError => (None, OIOError)
        | ROpen None _ _ => (None, OExc)
        | ROpen (Some _) bufs e =>
            match e with
            | EExc => (None, OExc)
            | EKill => (None, OKilled)
            | EEof =>
                let data := List.concat bufs in
                match dscomp ds with
                | Zip => if zipOk data then store w Zip data else (None, OExc)
                | c => store w c data
                end
            end
        end
    end.

  (** DataSet.isDownloaded, datasets.py:89-96 *)
  Definition isDownloaded (f : option bytes) : bool := match f with Some _ => true | None => false end.

  (** A history of attempts, in one or several runs of the program. *)
  Definition attempts (ds : dataset) (h : list (response * writing)) (f : option bytes) : option bytes :=
    fold_left (fun f a => fst (download ds f (fst a) (snd a))) h f.

  (** doDataDownload, tcrm.py:120-137: data sets in order, the disk by file name; the run ends with
      the first failure. *)
  Fixpoint doDataDownload (dss : list (dataset * response * writing)) (d : dict bytes) : dict bytes * outcome :=
    match dss with
    | [] => (d, ODone)
    | (ds, r, w) :: dss' =>
        if isDownloaded (d (dsfile ds)) then doDataDownload dss' d
        else
          let (f, o) := download ds (d (dsfile ds)) r w in
          let d' := match f with Some c => dput d (dsfile ds) c | None => d end in
          match o with ODone => doDataDownload dss' d' | _ => (d', o) end
    end.
End Download.

(** loadDatasets, datasets.py:99-120: the names are split at commas and used as they are;
    [None]: NoSectionError of an unknown section. *)
Fixpoint loadDatasets (sections : dict dataset) (names : list string) : option (list dataset) :=
  match names with
  | [] => Some []
  | n :: names' =>
      match sections n, loadDatasets sections names' with
      | Some d, Some ds => Some (d :: ds)
      | _, _ => None
      end
  end.
