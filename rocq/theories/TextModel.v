(** Template files (Utilities/template.py:13-48), archiving of processed files (Utilities/process.py:190-311) and the
    paths it uses (os.path of the Python library).  Text is a list of characters; a file is a list of lines, each with
    its end.  The clock, the file system's permissions and strftime are parameters. *)
From Coq Require Import List Arith Bool Ascii String.
From Verif Require Import NamesModel.
Import ListNotations.
Open Scope nat_scope.
Local Open Scope list_scope.

Definition opening : ascii := "{"%char.
Definition closing : ascii := "}"%char.
Definition backslash : ascii := "\"%char.
Fixpoint str_eqb (a b : str) : bool :=
  match a, b with [], [] => true | x :: a', y :: b' => Ascii.eqb x y && str_eqb a' b' | _, _ => false end.

(** * template.replace *)
(** the text after a prefix *)
Fixpoint after (pat s : str) : option str :=
  match pat, s with
  | [], _ => Some s
  | x :: p, y :: t => if Ascii.eqb x y then after p t else None
  | _ :: _, [] => None
  end.
(** re.sub(pattern, text, line) for a pattern that is plain text: leftmost occurrences that do not overlap; [skip]
    characters of the occurrence being replaced are still to be passed over *)
Fixpoint sub (pat val : str) (skip : nat) (line : str) : str :=
  match line with
  | [] => []
  | c :: t =>
      match skip with
      | S k => sub pat val k t
      | 0 => match after pat line with
             | Some _ => val ++ sub pat val (List.length pat - 1) t
             | None => c :: sub pat val 0 t
             end
      end
  end.
(** the second argument of re.sub is a template: escapes in it are expanded, whether or not the pattern occurs; [None]:
    re.error.  Simplification: the octal escapes and group references beginning with a digit are errors here, as is
    \g (no pattern has groups) *)
Definition escape (c : ascii) : option str :=
  if Ascii.eqb c "n" then Some ["010"%char] else if Ascii.eqb c "t" then Some ["009"%char]
  else if Ascii.eqb c "r" then Some ["013"%char] else if Ascii.eqb c "a" then Some ["007"%char]
  else if Ascii.eqb c "b" then Some ["008"%char] else if Ascii.eqb c "f" then Some ["012"%char]
  else if Ascii.eqb c "v" then Some ["011"%char] else if Ascii.eqb c backslash then Some [backslash]
  else let n := nat_of_ascii c in
       if ((48 <=? n) && (n <=? 57)) || ((65 <=? n) && (n <=? 90)) || ((97 <=? n) && (n <=? 122)) then None
       else Some [backslash; c].
Fixpoint expand (s : str) : option str :=
  match s with
  | [] => Some []
  | c :: t =>
      if Ascii.eqb c backslash then
        match t with
        | [] => None
        | e :: t' => match escape e, expand t' with Some a, Some b => Some (a ++ b) | _, _ => None end
        end
      else option_map (cons c) (expand t)
  end.
(** '{' + key + '}' as a regular expression: for a number, or two separated by a comma, it is a repetition with
    nothing to repeat; [None]: re.error.  Simplification: other keys are taken to have no special characters. *)
Definition digit (c : ascii) : bool := let n := nat_of_ascii c in (48 <=? n) && (n <=? 57).
Fixpoint digits (s : str) : bool := match s with [] => true | c :: t => digit c && digits t end.
Fixpoint repetition (s : str) : bool :=
  match s with
  | [] => true
  | c :: t => if digit c then repetition t else if Ascii.eqb c "," then digits t else false
  end.
Definition pattern (key : str) : option str :=
  match key with
  | [] => Some [opening; closing]
  | _ => if repetition key then None else Some (opening :: key ++ [closing])
  end.
Definition subKey (kv : str * str) (line : str) : option str :=
  match pattern (fst kv), expand (snd kv) with
  | Some p, Some v => Some (sub p v 0 line)
  | _, _ => None
  end.
(** 41-43 *)
Fixpoint replaceLine (replacements : list (str * str)) (line : str) : option str :=
  match replacements with
  | [] => Some line
  | kv :: r => match subKey kv line with Some l => replaceLine r l | None => None end
  end.
(** 40-45; [None]: an exception *)
Fixpoint replaceFile (replacements : list (str * str)) (infile : list str) : option (list str) :=
  match infile with
  | [] => Some []
  | l :: r => match replaceLine replacements l, replaceFile replacements r with Some a, Some b => Some (a :: b) | _, _ => None end
  end.

(** * os.path *)
(** the text before and after the last occurrence of a character *)
Fixpoint splitLast (c : ascii) (s : str) : option (str * str) :=
  match s with
  | [] => None
  | x :: t => match splitLast c t with
              | Some (a, b) => Some (x :: a, b)
              | None => if Ascii.eqb x c then Some ([], t) else None
              end
  end.
Definition slash : ascii := "/"%char.
Definition dot : ascii := "."%char.
Definition fileName (p : str) : str := match splitLast slash p with Some (_, b) => b | None => p end.
(** os.path.splitext on a name without directory, the dot of the extension left out (pArchiveFile strips it); leading
    dots belong to the name *)
Definition splitext (f : str) : str * str :=
  match splitLast dot f with
  | Some (b, e) => if forallb (Ascii.eqb dot) b then (f, []) else (b, e)
  | None => (f, [])
  end.
Definition pjoin (dir name : str) : str :=
  match dir with
  | [] => name
  | _ => if Ascii.eqb (last dir dot) slash then dir ++ name else dir ++ slash :: name
  end.

(** * process.py: the archive *)
Section Archive.
  (** contents, times and strftime *)
  Context {A T : Type}.
  Variable stamp : str -> T -> str.
  (** os.rename is permitted *)
  Variable allowed : str -> str -> bool.
  Definition fs := str -> option (A * T).
  Definition put (s : fs) (p : str) (v : option (A * T)) : fs := fun x => if str_eqb x p then v else s x.
  (** GLOBAL_ARCHDIR, GLOBAL_DATEFMT, GLOBAL_TIMESTAMP, 26-28 *)
  Record arch := { archdir : str; datefmt : str; timestamp : bool }.
  Definition initial : arch := {| archdir := []; datefmt := lit "%Y%m%d%H%M"; timestamp := true |}.
  (** pArchiveDir, 190-217; [cancreate]: the directory exists or can be made; [None]: OSError *)
  Definition pArchiveDir (cancreate : bool) (d : str) (s : arch) : arch * option str :=
    match d with
    | [] => (s, Some (archdir s))
    | _ => ({| archdir := d; datefmt := datefmt s; timestamp := timestamp s |}, if cancreate then Some d else None)
    end.
  (** pArchiveDateFormat, 220-236 *)
  Definition pArchiveDateFormat (f : str) (s : arch) : arch * str :=
    match f with
    | [] => (s, datefmt s)
    | _ => ({| archdir := archdir s; datefmt := f; timestamp := timestamp s |}, f)
    end.
  (** pArchiveTimestamp, 239-255 *)
  Definition pArchiveTimestamp (t : bool) (s : arch) : arch * bool :=
    if t then ({| archdir := archdir s; datefmt := datefmt s; timestamp := true |}, true) else (s, timestamp s).
  (** os.rename and pMoveFile, 257-277: a file of that name at the destination is replaced *)
  Definition pMoveFile (origin destination : str) (d : fs) : fs * nat :=
    match d origin with
    | Some v => if allowed origin destination then (put (put d origin None) destination (Some v), 1) else (d, 0)
    | None => (d, 0)
    end.
  (** pArchiveFile, 279-311; the date is that of the file (flModDate raises for a missing one); what happens when the archive
      directory has vanished and cannot be made again is [Broken] (LOGGER.critcal: AttributeError) *)
  Inductive outcome := Done (rc : nat) | NoFile | Broken.
  Definition archiveName (s : arch) (filename date : str) : str :=
    let '(base, ext) := splitext (fileName filename) in
    pjoin (archdir s) (if timestamp s then base ++ dot :: date ++ dot :: ext else base ++ dot :: ext).
  Definition pArchiveFile (cancreate : bool) (s : arch) (filename : str) (d : fs) : fs * outcome :=
    if negb (match archdir s with [] => true | _ => cancreate end) then (d, Broken)
    else if timestamp s then
      match d filename with
      | Some v => let '(d', rc) := pMoveFile filename (archiveName s filename (stamp (datefmt s) (snd v))) d in (d', Done rc)
      | None => (d, NoFile)
      end
    else let '(d', rc) := pMoveFile filename (archiveName s filename []) d in (d', Done rc).
  (** several files one after the other *)
  Fixpoint archiveAll (s : arch) (files : list str) (d : fs) : fs :=
    match files with
    | [] => d
    | f :: r => archiveAll s r (fst (pArchiveFile true s f d))
    end.
End Archive.
