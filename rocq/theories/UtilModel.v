(** Utilities: growable record array (Utilities/dynarray.py), processed-file
    ledger (Utilities/process.py), configuration (Utilities/config.py) and the
    master-only decorator (Utilities/parallel.py). *)
From Coq Require Import List Arith ZArith Lia Bool Ascii String.
Import ListNotations.
Open Scope nat_scope.

(** * Growable record array *)
Section Dyn.
  Context {A : Type}.
  (** dynarray.py:20-24: [length], [size] and the backing array [_data]. *)
  Record dyn := mkDyn { dlen : nat; dsize : nat; ddata : list A }.

  (** dynarray.py:20-24.  [np.empty] leaves arbitrary contents: [junk] holds them. *)
  Definition dynNew (junk : list A) : dyn := mkDyn 0 10 junk.

  (** [np.resize(a, n)]: [n] entries, [a] repeated cyclically (numpy). *)
  Definition npResize (a : list A) (n : nat) (d : A) : list A :=
    map (fun i => nth (i mod List.length a) a d) (seq 0 n).

  (** [a[i] = x]; [None] is IndexError. *)
  Definition setItem (a : list A) (i : nat) (x : A) : option (list A) :=
    if i <? List.length a then Some (firstn i a ++ x :: skipn (S i) a) else None.

  (** dynarray.py:29-40.  [int(1.5 * size)] is [3 * size / 2] for a non-negative
      integer (exact below 2^52). *)
  Definition dynAppend (s : dyn) (r : A) : option dyn :=
    let '(sz, d) := if dlen s =? dsize s
                    then (3 * dsize s / 2, npResize (ddata s) (3 * dsize s / 2) r)
                    else (dsize s, ddata s) in
    match setItem d (dlen s) r with
    | Some d' => Some (mkDyn (dlen s + 1) sz d')
    | None => None
    end.

  (** dynarray.py:42-50 *)
  Fixpoint dynExtend (s : dyn) (rs : list A) : option dyn :=
    match rs with
    | [] => Some s
    | r :: rs' => match dynAppend s r with Some s' => dynExtend s' rs' | None => None end
    end.

  (** dynarray.py:52-57 *)
  Definition dynData (s : dyn) : list A := firstn (dlen s) (ddata s).

  Inductive dynOp := Append (r : A) | Extend (rs : list A).
  Definition dynDo (s : dyn) (o : dynOp) : option dyn :=
    match o with Append r => dynAppend s r | Extend rs => dynExtend s rs end.
  Fixpoint dynRun (s : dyn) (os : list dynOp) : option dyn :=
    match os with
    | [] => Some s
    | o :: os' => match dynDo s o with Some s' => dynRun s' os' | None => None end
    end.
End Dyn.

(** * Text *)
Open Scope string_scope.
Definition nl : ascii := "010"%char.
Definition cr : ascii := "013"%char.
Definition bar : ascii := "|"%char.
Definition comma : ascii := ","%char.

(** Does [c] occur in [s]? *)
Fixpoint occurs (c : ascii) (s : string) : bool :=
  match s with
  | EmptyString => false
  | String x s' => Ascii.eqb x c || occurs c s'
  end.

(** Python [s.split(c)] for a one-character separator. *)
Fixpoint split (c : ascii) (s : string) : list string :=
  match s with
  | EmptyString => [""]
  | String x s' =>
      if Ascii.eqb x c then "" :: split c s'
      else match split c s' with
           | w :: ws => String x w :: ws
           | [] => [String x ""]
           end
  end.

(** Python [c.join(l)]. *)
Definition join (c : ascii) (l : list string) : string := String.concat (String c "") l.

(** Reading in text mode with universal newlines: [\r\n] and [\r] become [\n]. *)
Fixpoint universal (s : string) : string :=
  match s with
  | EmptyString => ""
  | String x s' =>
      if Ascii.eqb x cr then
        match s' with
        | String y s'' => if Ascii.eqb y nl then String nl (universal s'')
                          else String nl (universal s')
        | EmptyString => String nl ""
        end
      else String x (universal s')
  end.

(** [for line in fh]: the lines of a text, each keeping its newline. *)
Fixpoint lines (s : string) : list string :=
  match s with
  | EmptyString => []
  | String x s' =>
      if Ascii.eqb x nl then String nl "" :: lines s'
      else match lines s' with
           | w :: ws => String x w :: ws
           | [] => [String x ""]
           end
  end.

(** [s.rstrip('\n')] *)
Fixpoint rstrip (s : string) : string :=
  match s with
  | EmptyString => ""
  | String x s' =>
      match rstrip s' with
      | EmptyString => if Ascii.eqb x nl then "" else String x ""
      | r => String x r
      end
  end.

(** * Processed-file ledger *)

(** A dictionary keyed by strings. *)
Definition dict (V : Type) := string -> option V.
Definition dempty {V} : dict V := fun _ => None.
Definition dput {V} (d : dict V) (k : string) (v : V) : dict V :=
  fun x => if String.eqb x k then Some v else d x.

(** GLOBAL_PROCFILES (process.py:25): directory -> file -> attribute -> value. *)
Definition procs := dict (dict (dict string)).

(** process.py:30-52 *)
Definition pSet (g : procs) (dir file attr v : string) : procs :=
  match g dir with
  | Some fs =>
      match fs file with
      | Some ats => dput g dir (dput fs file (dput ats attr v))
      | None => dput g dir (dput fs file (dput dempty attr v))
      end
  | None => dput g dir (dput dempty file (dput dempty attr v))
  end.

(** process.py:54-72; [None] is the number 0 returned on KeyError. *)
Definition pGet (g : procs) (dir file attr : string) : option string :=
  match g dir with
  | Some fs => match fs file with Some ats => ats attr | None => None end
  | None => None
  end.

(** process.py:173-197, for a string value (the number 0 is not a string). *)
Definition pAlready (g : procs) (dir file attr v : string) : bool :=
  match pGet g dir file attr with Some x => String.eqb x v | None => false end.

(** State of one process plus the disk: GLOBAL_DATFILE, GLOBAL_PROCFILES and the
    text of every file that can be opened. *)
Record pst := mkP { datfile : option string; pfiles : procs; disk : dict string }.

(** One line of the dat file (process.py:100-106); [None] is the ValueError of
    unpacking a wrong number of fields. *)
Definition readLine (g : procs) (l : string) : option procs :=
  match split bar l with
  | [dir; file; moddate; md5sum] =>
      Some (pSet (pSet g dir file "moddate" (rstrip moddate)) dir file "md5sum" (rstrip md5sum))
  | _ => None
  end.

Fixpoint readLines (g : procs) (ls : list string) : procs * bool :=
  match ls with
  | [] => (g, true)
  | l :: ls' => match readLine g l with Some g' => readLines g' ls' | None => (g, false) end
  end.

(** Result of a call: return code or an exception. *)
Inductive pres := PRet (rc : nat) | PRaise.

(** pGetProcessedFiles, process.py:75-114. *)
Definition pGetFiles (s : pst) (name : option string) : pst * pres :=
  match name with
  | None => (s, PRet 0)
  | Some "" => (s, PRet 0)
  | Some n =>
      match disk s n with
      | None => (mkP (Some n) (pfiles s) (disk s), PRet 0)
      | Some text =>
          let '(g, ok) := readLines (pfiles s) (lines (universal text)) in
          (mkP (Some n) g (disk s), if ok then PRet 1 else PRaise)
      end
  end.

(** The four values of flGetStat (Utilities/files.py:120-167): directory, name,
    md5sum, modification date. *)
Record stat := mkStat { sdir : string; sname : string; smd5 : string; smod : string }.

(** One record as text, process.py:140. *)
Definition record (r : stat) : string :=
  join bar [sdir r; sname r; smod r; smd5 r] ++ String nl "".

(** pWriteProcessedFile, process.py:116-151; [stat = None]: flGetStat raised.
    Opening for append creates the file; failure to open is not modelled. *)
Definition pWrite (s : pst) (r : option stat) : pst * pres :=
  match datfile s with
  | None => (s, PRet 0)
  | Some "" => (s, PRet 0)
  | Some n =>
      match r with
      | None => (s, PRaise)
      | Some r =>
          let g := pSet (pSet (pfiles s) (sdir r) (sname r) "md5sum" (smd5 r))
                        (sdir r) (sname r) "moddate" (smod r) in
          let old := match disk s n with Some t => t | None => "" end in
          (mkP (datfile s) g (dput (disk s) n (old ++ record r)), PRet 1)
      end
  end.

(** Histories of ledger calls within one process. *)
Inductive pop :=
| OSet (dir file attr v : string)
| OWrite (r : stat).
Definition pDo (s : pst) (o : pop) : pst :=
  match o with
  | OSet d f a v => mkP (datfile s) (pSet (pfiles s) d f a v) (disk s)
  | OWrite r => fst (pWrite s (Some r))
  end.

(** * Configuration *)

(** [str.lower] on ASCII (RawConfigParser.optionxform). *)
Definition lowerA (c : ascii) : ascii :=
  let n := nat_of_ascii c in
  if ((65 <=? n) && (n <=? 90))%nat then ascii_of_nat (n + 32) else c.
Fixpoint lower (s : string) : string :=
  match s with EmptyString => "" | String x s' => String (lowerA x) (lower s') end.

(** Values held by the parser: text, or a list passed to [set] that no
    formatter converted (RawConfigParser.set stores any object). *)
Inductive value := VStr (s : string) | VList (l : list string).

(** The contents of a configuration file as parsed by RawConfigParser: sections
    with (option, text) pairs in file order.  Parsing of the text, DEFAULT
    sections and interpolation are not modelled. *)
Definition content := list (string * list (string * string)).

(** The parser: section -> option -> value, and [readonce] (config.py:258-268). *)
Record cfg := mkCfg { secs : dict (dict value); readonce : bool }.

Definition putOpt (d : dict value) (p : string * string) : dict value :=
  dput d (lower (fst p)) (VStr (snd p)).
Definition putSec (g : dict (dict value)) (sec : string * list (string * string)) :=
  let old := match g (fst sec) with Some d => d | None => dempty end in
  dput g (fst sec) (fold_left putOpt (snd sec) old).
(** RawConfigParser.read_file: sections are created on demand and options added to
    or replaced in them. *)
Definition merge (g : dict (dict value)) (c : content) := fold_left putSec c g.

(** config.py:265-268 *)
Definition cfgNew (defaults : content) : cfg := mkCfg (merge dempty defaults) false.

Inductive cres (A : Type) := COk (a : A) | CValueError | CNoSection | CNoOption.
Arguments COk {A} _. Arguments CValueError {A}. Arguments CNoSection {A}. Arguments CNoOption {A}.

(** config.py:280-297.  [files] gives the contents of the existing files. *)
Definition cfgRead (files : dict content) (s : cfg) (name : option string) : cfg * cres unit :=
  match name with
  | None => (s, COk tt)
  | Some n =>
      if readonce s then (s, COk tt)
      else match files n with
           | None => (s, CValueError)
           | Some c => (mkCfg (merge (secs s) c) true, COk tt)
           end
  end.

(** RawConfigParser.get *)
Definition cfgGet (s : cfg) (section option : string) : cres value :=
  match secs s section with
  | None => CNoSection
  | Some d => match d (lower option) with None => CNoOption | Some v => COk v end
  end.

(** config.py:19-31, 33-44, 47-58 *)
Definition parseBool (txt : string) : bool := String.eqb txt "True".
Definition parseList (txt : string) : list string := split comma txt.
Definition formatList (l : list string) : string := join comma l.

(** The characters of a string, each as a string: what iterating over it gives. *)
Fixpoint chars (s : string) : list string :=
  match s with EmptyString => [] | String x s' => String x "" :: chars s' end.

(** FORMATERS, config.py:61-64; formatList applied to a string joins its characters. *)
Definition formatted (section option : string) (v : value) : value :=
  let key := section ++ "_" ++ option in
  if String.eqb key "Input_mslpgrid" || String.eqb key "TCRM_columns"
  then VStr (formatList (match v with VStr t => chars t | VList l => l end))
  else v.

(** config.py:318-335 and RawConfigParser.set *)
Definition cfgSet (s : cfg) (section option : string) (v : value) : cfg * cres unit :=
  match secs s section with
  | None => (s, CNoSection)
  | Some d => (mkCfg (dput (secs s) section (dput d (lower option) (formatted section option v)))
                     (readonce s), COk tt)
  end.

Inductive cop := CRead (name : option string) | CSet (section option : string) (v : value).
Definition cfgDo (files : dict content) (s : cfg) (o : cop) : cfg :=
  match o with
  | CRead n => fst (cfgRead files s n)
  | CSet sec o v => fst (cfgSet s sec o v)
  end.
Definition cfgRun (files : dict content) (s : cfg) (os : list cop) : cfg :=
  fold_left (cfgDo files) os s.

(** The keys of PARSERS whose parser is parseBool (config.py:66-130). *)
Definition boolKeys : list string :=
  ["Actions_dataprocess"; "Actions_executehazard"; "Actions_executestat";
   "Actions_executetrackgenerator"; "Actions_executewindfield"; "Actions_plotdata";
   "Actions_plothazard"; "Actions_createdatabase"; "Actions_downloaddata";
   "Actions_executeevaluate"; "DataProcess_filterseasons"; "Hazard_calculateci";
   "Hazard_SmoothPlots"; "Logging_progressbar"; "Logging_verbose"; "Logging_datestamp";
   "Process_excludepastprocessed"; "RMW_getrmwdistfrominputdata"; "Timeseries_Extract";
   "Timeseries_Windfields"; "WindfieldInterface_plotoutput"].

(** One pair of [items(section)] (config.py:299-316) for a boolean or a text option;
    the names RawConfigParser.items yields are in lower case. *)
Inductive item := IBool (b : bool) | IText (t : string).
Definition cfgItem (section name txt : string) : item :=
  if existsb (String.eqb (section ++ "_" ++ lower name)) boolKeys
  then IBool (parseBool txt) else IText txt.

(** configparser's getboolean (BOOLEAN_STATES): accepted spellings, any case. *)
Definition getboolean (txt : string) : option bool :=
  let t := lower txt in
  if existsb (String.eqb t) ["1"; "yes"; "true"; "on"] then Some true
  else if existsb (String.eqb t) ["0"; "no"; "false"; "off"] then Some false
  else None.

(** * Master-only functions *)
(** Utilities/parallel.py:118-133: the value returned on one rank and whether the
    function was called there. *)
Definition disableOnWorkers {A B} (f : A -> B) (size rank : nat) (x : A) : option B * list A :=
  if ((1 <? size) && (0 <? rank))%nat then (None, []) else (Some (f x), [x]).
