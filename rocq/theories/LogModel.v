(** Log files: flStartLog, Utilities/files.py:200-263, with what it uses of the standard library: basicConfig, the
    handlers of the root logger and their levels.
    Simplifications: a message is one line of a file or of the screen, without its time; links in paths are not followed;
    a level that is not one of the six names is an AttributeError (the name of another attribute of the module would be
    a TypeError, after the file has been opened). *)
From Coq Require Import List Arith Bool Ascii String.
From Verif Require Import NamesModel TextModel.
Import ListNotations.
Close Scope string_scope. Open Scope nat_scope. Local Open Scope list_scope.

Definition levelOf (name : str) : option nat :=
  if str_eqb name (lit "NOTSET") then Some 0 else if str_eqb name (lit "DEBUG") then Some 10
  else if str_eqb name (lit "INFO") then Some 20 else if str_eqb name (lit "WARNING") then Some 30
  else if str_eqb name (lit "ERROR") then Some 40 else if str_eqb name (lit "CRITICAL") then Some 50 else None.
Definition info : nat := 20.

(** 221-225, 258-259, and messages of the program *)
Inductive msg := Started (file level : str) | Running | Said (n : nat).
(** The file of basicConfig, the console of 250-256, or a handler of another library *)
Inductive handler := HFile (f : str) | HConsole (level : nat) | HOther.
Record st := mk { handlers : list handler; rootLevel : nat; disk : str -> option (list msg); screen : list msg }.
Definition fresh (d : str -> option (list msg)) : st := mk [] 30 d [].

(** One handler and one message; files take every level *)
Definition handle (level : nat) (m : msg) (s : st) (h : handler) : st :=
  match h with
  | HFile f => mk (handlers s) (rootLevel s)
                 (fun g => if str_eqb g f then Some (match disk s f with Some c => c ++ [m] | None => [m] end) else disk s g) (screen s)
  | HConsole l => if l <=? level then mk (handlers s) (rootLevel s) (disk s) (screen s ++ [m]) else s
  | HOther => s
  end.
(** Logger.log *)
Definition say (level : nat) (m : msg) (s : st) : st :=
  if rootLevel s <=? level then fold_left (handle level m) (handlers s) s else s.

(** 221-226: [base.date.ext] *)
Definition stamped (date f : str) : str :=
  let dir := match splitLast slash f with Some (a, _) => a ++ [slash] | None => [] end in
  let '(base, ext) := splitext (fileName f) in
  dir ++ base ++ dot :: date ++ dot :: ext.
(** 228-236: [usable] whether the directory of a file is there or can be made *)
Definition place (usable : str -> bool) (cwd f : str) : str := if usable f then f else pjoin cwd (fileName f).

Record call := mkCall { c_file : str; c_level : str; c_verbose : bool; c_stamp : bool; c_new : bool }.
(** The computer: date, usable directories, current directory, files that can be opened *)
Record env := mkEnv { e_date : str; e_usable : str -> bool; e_cwd : str; e_open : str -> bool }.
Inductive err := EAttribute | EOpen.
Definition logName (e : env) (c : call) : str :=
  place (e_usable e) (e_cwd e) (if c_stamp c then stamped (e_date e) (c_file c) else c_file c).
(** 238-247: basicConfig does nothing if there are handlers *)
Definition basicConfig (e : env) (f : str) (level : nat) (new : bool) (s : st) : st * option err :=
  match handlers s with
  | [] => if e_open e f
          then (mk [HFile f] level
                  (fun g => if str_eqb g f then Some (if new then [] else match disk s f with Some c => c | None => [] end) else disk s g)
                  (screen s), None)
          else (s, Some EOpen)
  | _ => (s, None)
  end.
(** 248-257 *)
Definition console (verbose : bool) (level : nat) (s : st) : st :=
  if (List.length (handlers s) <? 2) && verbose
  then mk (handlers s ++ [HConsole level]) (rootLevel s) (disk s) (screen s) else s.
(** 200-263 *)
Definition flStartLog (e : env) (c : call) (s : st) : st * option err :=
  let f := logName e c in
  match levelOf (c_level c) with
  | None => (s, Some EAttribute)
  | Some l =>
      match basicConfig e f l (c_new c) s with
      | (s1, Some x) => (s1, Some x)
      | (s1, None) => (say info Running (say info (Started f (c_level c)) (console (c_verbose c) l s1)), None)
      end
  end.

(** What a program does *)
Inductive act := AStart (e : env) (c : call) | ASay (level : nat) (n : nat).
Definition perform (s : st) (a : act) : st :=
  match a with AStart e c => fst (flStartLog e c s) | ASay l n => say l (Said n) s end.
Definition run (acts : list act) (s : st) : st := fold_left perform acts s.
