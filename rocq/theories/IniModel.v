(** Reading one option through the helper kept for the old configuration interface:
    cnfGetIniValue (Utilities/config.py:342-382) and the geteval of the parser
    (config.py:268-276), on top of the parser modelled in UtilModel. *)
From Coq Require Import List ZArith QArith Bool Ascii String.
From Verif Require Import UtilModel.
Import ListNotations.
Close Scope Q_scope.

Section Ini.
(** Values that evaluating a text can give besides the ones named below. *)
Variable V : Type.

(** Python values that serve as a default or come back.  [PObj] is any other object: a
    tuple, an array, a function, a module. *)
Inductive pv :=
| PNone | PStr (s : string) | PBool (b : bool) | PInt (z : Z) | PFloat (q : Q)
| PDict (v : V) | PList (l : list string) | PObj (v : V).

(** What [eval(text)] does in the namespace of config.py: a value, one of the two exceptions
    cnfGetIniValue catches, or any other one. *)
Inductive ev := EvOk (v : pv) | EvName | EvSyntax | EvOther.
Variable eval : string -> ev.
(** [int(text)] and [float(text)]; [None] is their ValueError. *)
Variable toInt : string -> option Z.
Variable toFloat : string -> option Q.

(** What a call gives: a value, ValueError, an exception raised while evaluating the text,
    or the AttributeError/TypeError of treating a list that was [set] as text. *)
Inductive ires := IVal (v : pv) | IValueError | IEval | IType.

(** Whether [has_section] and [has_option] of RawConfigParser hold (the DEFAULT section is
    not modelled, as in UtilModel). *)
Definition hasSection (s : cfg) (sec : string) : bool :=
  match secs s sec with Some _ => true | None => false end.
Definition hasOption (s : cfg) (sec o : string) : bool :=
  match secs s sec with
  | Some d => match d (lower o) with Some _ => true | None => false end
  | None => false
  end.

(** [self._get(section, conv, option)] of RawConfigParser: conv of what [get] gives. *)
Definition getWith (s : cfg) (sec o : string) (conv : string -> ires) : ires :=
  match cfgGet s sec o with
  | COk (VStr t) => conv t
  | COk (VList _) => IType
  | _ => IValueError
  end.

(** [config.get(section, option)]; the option is known to be there. *)
Definition getRaw (s : cfg) (sec o : string) : ires :=
  match cfgGet s sec o with
  | COk (VStr t) => IVal (PStr t)
  | COk (VList l) => IVal (PList l)
  | _ => IValueError
  end.

(** config.py:268-276 geteval, without the handler at the call. *)
Definition evalText (t : string) : ires :=
  match eval t with EvOk v => IVal v | _ => IEval end.

(** config.py:367-382, the section and the option being there.  [isinstance(True, int)]
    holds in Python, so the order of the tests matters; a default of any other type falls
    off the end of the function, which returns None. *)
Definition byDefault (s : cfg) (sec o : string) (d : pv) : ires :=
  match d with
  | PNone =>
      match cfgGet s sec o with
      | COk (VStr t) => match eval t with
                        | EvOk v => IVal v
                        | EvName | EvSyntax => getRaw s sec o
                        | EvOther => IEval
                        end
      | COk (VList _) => IType
      | _ => IValueError
      end
  | PStr _ => getRaw s sec o
  | PBool _ => getWith s sec o (fun t => match getboolean t with
                                         | Some b => IVal (PBool b) | None => IValueError end)
  | PInt _ => getWith s sec o (fun t => match toInt t with
                                        | Some z => IVal (PInt z) | None => IValueError end)
  | PFloat _ => getWith s sec o (fun t => match toFloat t with
                                          | Some q => IVal (PFloat q) | None => IValueError end)
  | PDict _ => getWith s sec o evalText
  | PList _ | PObj _ => IVal PNone
  end.

(** config.py:342-382.  The parser is the one object of the process. *)
Definition cnfGetIniValue (files : dict content) (s : cfg) (file : option string)
    (sec o : string) (d : pv) : cfg * ires :=
  let '(s', r) := cfgRead files s file in
  match r with
  | COk _ =>
      (s', if negb (hasSection s' sec) then IVal d
           else if negb (hasOption s' sec o) then IVal d
           else byDefault s' sec o d)
  | _ => (s', IValueError)
  end.

(** Several calls, one after the other. *)
Definition query := (option string * string * string * pv)%type.
Fixpoint queries (files : dict content) (s : cfg) (qs : list query) : cfg * list ires :=
  match qs with
  | [] => (s, [])
  | (f, sec, o, d) :: qs' =>
      let '(s1, r) := cnfGetIniValue files s f sec o d in
      let '(s2, rs) := queries files s1 qs' in (s2, r :: rs)
  end.
End Ini.

Arguments PNone {V}. Arguments PStr {V} _. Arguments PBool {V} _. Arguments PInt {V} _.
Arguments PFloat {V} _. Arguments PDict {V} _. Arguments PList {V} _. Arguments PObj {V} _.
Arguments EvOk {V} _. Arguments EvName {V}. Arguments EvSyntax {V}. Arguments EvOther {V}.
Arguments IVal {V} _. Arguments IValueError {V}. Arguments IEval {V}. Arguments IType {V}.
Arguments cnfGetIniValue {V} _ _ _ _ _ _ _ _ _.
Arguments queries {V} _ _ _ _ _ _.
Arguments byDefault {V} _ _ _ _ _ _ _.
