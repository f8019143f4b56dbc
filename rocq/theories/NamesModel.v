(** File names: wind/__init__.py:391-397, database/__init__.py:438-440, hazard/__init__.py:875-891.
    Strings are lists of characters; identifiers are natural numbers (track identifiers are
    counters, TrackGenerator.py:704, track.py:258). *)
From Coq Require Import Ascii String Decimal DecimalNat QArith.
From Verif Require Import Base.
Close Scope Q_scope. Close Scope string_scope. Open Scope list_scope.
Definition str := list ascii.
Definition lit (s : string) : str := list_ascii_of_string s.

(** Decimal digits of a natural number, most significant first ([str(n)]). *)
Fixpoint chars (d : uint) : str :=
  match d with
  | Nil => []
  | D0 d => "0"%char :: chars d | D1 d => "1"%char :: chars d | D2 d => "2"%char :: chars d
  | D3 d => "3"%char :: chars d | D4 d => "4"%char :: chars d | D5 d => "5"%char :: chars d
  | D6 d => "6"%char :: chars d | D7 d => "7"%char :: chars d | D8 d => "8"%char :: chars d
  | D9 d => "9"%char :: chars d
  end.
Definition decimal (n : nat) : str := chars (Nat.to_uint n).
(** ['{:0wd}'.format(n)] / ['%0wd' % n]: left padding with zeros to width [w]. *)
Definition padded (w n : nat) : str :=
  repeat "0"%char (w - length (decimal n)) ++ decimal n.

(** wind/__init__.py:396-397 gustFilename (base name). *)
Definition gust_name (id : nat * nat) : str :=
  lit "gust." ++ padded 3 (fst id) ++ lit "-" ++ padded 5 (snd id) ++ lit ".nc".

Definition is_digit (c : ascii) : bool :=
  let n := nat_of_ascii c in (48 <=? n) && (n <=? 57).
Definition digit (c : ascii) : nat := nat_of_ascii c - 48.
(** [int(s)] for a string of digits. *)
Definition int_of (s : str) : nat := fold_left (fun a c => 10 * a + digit c) s 0.

(** database/__init__.py:438-439: [re.compile(r'\d+').findall(filename)], maximal runs of
    digits from left to right. [cur] is the current run. *)
Fixpoint digit_runs (cur : str) (s : str) : list str :=
  match s with
  | [] => match cur with [] => [] | _ => [cur] end
  | c :: s' => if is_digit c then digit_runs (cur ++ [c]) s'
               else match cur with [] => digit_runs [] s' | _ => cur :: digit_runs [] s' end
  end.
(** database/__init__.py:439-440: [sim, num = findall(filename)] raises ValueError unless there
    are exactly two runs. *)
Definition event_id (filename : str) : option (nat * nat) :=
  match digit_runs [] filename with
  | [a; b] => Some (int_of a, int_of b)
  | _ => None
  end.

Fixpoint starts_with (p s : str) : bool :=
  match p, s with
  | [], _ => true
  | x :: p', y :: s' => Ascii.eqb x y && starts_with p' s'
  | _, [] => false
  end.
(** hazard/__init__.py:880-881: [glob("gust.*-%05d.nc" % year)]: the star matches any
    (possibly empty) sequence between the fixed parts. *)
Definition glob_year (year : nat) (s : str) : bool :=
  let pre := lit "gust." in
  let suf := lit "-" ++ padded 5 year ++ lit ".nc" in
  starts_with pre s && starts_with (rev suf) (rev (skipn (length pre) s)).

(** A directory: names (in listing order) with the value of vmax at the grid point looked at;
    [None] when the file cannot be opened (loadFile raises). *)
Definition dir := list (str * option Q).

Fixpoint all_some {A} (l : list (option A)) : option (list A) :=
  match l with
  | [] => Some []
  | None :: _ => None
  | Some x :: l' => option_map (cons x) (all_some l')
  end.
Definition qmax (a b : Q) : Q := if Qle_bool a b then b else a.
(** hazard/__init__.py:879-892, one year, one grid point: zeros when there are no files, else
    the maximum of the loaded values. [glob] keeps the listing order. *)
Definition year_max (d : dir) (year : nat) : option Q :=
  let files := filter (fun f => glob_year year (fst f)) d in
  match files with
  | [] => Some 0%Q
  | _ => match all_some (map snd files) with
         | None => None
         | Some [] => Some 0%Q
         | Some (x :: xs) => Some (fold_left qmax xs x)
         end
  end.
(** hazard/__init__.py:865-894 aggregateWindFields at one grid point: years 0..N-1. *)
Definition annual_maxima (d : dir) (n : nat) : option (list Q) :=
  all_some (map (year_max d) (seq 0 n)).
