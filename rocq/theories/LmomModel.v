(** Sample L-moments (Utilities/lmomentFit.py) over exact rationals. *)
From Coq Require Import List Arith ZArith Lia Bool QArith Qabs.
Import ListNotations.
Open Scope Q_scope.

Definition qn (k : nat) : Q := inject_Z (Z.of_nat k).
(** [sum] over i = 0 .. n-1. *)
Fixpoint sumn (f : nat -> Q) (n : nat) : Q :=
  match n with O => 0 | S n' => sumn f n' + f n' end.

(** Results: a value, ValueError (too few data), ZeroDivisionError, or Python's None. *)
Inductive lres (A : Type) := LOk (a : A) | LFew | LZeroDiv | LNone.
Arguments LOk {A} _. Arguments LFew {A}. Arguments LZeroDiv {A}. Arguments LNone {A}.

Section Lmom.
  Variable data : list Q.
  Definition n : nat := length data.
  Definition x (i : nat) : Q := nth i data 0.
  (** lmomentFit.py:271 and 347: [nhalf = n // 2] *)
  Definition nhalf : nat := (n / 2)%nat.

  (** [range(-n + 1, 0, 2)][i] (345) and [temp] in pass [i + 1] of the loop (269-273). *)
  Definition temp (i : nat) : Q := - qn n + 1 + 2 * qn i.
  (** lmomentFit.py:270, 346 *)
  Definition const : Q := 1 / (qn n - 1).
  (** [xi + xii] and [xi - xii] with [xi = data[i]], [xii = data[n-1-i]] (275-278, 348-351). *)
  Definition termp (i : nat) : Q := x i + x (n - 1 - i).
  Definition termn (i : nat) : Q := x i - x (n - 1 - i).

  (** samlmu3, lmomentFit.py:323-359.  The third value is [None] (not a number) when the
      second moment is zero. *)
  Definition samlmu3 : lres (Q * Q * option Q) :=
    if (n <=? 2)%nat then LFew else
    let tempo := 1 / (2 * qn n - 4) in
    let coef02 := 3 * tempo in
    let coef12 := (qn n + 1) * tempo in
    let m0 := sumn termp nhalf in
    let m1 := sumn (fun i => temp i * termn i * const) nhalf in
    let m2 := sumn (fun i => (temp i * temp i * coef02 * const - coef12) * termp i) nhalf in
    let odd := negb (n =? nhalf + nhalf)%nat in
    let m0 := if odd then m0 + x nhalf else m0 in
    let m2 := if odd then m2 - coef12 * x nhalf else m2 in
    LOk (m0 / qn n, m1 / qn n, if Qeq_bool m1 0 then None else Some (m2 / m1)).

  (** lmomentFit.py:263-266, for j >= 3. *)
  Definition ctemp (j : nat) : Q := 1 / ((qn j - 1) * (qn n - qn j + 1)).
  Definition coef0 (j : nat) : Q := (2 * qn j - 3) * ctemp j.
  Definition coef1 (j : nat) : Q := ((qn j - 2) * (qn n + qn j - 2)) * ctemp j.

  (** [(S1, S)] for moment [j + 2] with the given [temp] (280-292): the recurrence of the
      discrete Legendre polynomials. *)
  Fixpoint legendre (t : Q) (j : nat) : Q * Q :=
    match j with
    | O => (1, t * const)
    | S j' => let '(s1, s) := legendre t j' in
              (s, coef0 (j' + 3) * t * s - coef1 (j' + 3) * s1)
    end.
  (** The factor of moment [j], j >= 1. *)
  Definition factor (t : Q) (j : nat) : Q :=
    match j with O => 0 | S O => 1 | S (S j') => snd (legendre t j') end.
  (** Factor of the middle value for odd [n] and odd [j = 2 k + 1] (298-301). *)
  Fixpoint middle (k : nat) : Q :=
    match k with O => 1 | S k' => - coef1 (2 * k + 1) * middle k' end.

  (** The accumulated [xmom[j - 1]] before the ratios are formed (267-301). *)
  Definition accum (j : nat) : Q :=
    let s := sumn (fun i => factor (temp i) j * (if Nat.odd j then termp i else termn i)) nhalf in
    if negb (n =? nhalf + nhalf)%nat && Nat.odd j then s + middle (j / 2) * x nhalf else s.

  (** samlmu, lmomentFit.py:199-320, for nmom >= 1. [nmom > n] makes a coefficient divide by zero. *)
  Definition samlmu (nmom : nat) : lres (list (option Q)) :=
    if (n <=? 2)%nat then LFew else
    if (nmom =? 3)%nat then
      match samlmu3 with
      | LOk (a, b, c) => LOk [Some a; Some b; c]
      | LFew => LFew | LZeroDiv => LZeroDiv | LNone => LNone
      end
    else if (100 <? nmom)%nat then LNone
    else if (nmom <=? 2)%nat then
      let sum1 := sumn x n in
      let sum2 := sumn (fun i => x i * (- qn n + 1 + 2 * qn i)) n in
      if (nmom =? 1)%nat then LOk [Some (sum1 / qn n)]
      else LOk [Some (sum1 / qn n); Some (sum2 / (qn n * (qn n - 1)))]
    else if (n <? nmom)%nat then LZeroDiv
    else if Qeq_bool (accum 2) 0 then LNone
    else LOk (Some (accum 1 / qn n) :: Some (accum 2 / qn n)
              :: map (fun j => Some (accum j / accum 2)) (seq 3 (nmom - 2))).
End Lmom.
