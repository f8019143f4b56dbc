(** The master/worker loop of the track evaluations (Evaluate/trackDensity.py:157-212,
    genesisDensity.py:262-310, longitudeCrossing.py:225-280, pressureDistribution.py:240-316,
    landfallRates.py:195-262).  It is the loop of MWModel.v except that the first loop
    over the workers indexes the list of track files without testing its length
    (trackDensity.py:171-175), so that it raises IndexError on rank 0 when there are fewer
    files than workers.
    Simplification: messages are taken to carry Python objects, as in MWModel.v.  The
    evaluation modules call the buffer versions [Send]/[Recv] with Python objects, and
    landfallRates.py calls [comm.size()], pressureDistribution.py [comn.Send]; what these
    calls do is not modelled. *)
From Coq Require Import List Arith Lia QArith.
From Verif Require Import Base MWModel.
Import ListNotations.
Open Scope nat_scope.

Section Eval.
  Context {T R : Type}.
  Variable calc : T -> option R.
  Variable files : list T.
  Variable nw : nat.

  (** trackDensity.py:181-182: [self.synHist[n, :, :] = results; n += 1]: the rows
      filled so far, in the order received. *)
  Definition addRow (rows : list R) (r : R) : list R := rows ++ [r].

  (** Rank 0 is about to send to worker [d] and [trackfiles[w]] is out of range. *)
  Definition outOfFiles (s : @st T R (list R)) : Prop :=
    exists d, pc s = MSend d /\ d <= nw /\ nth_error files (wn s) = None.

  (** As [step], but rank 0 does not get past the IndexError. *)
  Definition estep (s s' : @st T R (list R)) : Prop :=
    step calc addRow files nw s s' /\ (outOfFiles s -> pc s' = pc s).
End Eval.

(** calculateMeans, trackDensity.py:120-127: the mean over the rows of one cell; masked
    values are not modelled. *)
Definition cellMean {C : Type} (rows : list (C -> Q)) (c : C) : Q :=
  (fold_right Qplus 0 (map (fun r => r c) rows) / inject_Z (Z.of_nat (length rows)))%Q.
