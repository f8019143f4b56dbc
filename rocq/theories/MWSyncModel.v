(** The master/worker protocol of MWModel.v when a send may block.  [comm.send] of mpi4py returns
    at once or only when the receiver has taken the message, as the MPI library decides for each
    message; here the scheduler decides. *)
From Verif Require Import Base MWModel.

Section Sync.
  Context {T R S : Type}.
  Variable calc : T -> option R.
  Variable store : S -> R -> S.
  Variable tiles : list T.
  Variable nw : nat.
  Variable s0 : S.
  Notation st := (@st T R S).
  Notation step := (@step T R S calc store tiles nw).

  (** [mblk]: rank 0 waits in [comm.send] until the rank given takes the message;
      [wblk i]: rank i waits in [comm.send] until rank 0 takes its result. *)
  Record bst := mkB { base : st; mblk : option nat; wblk : nat -> bool }.
  Definition binit : bst := mkB (@init T R S nw s0) None (fun _ => false).

  (** The rank that rank 0 is about to send to (hazard/__init__.py:345, 349, 384, 387). *)
  Definition sendsTo (p : mpc) : option nat :=
    match p with MSend d => if d <=? nw then Some d else None | MReply d => Some d | _ => None end.

  Inductive bstep : bst -> bst -> Prop :=
  (** rank 0 sends and goes on, or waits *)
  | b_msend b s' d q : mblk b = None -> sendsTo (pc (base b)) = Some d ->
      step (base b) s' -> pc s' <> pc (base b) -> q = None \/ q = Some d ->
      bstep b (mkB s' q (wblk b))
  (** rank 0 takes a result; the sender need not wait any longer *)
  | b_mrecv b s' d : mblk b = None -> pc (base b) = MLoop -> pc s' = MReply d ->
      step (base b) s' ->
      bstep b (mkB s' None (fun i => wblk b i && negb ((i =? d) && match up s' i with [] => true | _ => false end)))
  (** rank 0 neither sends nor receives *)
  | b_mlocal b s' : mblk b = None -> sendsTo (pc (base b)) = None -> (forall d, pc s' <> MReply d) ->
      step (base b) s' -> pc s' <> pc (base b) ->
      bstep b (mkB s' None (wblk b))
  (** rank i takes a message; rank 0 need not wait for it any longer *)
  | b_wrecv b s' i : wblk b i = false -> wk (base b) i = WRecv -> wk s' i <> WRecv ->
      step (base b) s' -> pc s' = pc (base b) ->
      bstep b (mkB s' (match mblk b with
                       | Some d => if (d =? i) && match down s' i with [] => true | _ => false end then None else Some d
                       | None => None end) (wblk b))
  (** rank i sends its result and goes on, or waits *)
  | b_wsend b s' i t q : wblk b i = false -> wk (base b) i = WWork t -> wk s' i = WRecv ->
      step (base b) s' -> pc s' = pc (base b) ->
      bstep b (mkB s' (mblk b) (upd (wblk b) i q))
  (** the computation of rank i raises *)
  | b_wfail b s' i t : wblk b i = false -> wk (base b) i = WWork t -> wk s' i = WFail t ->
      step (base b) s' -> pc s' = pc (base b) ->
      bstep b (mkB s' (mblk b) (wblk b)).
End Sync.
