(** Master/worker protocol used three times in the code:
    hazard/__init__.py:330-429  (HazardCalculator.dumpHazardFromTiles),
    database/__init__.py:351-428 (HazardDatabase.processEvents),
    database/__init__.py:549-624 (HazardDatabase.processTracks).
    The three copies differ only in what is sent ([T]), what a worker computes
    ([calc]) and what the master does with a result ([store]). *)
From Verif Require Import Base.

Section MW.
  Context {T R S : Type}.
  (** Worker computation; [None] is an uncaught Python exception
      (hazard/__init__.py:264-328 may raise ValueError; database processEvent may raise). *)
  Variable calc : T -> option R.
  (** Effect of one result on the master's output
      (hazard/__init__.py:352-378, database/__init__.py:391-393). *)
  Variable store : S -> R -> S.
  Variable tiles : list T.
  (** [nw = comm.size - 1] worker ranks 1..nw. *)
  Variable nw : nat.
  Variable s0 : S.

  (** Program counter of rank 0.
      [MSend d]: top of the body of [for d in range(1, comm.size)] (hazard/__init__.py:343-350);
      [MLoop]: test of [while(terminated < p)] (353);
      [MReply d]: after the result of rank d has been received and stored (355-380),
      before the answer is sent (382-388);
      [MDone]: the method has returned. *)
  Inductive mpc := MSend (d : nat) | MLoop | MReply (d : nat) | MDone.

  (** Program counter of a worker (hazard/__init__.py:394-403).
      [WRecv]: blocked in [comm.recv(source=0)]; [WWork t]: in calculateHazard(t);
      [WDone]: left the loop on [None]; [WFail t]: an exception left the loop while
      processing [t]. *)
  Inductive wpc := WRecv | WWork (t : T) | WDone | WFail (t : T).

  (** Whole-system state. [down i]/[up i] are the FIFO channels between rank 0 and
      rank i (MPI messages between one pair of ranks do not overtake; a send is
      buffered and does not block; see [MWSyncModel] for blocking sends).
      [hist] and [comp] are history variables: results in the order received and
      tiles in the order computed; no step reads them. *)
  Record st := mk {
    pc : mpc; wn : nat; pn : nat; term : nat;
    out : S;
    down : nat -> list (option T); up : nat -> list R; wk : nat -> wpc;
    hist : list R; comp : list T }.

  (** hazard/__init__.py:341-342: [w = 0; p = comm.size - 1]. *)
  Definition init : st :=
    mk (MSend 1) 0 nw 0 s0 (fun _ => []) (fun _ => []) (fun _ => WRecv) [] [].

  Inductive step : st -> st -> Prop :=
  (** 344-347: [comm.send(tiles[w], dest=d); w += 1] *)
  | step_send_work s d t :
      pc s = MSend d -> d <= nw -> nth_error tiles (wn s) = Some t ->
      step s (mk (MSend (d+1)) (wn s + 1) (pn s) (term s) (out s)
                 (upd (down s) d (down s d ++ [Some t])) (up s) (wk s) (hist s) (comp s))
  (** 348-350: [comm.send(None, dest=d); p = w] *)
  | step_send_none s d :
      pc s = MSend d -> d <= nw -> nth_error tiles (wn s) = None ->
      step s (mk (MSend (d+1)) (wn s) (wn s) (term s) (out s)
                 (upd (down s) d (down s d ++ [None])) (up s) (wk s) (hist s) (comp s))
  (** 352: [terminated = 0], fall into the while loop *)
  | step_enter s d :
      pc s = MSend d -> nw < d ->
      step s (mk MLoop (wn s) (pn s) 0 (out s) (down s) (up s) (wk s) (hist s) (comp s))
  (** 353-380: receive from any rank with a message, store the result *)
  | step_recv s d r rest :
      pc s = MLoop -> term s < pn s -> 1 <= d <= nw -> up s d = r :: rest ->
      step s (mk (MReply d) (wn s) (pn s) (term s) (store (out s) r)
                 (down s) (upd (up s) d rest) (wk s) (hist s ++ [r]) (comp s))
  (** 382-385: more work for the answering rank *)
  | step_reply_work s d t :
      pc s = MReply d -> nth_error tiles (wn s) = Some t ->
      step s (mk MLoop (wn s + 1) (pn s) (term s) (out s)
                 (upd (down s) d (down s d ++ [Some t])) (up s) (wk s) (hist s) (comp s))
  (** 386-388: stop the answering rank *)
  | step_reply_none s d :
      pc s = MReply d -> nth_error tiles (wn s) = None ->
      step s (mk MLoop (wn s) (pn s) (term s + 1) (out s)
                 (upd (down s) d (down s d ++ [None])) (up s) (wk s) (hist s) (comp s))
  (** 353: loop test fails *)
  | step_leave s :
      pc s = MLoop -> pn s <= term s ->
      step s (mk MDone (wn s) (pn s) (term s) (out s) (down s) (up s) (wk s) (hist s) (comp s))
  (** 398: worker receives a tile *)
  | step_w_work s i t rest :
      1 <= i <= nw -> wk s i = WRecv -> down s i = Some t :: rest ->
      step s (mk (pc s) (wn s) (pn s) (term s) (out s)
                 (upd (down s) i rest) (up s) (upd (wk s) i (WWork t)) (hist s) (comp s))
  (** 399-401: worker receives [None] and leaves *)
  | step_w_stop s i rest :
      1 <= i <= nw -> wk s i = WRecv -> down s i = None :: rest ->
      step s (mk (pc s) (wn s) (pn s) (term s) (out s)
                 (upd (down s) i rest) (up s) (upd (wk s) i WDone) (hist s) (comp s))
  (** 402-403: worker computes and sends the result *)
  | step_w_calc s i t r :
      1 <= i <= nw -> wk s i = WWork t -> calc t = Some r ->
      step s (mk (pc s) (wn s) (pn s) (term s) (out s)
                 (down s) (upd (up s) i (up s i ++ [r])) (upd (wk s) i WRecv)
                 (hist s) (comp s ++ [t]))
  (** 402: the computation raises *)
  | step_w_fail s i t :
      1 <= i <= nw -> wk s i = WWork t -> calc t = None ->
      step s (mk (pc s) (wn s) (pn s) (term s) (out s)
                 (down s) (up s) (upd (wk s) i (WFail t)) (hist s) (comp s)).

  (** Every process has returned from the method. *)
  Definition finished (s : st) : Prop :=
    pc s = MDone /\ forall i, 1 <= i <= nw -> wk s i = WDone.

  (** Single-process branch, hazard/__init__.py:405-429: process tiles in order;
      [None] if some computation raises. *)
  Fixpoint serial (s : S) (ts : list T) : option S :=
    match ts with
    | [] => Some s
    | t :: ts' => match calc t with
                  | Some r => serial (store s r) ts'
                  | None => None
                  end
    end.
End MW.
