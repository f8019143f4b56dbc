From Coq Require Import List Arith Lia Bool.
From Verif Require Import Base TileSpec BarrierModel.
Import ListNotations.
Open Scope nat_scope.

(** Barriers a rank can pass on its own: those before its first failing work. *)
Fixpoint reach (fails : work -> bool) (l : list op) : nat :=
  match l with
  | [] => 0
  | Bar :: l' => S (reach fails l')
  | Do w :: l' => if fails w then 0 else reach fails l'
  end.
Definition reachP (fails : work -> bool) (p : proc) : nat :=
  match p with Run l => reach fails l | Dead => 0 end.

(** Waiting at a barrier / left main. *)
Definition waiting (p : proc) : Prop := exists l, p = Run (Bar :: l).
Definition left (p : proc) : Prop := p = Run [] \/ p = Dead.

Section P.
  Variable fails : nat -> work -> bool.
  Variable n : nat.
  Variable prog : nat -> list op.
  Notation step := (bstep fails n).
  Notation init := (binit prog).

  Definition binv (s : bst) : Prop :=
    forall r, r < n -> bars s + reachP (fails r) (procs s r) = reach (fails r) (prog r).

  Lemma binv_init : binv init.
  Proof. intros r Hr. reflexivity. Qed.

  Lemma binv_step s s' : binv s -> step s s' -> binv s'.
  Proof.
    intros I St r Hr. specialize (I r Hr). destruct St as [s q w l Hq E F|s q w l Hq E F|s f H1 Hf]; cbn [procs bars].
    - destruct (Nat.eq_dec r q) as [->|N]; [|now rewrite upd_other].
      rewrite upd_same. rewrite E in I. cbn in I |- *. now rewrite F in I.
    - destruct (Nat.eq_dec r q) as [->|N]; [|now rewrite upd_other].
      rewrite upd_same. rewrite E in I. cbn in I |- *. now rewrite F in I.
    - rewrite (Hf r Hr) in I. cbn in I |- *. lia.
  Qed.

  Lemma binv_reach s : star step init s -> binv s.
  Proof. apply star_inv; [apply binv_init|apply binv_step]. Qed.

  Definition plen (p : proc) : nat := match p with Run l => S (length l) | Dead => 0 end.
  Definition size (s : bst) : nat := list_sum (map (fun r => plen (procs s r)) (seq 0 n)).

  Lemma sum_lt (f g : nat -> nat) l k : In k l -> (forall i, In i l -> g i <= f i) -> g k < f k ->
    list_sum (map g l) < list_sum (map f l).
  Proof.
    induction l as [|i l IH]; intros H Hle Hk; [contradiction|]. cbn [map list_sum fold_right].
    assert (Hle' : list_sum (map g l) <= list_sum (map f l)).
    { clear -Hle. induction l as [|j l IH]; [cbn; lia|]. cbn [map list_sum fold_right].
      unfold list_sum in IH. pose proof (Hle j (or_intror (or_introl eq_refl))).
      assert (fold_right Nat.add 0 (map g l) <= fold_right Nat.add 0 (map f l)).
      { apply IH. intros x [->|Hx]; apply Hle; cbn; auto. } lia. }
    unfold list_sum in *. destruct H as [->|H].
    - lia.
    - pose proof (Hle i (or_introl eq_refl)). assert (fold_right Nat.add 0 (map g l) < fold_right Nat.add 0 (map f l)).
      { apply IH; auto. intros x Hx. apply Hle. now right. } lia.
  Qed.

  Lemma size_step s s' : step s s' -> size s' < size s.
  Proof.
    intros St. unfold size. destruct St as [s q w l Hq E F|s q w l Hq E F|s f H1 Hf]; cbn [procs].
    - apply (sum_lt (fun r => plen (procs s r)) (fun r => plen (upd (procs s) q (Run l) r)) _ q).
      + apply in_seq. lia.
      + intros i _. destruct (Nat.eq_dec i q) as [->|N]; [rewrite upd_same, E; cbn; lia|now rewrite upd_other].
      + rewrite upd_same, E. cbn. lia.
    - apply (sum_lt (fun r => plen (procs s r)) (fun r => plen (upd (procs s) q Dead r)) _ q).
      + apply in_seq. lia.
      + intros i _. destruct (Nat.eq_dec i q) as [->|N]; [rewrite upd_same, E; cbn; lia|now rewrite upd_other].
      + rewrite upd_same, E. cbn. lia.
    - apply (sum_lt (fun r => plen (procs s r)) (fun r => plen (Run (f r))) _ 0).
      + apply in_seq. lia.
      + intros i Hi. apply in_seq in Hi. rewrite (Hf i) by lia. cbn. lia.
      + rewrite (Hf 0) by lia. cbn. lia.
  Qed.

  Lemma stops : ~ exists run : nat -> bst, run 0 = init /\ forall k, step (run k) (run (S k)).
  Proof.
    intros (run & _ & Hr).
    assert (H : forall k, size (run k) + k <= size (run 0)).
    { induction k as [|k IH]; [lia|]. pose proof (size_step _ _ (Hr k)). lia. }
    specialize (H (S (size (run 0)))). lia.
  Qed.

  Lemma finite_choice (P : nat -> Prop) : (forall r, r < n -> P r \/ ~ P r) ->
    (forall r, r < n -> P r) \/ exists r, r < n /\ ~ P r.
  Proof.
    induction n as [|m IH]; intros H.
    - left. intros; lia.
    - destruct IH as [A|(r & A & B)]; [intros; apply H; lia| |].
      + destruct (H m) as [C|C]; [lia| |].
        * left. intros r Hr. destruct (Nat.eq_dec r m) as [->|]; [auto|apply A; lia].
        * right. exists m. auto.
      + right. exists r. split; [lia|auto].
  Qed.

  (** In a state where nothing can happen, every process has left main or waits at
      a barrier; those with a barrier they could still reach wait. *)
  Lemma terminal s : 1 <= n -> binv s -> (forall s', ~ step s s') ->
    (forall r, r < n -> waiting (procs s r) \/ left (procs s r)) /\
    (exists r, r < n /\ left (procs s r)) /\
    (forall r, r < n -> waiting (procs s r) <-> bars s < reach (fails r) (prog r)) /\
    (forall r, r < n -> bars s <= reach (fails r) (prog r)).
  Proof.
    intros Hn I T.
    assert (W : forall r, r < n -> waiting (procs s r) \/ left (procs s r)).
    { intros r Hr. destruct (procs s r) as [[|[|w] l]|] eqn:E.
      - right. now left.
      - left. now exists l.
      - exfalso. destruct (fails r w) eqn:F.
        + eapply T. eapply b_fail; eauto.
        + eapply T. eapply b_work; eauto.
      - right. now right. }
    assert (NW : forall p, waiting p -> left p -> False).
    { intros p [l ->] [H|H]; discriminate. }
    split; [exact W|]. split; [|split].
    - destruct (finite_choice (fun r => waiting (procs s r))) as [A|(r & A & B)].
      + intros r Hr. destruct (W r Hr) as [H|H]; [now left|right; intros H'; eauto].
      + exfalso.
        eapply (T (mkB (fun r => Run (match procs s r with Run (_ :: l) => l | _ => [] end)) (bars s + 1))).
        apply b_bar; [exact Hn|].
        intros r Hr. destruct (A r Hr) as [l El]. rewrite El. reflexivity.
      + exists r. split; [exact A|]. destruct (W r A); [contradiction|auto].
    - intros r Hr. specialize (I r Hr). split.
      + intros [l El]. rewrite El in I. cbn in I. lia.
      + intros H. destruct (W r Hr) as [|[E|E]]; [auto| |]; rewrite E in I; cbn in I; lia.
    - intros r Hr. specialize (I r Hr). lia.
  Qed.

  Lemma ends (Q : bst -> Prop) : 1 <= n ->
    (forall s, star step init s -> (forall s', ~ step s s') -> Q s) -> always_ends_in init step Q.
  Proof. intros Hn H. split; [apply stops|exact H]. Qed.

  (** Every rank can reach the same number of barriers: all leave main. *)
  Lemma all_leave m : 1 <= n -> (forall r, r < n -> reach (fails r) (prog r) = m) ->
    always_ends_in init step (fun s => bars s = m /\ forall r, r < n -> left (procs s r)).
  Proof.
    intros Hn Hm. apply ends; [exact Hn|]. intros s Hs T.
    pose proof (binv_reach s Hs) as I.
    destruct (terminal s Hn I T) as (W & (q & Hq & Hl) & C & D).
    assert (E : bars s = m).
    { specialize (D q Hq). rewrite (Hm q Hq) in D.
      destruct (Nat.eq_dec (bars s) m) as [|N]; [auto|].
      assert (Hw : waiting (procs s q)) by (apply C; auto; rewrite (Hm q Hq); lia).
      destruct Hw as [l El]. destruct Hl as [E|E]; rewrite El in E; discriminate. }
    split; [exact E|]. intros r Hr. destruct (W r Hr) as [Hw|]; [|auto].
    apply C in Hw; auto. rewrite (Hm r Hr) in Hw. lia.
  Qed.

  (** A rank that can reach fewer barriers than some other leaves it waiting. *)
  Lemma some_wait q : q < n -> (forall r, r < n -> r <> q -> reach (fails q) (prog q) < reach (fails r) (prog r)) ->
    always_ends_in init step (fun s => bars s = reach (fails q) (prog q) /\ left (procs s q) /\
      forall r, r < n -> r <> q -> waiting (procs s r)).
  Proof.
    intros Hq Hlt. apply ends; [lia|]. intros s Hs T.
    pose proof (binv_reach s Hs) as I.
    destruct (terminal s ltac:(lia) I T) as (W & (p & Hp & Hl) & C & D).
    assert (NW : forall p, waiting p -> left p -> False).
    { intros x [l ->] [H|H]; discriminate. }
    assert (E : bars s = reach (fails q) (prog q)).
    { pose proof (D q Hq).
      destruct (Nat.eq_dec (bars s) (reach (fails q) (prog q))) as [|N]; [auto|]. exfalso.
      assert (Hw : waiting (procs s p)).
      { apply C; auto. destruct (Nat.eq_dec p q) as [->|Np]; [lia|]. pose proof (Hlt p Hp Np). lia. }
      eauto. }
    split; [exact E|]. split.
    - destruct (W q Hq) as [Hw|]; [|auto]. apply C in Hw; auto. lia.
    - intros r Hr Nr. apply C; auto. pose proof (Hlt r Hr Nr). lia.
  Qed.
End P.

(** Barriers of a program. *)
Fixpoint nbars (l : list op) : nat :=
  match l with [] => 0 | Bar :: l' => S (nbars l') | Do _ :: l' => nbars l' end.
Lemma reach_ok f l : (forall w, In (Do w) l -> f w = false) -> reach f l = nbars l.
Proof.
  induction l as [|[|w] l IH]; intros H; cbn; [reflexivity| |].
  - rewrite IH; auto. intros. apply H. now right.
  - rewrite (H w) by now left. apply IH. intros. apply H. now right.
Qed.

Lemma nbars_app a b : nbars (a ++ b) = nbars a + nbars b.
Proof. induction a as [|[|w] a IH]; cbn; lia. Qed.
Lemma nbars_master r w : nbars (master r w) = 0.
Proof. unfold master. now destruct (r =? 0). Qed.

Lemma nbars_when b r w : nbars (when b (master r w)) = 0.
Proof. destruct b; [apply nbars_master|reflexivity]. Qed.

Lemma main_bars a r : nbars (mainProg a r) = nbars (mainProg a 0).
Proof. unfold mainProg. now rewrite !nbars_app, !nbars_when, !nbars_master. Qed.

Lemma clean_run a n : 1 <= n ->
  always_ends_in (binit (mainProg a)) (bstep (fun _ _ => false) n) (fun s =>
    forall r, r < n -> procs s r = Run []).
Proof.
  intros Hn.
  assert (R : forall r, r < n -> reach (fun _ => false) (mainProg a r) = nbars (mainProg a 0)).
  { intros r _. rewrite reach_ok by auto. apply main_bars. }
  destruct (all_leave (fun _ _ => false) n (mainProg a) _ Hn R) as [A B].
  split; [exact A|]. intros s Hs T. destruct (B s Hs T) as [_ L]. intros r Hr.
  destruct (L r Hr) as [|D]; [auto|]. exfalso.
  assert (ND : forall s, star (bstep (fun _ _ => false) n) (binit (mainProg a)) s -> forall r, procs s r <> Dead).
  { intros s1 Hs1. revert s1 Hs1. intros s1. apply (star_inv _ (fun s => forall r, procs s r <> Dead)).
    - intros ? ?; discriminate.
    - intros s2 s3 H St q. destruct St; cbn [procs]; try discriminate.
      destruct (Nat.eq_dec q r0) as [->|N]; [rewrite upd_same; discriminate|rewrite upd_other by auto; apply H]. }
  exact (ND s Hs r D).
Qed.

Lemma reach_le f l : reach f l <= nbars l.
Proof. induction l as [|[|w] l IH]; cbn; try lia. destruct (f w); lia. Qed.

Lemma main_last a r : exists l, mainProg a r = l ++ [Bar].
Proof.
  unfold mainProg. eexists. rewrite !app_assoc. reflexivity.
Qed.

Lemma reach_fail f l w : In (Do w) l -> f w = true -> reach f (l ++ [Bar]) < nbars (l ++ [Bar]).
Proof.
  intros H F. induction l as [|[|v] l IH]; [contradiction| |]; cbn.
  - destruct H as [H|H]; [discriminate|]. specialize (IH H). lia.
  - destruct H as [H|H].
    + injection H as ->. rewrite F. rewrite nbars_app. cbn. lia.
    + destruct (f v); [rewrite nbars_app; cbn; lia|auto].
Qed.

Lemma one_fails a n fails q w : q < n -> In (Do w) (mainProg a q) -> fails q w = true ->
  (forall r v, r <> q -> fails r v = false) ->
  always_ends_in (binit (mainProg a)) (bstep fails n) (fun s =>
    left (procs s q) /\ forall r, r < n -> r <> q -> waiting (procs s r)).
Proof.
  intros Hq Hw F Hok.
  destruct (some_wait fails n (mainProg a) q Hq) as [A B].
  - intros r Hr N. rewrite (reach_ok (fails r)) by auto. rewrite main_bars.
    rewrite <- (main_bars a q). destruct (main_last a q) as [l El]. rewrite El in *.
    apply reach_fail with w; auto. apply in_app_iff in Hw as [|[H|[]]]; [auto|discriminate].
  - split; [exact A|]. intros s Hs T. destruct (B s Hs T) as (_ & H1 & H2). auto.
Qed.

(** A single process never waits. *)
Lemma alone_never_waits a fails :
  always_ends_in (binit (mainProg a)) (bstep fails 1) (fun s => left (procs s 0)).
Proof.
  destruct (all_leave fails 1 (mainProg a) (reach (fails 0) (mainProg a 0))) as [A B].
  - lia.
  - intros r Hr. now replace r with 0 by lia.
  - split; [exact A|]. intros s Hs T. destruct (B s Hs T) as [_ H]. apply H. lia.
Qed.


(** The same exit on every rank: missing seeds in a parallel run (TrackGenerator.py:1809-1812). *)
Definition seedExit (w : work) : bool := match w with WTrackSetup => true | _ => false end.
Lemma seed_exit a n : 1 <= n ->
  always_ends_in (binit (mainProg a)) (bstep (fun _ => seedExit) n) (fun s =>
    forall r, r < n -> left (procs s r)).
Proof.
  intros Hn.
  destruct (all_leave (fun _ => seedExit) n (mainProg a) (reach seedExit (mainProg a 0)) Hn) as [A B].
  - intros [|r] _; [reflexivity|].
    assert (W : forall b w, when b (master (S r) w) = []) by (intros []; reflexivity).
    assert (V : forall b w l, seedExit w = false -> reach seedExit (when b (master 0 w) ++ l) = reach seedExit l).
    { intros [] w l H; cbn; [now rewrite H|reflexivity]. }
    assert (U : forall x y b, (x = y) -> reach seedExit (when b trackRun ++ x) = reach seedExit (when b trackRun ++ y))
      by (intros ? ? [] ->; reflexivity).
    unfold mainProg. rewrite !W. change (master (S r) WOutDirs) with (@nil op).
    change (master 0 WOutDirs) with [Do WOutDirs]. cbn [app reach seedExit].
    rewrite !V by reflexivity. cbn [app reach]. rewrite !V by reflexivity. cbn [app reach].
    rewrite !V by reflexivity. cbn [app reach]. do 4 f_equal.
    destruct (aTracks a); [reflexivity|]. cbn [when app reach]. f_equal.
    destruct (aWind a), (aHazard a), (aPlotData a), (aDatabase a), (aEvaluate a), (aPlotHazard a); reflexivity.
  - split; [exact A|]. intros s Hs T. now destruct (B s Hs T) as [_ H].
Qed.
