From Verif Require Import Base MWModel MWProofs TileSpec MWSyncModel.
Local Open Scope nat_scope.

(** An execution of a refined system is an execution of the system it refines. *)
Lemma lift_ends {A B : Type} (pr : B -> A) (a0 : A) (b0 : B) (stepA : A -> A -> Prop) (stepB : B -> B -> Prop) Q :
  pr b0 = a0 -> (forall b b', stepB b b' -> stepA (pr b) (pr b')) ->
  (forall b a', star stepB b0 b -> stepA (pr b) a' -> exists b', stepB b b') ->
  always_ends_in a0 stepA Q -> always_ends_in b0 stepB (fun b => Q (pr b)).
Proof.
  intros E P G [F R]. split.
  - intros (run & H0 & H). apply F. exists (fun n => pr (run n)). split; [now rewrite H0|]. intros n. apply P, H.
  - intros b Hb Stuck. apply R.
    + rewrite <- E. clear - P Hb. induction Hb; econstructor; eauto.
    + intros a' Ha. destruct (G b a' Hb Ha) as (b' & Hb'). exact (Stuck b' Hb').
Qed.

Section Sync.
  Context {T R S : Type}.
  Variable calc : T -> option R.
  Variable store : S -> R -> S.
  Variable tiles : list T.
  Variable nw : nat.
  Variable s0 : S.
  Notation st := (@st T R S).
  Notation step := (@step T R S calc store tiles nw).
  Notation bstep := (@bstep T R S calc store tiles nw).
  Notation binit := (@binit T R S nw s0).

  Lemma b_step b b' : bstep b b' -> step (base b) (base b').
  Proof. destruct 1; assumption. Qed.

  Definition BInv (b : @bst T R S) : Prop :=
    Inv calc store tiles nw s0 (base b) /\
    (forall d, mblk b = Some d -> 1 <= d <= nw /\ down (base b) d <> []) /\
    (forall i, wblk b i = true -> 1 <= i <= nw /\ up (base b) i <> []).

  Lemma send_target s d s' : Inv calc store tiles nw s0 s -> sendsTo nw (pc s) = Some d ->
    step s s' -> pc s' <> pc s -> 1 <= d <= nw /\ down s' d <> [] /\ (forall i, up s' i = up s i).
  Proof.
    intros I E H N. pose proof (i_ctl _ _ _ _ _ _ I) as C. unfold ctl in C.
    destruct H as
      [s d' t Hpc Hd Ht | s d' Hpc Hd Ht | s d' Hpc Hd | s d' r rest Hpc Hterm Hd Hup
      | s d' t Hpc Ht | s d' Hpc Ht | s Hpc Hterm
      | s i t rest Hi Hwk Hdn | s i rest Hi Hwk Hdn | s i t r Hi Hwk Hr | s i t Hi Hwk Hr];
      cbn [pc] in N; try congruence; rewrite Hpc in E, C; cbn [sendsTo] in E;
      try discriminate; try (destruct (d' <=? nw) eqn:L; [injection E as <-|discriminate]); try injection E as <-.
    - split; [lia|]. split; [|reflexivity]. cbn [down]. rewrite upd_same. now destruct (down s d').
    - split; [lia|]. split; [|reflexivity]. cbn [down]. rewrite upd_same. now destruct (down s d').
    - lia.
    - split; [lia|]. split; [|reflexivity]. cbn [down]. rewrite upd_same. now destruct (down s d').
    - split; [lia|]. split; [|reflexivity]. cbn [down]. rewrite upd_same. now destruct (down s d').
  Qed.

  (** Steps that leave the program counter of rank 0 alone are steps of one worker. *)
  Lemma worker_step s s' : step s s' -> pc s' = pc s -> exists i, 1 <= i <= nw /\
    (forall j, j <> i -> down s' j = down s j /\ up s' j = up s j /\ wk s' j = wk s j) /\
    ((wk s i = WRecv /\ wk s' i <> WRecv /\ down s i <> [] /\ up s' i = up s i) \/
     (exists t r, wk s i = WWork t /\ wk s' i = WRecv /\ up s' i = up s i ++ [r] /\ down s' i = down s i) \/
     (exists t, wk s i = WWork t /\ wk s' i = WFail t /\ up s' i = up s i /\ down s' i = down s i)).
  Proof.
    intros H E. destruct H as
      [s d' t Hpc Hd Ht | s d' Hpc Hd Ht | s d' Hpc Hd | s d' r rest Hpc Hterm Hd Hup
      | s d' t Hpc Ht | s d' Hpc Ht | s Hpc Hterm
      | s i t rest Hi Hwk Hdn | s i rest Hi Hwk Hdn | s i t r Hi Hwk Hr | s i t Hi Hwk Hr];
      cbn [pc] in E; try (rewrite Hpc in E; (discriminate || (injection E; lia))).
    - exists i. split; [exact Hi|]. cbn [down up wk]. rewrite !upd_same. split; [intros j Hj; rewrite !upd_other by auto; auto|].
      left. rewrite Hdn. repeat split; auto; discriminate.
    - exists i. split; [exact Hi|]. cbn [down up wk]. rewrite !upd_same. split; [intros j Hj; rewrite !upd_other by auto; auto|].
      left. rewrite Hdn. repeat split; auto; discriminate.
    - exists i. split; [exact Hi|]. cbn [down up wk]. rewrite !upd_same. split; [intros j Hj; rewrite !upd_other by auto; auto|].
      right; left. exists t, r. auto.
    - exists i. split; [exact Hi|]. cbn [down up wk]. rewrite !upd_same. split; [intros j Hj; rewrite !upd_other by auto; auto|].
      right; right. exists t. auto.
  Qed.

  (** Steps of rank 0 other than sends. *)
  Lemma master_step s s' : step s s' -> pc s' <> pc s -> sendsTo nw (pc s) = None ->
    (forall i, down s' i = down s i) /\
    (pc s = MLoop /\ (exists d, pc s' = MReply d /\ (forall i, i <> d -> up s' i = up s i)) \/
     (forall d, pc s' <> MReply d) /\ (forall i, up s' i = up s i)).
  Proof.
    intros H N E. destruct H as
      [s d' t Hpc Hd Ht | s d' Hpc Hd Ht | s d' Hpc Hd | s d' r rest Hpc Hterm Hd Hup
      | s d' t Hpc Ht | s d' Hpc Ht | s Hpc Hterm
      | s i t rest Hi Hwk Hdn | s i rest Hi Hwk Hdn | s i t r Hi Hwk Hr | s i t Hi Hwk Hr];
      cbn [pc] in N; try congruence; rewrite Hpc in E; cbn [sendsTo] in E;
      try (destruct (d' <=? nw) eqn:L; [discriminate|]; try lia); try discriminate.
    - split; [reflexivity|]. right. split; [discriminate|reflexivity].
    - split; [reflexivity|]. left. split; [exact Hpc|]. exists d'. split; [reflexivity|].
      intros i Hi. cbn [up]. now rewrite upd_other.
    - split; [reflexivity|]. right. split; [discriminate|reflexivity].
  Qed.

  Lemma upd_diff {A} (f : nat -> A) i j x : i <> j -> upd f i x j = f j.
  Proof. intros. apply upd_other. auto. Qed.

  Lemma b_inv b b' : BInv b -> bstep b b' -> BInv b'.
  Proof.
    intros (I & M & W) H. assert (I' : Inv calc store tiles nw s0 (base b')) by (eapply inv_step; [exact I|now apply b_step]).
    split; [exact I'|]. clear I'. destruct H as
      [b s' d q B E H N Q | b s' d B P P' H | b s' B E N' H N | b s' i Bi K K' H P | b s' i t q Bi K K' H P | b s' i t Bi K K' H P];
      cbn [base mblk wblk] in *.
    - destruct (send_target _ _ _ I E H N) as (D & Dn & U). split.
      + intros d' E'. destruct Q as [->| ->]; [discriminate|]. injection E' as <-. auto.
      + intros i Hi. rewrite U. auto.
    - assert (E : sendsTo nw (pc (base b)) = None) by now rewrite P.
      assert (N : pc s' <> pc (base b)) by (rewrite P, P'; discriminate).
      destruct (master_step _ _ H N E) as (_ & [(_ & d' & Q1 & Q2)|(Q1 & _)]); [|destruct (Q1 d P')].
      rewrite P' in Q1. injection Q1 as <-. split; [discriminate|].
      intros i Hi. apply andb_prop in Hi as (H1 & H2). destruct (W i H1) as (W1 & W2). split; [exact W1|].
      destruct (Nat.eqb_spec i d) as [->|Ne]; [|now rewrite Q2]. destruct (up s' d); [discriminate|congruence].
    - destruct (master_step _ _ H N E) as (_ & [(_ & d' & Q1 & _)|(_ & Q2)]); [destruct (N' d' Q1)|].
      split; [discriminate|]. intros i Hi. rewrite Q2. auto.
    - destruct (worker_step _ _ H P) as (j & Hj & Oth & C).
      assert (j = i).
      { destruct (Nat.eq_dec j i); auto. destruct (Oth i) as (_ & _ & X); [auto|]. congruence. }
      subst j. destruct C as [(C1 & C2 & C3 & C4)|[(t & r & C1 & _)|(t & C1 & _)]]; try congruence. split.
      + intros d. destruct (mblk b) as [d'|] eqn:E; [|discriminate].
        destruct (Nat.eqb_spec d' i) as [->|Ne]; cbn [andb].
        * destruct (down s' i) eqn:Dn; [discriminate|]. intros [= <-]. split; [auto|congruence].
        * intros [= <-]. destruct (M d' eq_refl) as (M1 & M2). destruct (Oth d' Ne) as (-> & _). auto.
      + intros k Hk. destruct (W k Hk) as (W1 & W2). split; [exact W1|].
        destruct (Nat.eq_dec k i) as [->|Ne]; [congruence|]. destruct (Oth k Ne) as (_ & -> & _). exact W2.
    - destruct (worker_step _ _ H P) as (j & Hj & Oth & C).
      assert (j = i).
      { destruct (Nat.eq_dec j i); auto. destruct (Oth i) as (_ & _ & X); [auto|]. congruence. }
      subst j. destruct C as [(C1 & _)|[(t' & r & C1 & C2 & C3 & C4)|(t' & C1 & C2 & _)]]; try congruence. split.
      + intros d Hd. destruct (M d Hd) as (M1 & M2). split; [exact M1|].
        destruct (Nat.eq_dec d i) as [->|Ne]; [congruence|]. destruct (Oth d Ne) as (-> & _). exact M2.
      + intros k Hk. destruct (Nat.eq_dec k i) as [->|Ne].
        * split; [exact Hj|]. rewrite C3. now destruct (up (base b) i).
        * rewrite upd_other in Hk by auto. destruct (W k Hk) as (W1 & W2). split; [exact W1|].
          destruct (Oth k Ne) as (_ & -> & _). exact W2.
    - destruct (worker_step _ _ H P) as (j & Hj & Oth & C).
      assert (j = i).
      { destruct (Nat.eq_dec j i); auto. destruct (Oth i) as (_ & _ & X); [auto|]. congruence. }
      subst j. destruct C as [(C1 & _)|[(t' & r & C1 & C2 & _)|(t' & C1 & C2 & C3 & C4)]]; try congruence. split.
      + intros d Hd. destruct (M d Hd) as (M1 & M2). split; [exact M1|].
        destruct (Nat.eq_dec d i) as [->|Ne]; [congruence|]. destruct (Oth d Ne) as (-> & _). exact M2.
      + intros k Hk. destruct (W k Hk) as (W1 & W2). split; [exact W1|].
        destruct (Nat.eq_dec k i) as [->|Ne]; [congruence|]. destruct (Oth k Ne) as (_ & -> & _). exact W2.
  Qed.

  Lemma b_inv_init : BInv binit.
  Proof. split; [apply inv_init|]. split; discriminate. Qed.
  Lemma b_reach b : star bstep binit b -> BInv b.
  Proof. intros H. eapply star_inv; [apply b_inv_init|apply b_inv|exact H]. Qed.

  (** A rank with a message waiting is ready to take it and has nothing else to send. *)
  Lemma ready s i : Inv calc store tiles nw s0 s -> 1 <= i <= nw -> down s i <> [] ->
    wk s i = WRecv /\ up s i = [] /\ ((exists t, down s i = [Some t]) \/ down s i = [None]).
  Proof.
    intros I Hi D. pose proof (i_phase _ _ _ _ _ _ I i Hi) as P. unfold phase in P.
    assert (X : quiet s i \/ shape calc s i) by (destruct (pc s); try destruct (_ <=? _); try destruct (_ =? _); auto).
    destruct X as [(X & _)|X]; [congruence|].
    destruct X as [(x & A & B & C)|[(x & A & B & C)|[(x & A & B & C)|[(A & B & C)|[(A & B & C)|(x & A & B & C & E)]]]]];
      try congruence; repeat split; auto. left. eauto.
  Qed.
  Lemma working s i t : Inv calc store tiles nw s0 s -> 1 <= i <= nw -> wk s i = WWork t -> up s i = [].
  Proof.
    intros I Hi K. pose proof (i_phase _ _ _ _ _ _ I i Hi) as P. unfold phase in P.
    assert (X : quiet s i \/ shape calc s i) by (destruct (pc s); try destruct (_ <=? _); try destruct (_ =? _); auto).
    destruct X as [(_ & X & _)|X]; [congruence|].
    destruct X as [(x & A & B & C)|[(x & A & B & C)|[(x & A & B & C)|[(A & B & C)|[(A & B & C)|(x & A & B & C & E)]]]]];
      congruence.
  Qed.

  Lemma take b i : BInv b -> 1 <= i <= nw -> down (base b) i <> [] -> exists b', bstep b b'.
  Proof.
    intros (I & M & W) Hi D. destruct (ready _ _ I Hi D) as (K & U & [(t & E)|E]).
    - assert (Bi : wblk b i = false) by (destruct (wblk b i) eqn:X; auto; destruct (W i X); congruence).
      eexists. eapply (b_wrecv calc store tiles nw b _ i Bi K); [|eapply step_w_work; eauto|reflexivity].
      cbn [wk]. rewrite upd_same. discriminate.
    - assert (Bi : wblk b i = false) by (destruct (wblk b i) eqn:X; auto; destruct (W i X); congruence).
      eexists. eapply (b_wrecv calc store tiles nw b _ i Bi K); [|eapply step_w_stop; eauto|reflexivity].
      cbn [wk]. rewrite upd_same. discriminate.
  Qed.

  Lemma b_progress b s' : BInv b -> step (base b) s' -> exists b', bstep b b'.
  Proof.
    intros BI H. destruct (mblk b) as [d|] eqn:B.
    { pose proof BI as (_ & M & _). destruct (M d B) as (M1 & M2). now apply (take b d). }
    pose proof BI as (I & M & W).
    assert (D : pc s' = pc (base b) \/ pc s' <> pc (base b)) by (repeat decide equality).
    destruct D as [P|N].
    - destruct (worker_step _ _ H P) as (i & Hi & Oth & C).
      destruct C as [(C1 & C2 & C3 & C4)|[(t & r & C1 & C2 & C3 & C4)|(t & C1 & C2 & C3 & C4)]].
      + now apply (take b i).
      + eexists. eapply (b_wsend calc store tiles nw b s' i t false); eauto.
        destruct (wblk b i) eqn:X; auto. destruct (W i X). rewrite (working _ i t I Hi C1) in *. congruence.
      + eexists. eapply (b_wfail calc store tiles nw b s' i t); eauto.
        destruct (wblk b i) eqn:X; auto. destruct (W i X). rewrite (working _ i t I Hi C1) in *. congruence.
    - destruct (sendsTo nw (pc (base b))) as [d|] eqn:E.
      + eexists. eapply (b_msend calc store tiles nw b s' d None); eauto.
      + destruct (master_step _ _ H N E) as (_ & [(Q0 & d & Q1 & _)|(Q1 & _)]).
        * eexists. eapply (b_mrecv calc store tiles nw b s' d); eauto.
        * eexists. eapply (b_mlocal calc store tiles nw b s'); eauto.
  Qed.

  (** What holds at the end of every execution with buffered sends holds with blocking sends. *)
  Lemma blocking_ends Q : always_ends_in (@init T R S nw s0) step Q ->
    always_ends_in binit bstep (fun b => Q (base b)).
  Proof.
    apply lift_ends; [reflexivity|apply b_step|]. intros b s' Hb H. eapply b_progress; [now apply b_reach|exact H].
  Qed.
End Sync.
