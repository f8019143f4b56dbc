(** Proofs about the master/worker protocol. *)
From Verif Require Import Base MWModel.

Section MWP.
  Context {T R S : Type}.
  Variable calc : T -> option R.
  Variable store : S -> R -> S.
  Variable tiles : list T.
  Variable nw : nat.
  Variable s0 : S.
  Notation st := (@st T R S).
  Notation step := (@step T R S calc store tiles nw).
  Notation init := (@init T R S nw s0).

  Definition opt_list {A} (o : option A) : list A := match o with Some x => [x] | None => [] end.
  Definition work (w : wpc) : list T := match w with WWork t => [t] | WFail t => [t] | _ => [] end.
  Definition pend (s : st) (i : nat) : list T := flat_map opt_list (down s i) ++ work (wk s i).
  Definition busy (s : st) (i : nat) : nat := length (pend s i) + length (up s i).

  Definition shape (s : st) (i : nat) : Prop :=
    (exists t, down s i = [Some t] /\ wk s i = WRecv /\ up s i = []) \/
    (exists t, down s i = [] /\ wk s i = WWork t /\ up s i = []) \/
    (exists r, down s i = [] /\ wk s i = WRecv /\ up s i = [r]) \/
    (down s i = [None] /\ wk s i = WRecv /\ up s i = []) \/
    (down s i = [] /\ wk s i = WDone /\ up s i = []) \/
    (exists t, down s i = [] /\ wk s i = WFail t /\ up s i = [] /\ calc t = None).
  Definition quiet (s : st) (i : nat) : Prop := down s i = [] /\ wk s i = WRecv /\ up s i = [].
  Definition phase (s : st) (i : nat) : Prop :=
    match pc s with
    | MSend d => if d <=? i then quiet s i else shape s i
    | MReply d => if i =? d then quiet s i else shape s i
    | _ => shape s i
    end.
  Definition total (s : st) : nat := sumf (busy s) (seq 1 nw).

  Definition ctl (s : st) : Prop :=
    match pc s with
    | MSend d => 1 <= d <= nw + 1 /\ term s = 0 /\ wn s = Nat.min (d-1) (length tiles) /\
                 total s = wn s /\ pn s = (if length tiles <? d - 1 then length tiles else nw)
    | MLoop => total s + term s = pn s /\ pn s = Nat.min nw (length tiles) /\
               (0 < term s -> wn s = length tiles)
    | MReply d => 1 <= d <= nw /\ total s + term s + 1 = pn s /\
                  pn s = Nat.min nw (length tiles) /\ (0 < term s -> wn s = length tiles)
    | MDone => total s = 0 /\ term s = pn s /\ pn s = Nat.min nw (length tiles) /\
               (0 < term s -> wn s = length tiles)
    end.

  Record Inv (s : st) : Prop := {
    i_w : wn s <= length tiles;
    i_comp : Permutation (comp s ++ flat_map (pend s) (seq 1 nw)) (firstn (wn s) tiles);
    i_hist : Permutation (map Some (hist s ++ flat_map (up s) (seq 1 nw))) (map calc (comp s));
    i_out : out s = fold_left store (hist s) s0;
    i_phase : forall i, 1 <= i <= nw -> phase s i;
    i_ctl : ctl s }.

  Lemma inv_init : Inv init.
  Proof.
    assert (Hf : forall l, flat_map (pend init) l = []).
    { induction l as [|x l IH]; cbn; auto. }
    assert (Hu : forall l, flat_map (up init) l = []).
    { induction l as [|x l IH]; cbn; auto. }
    constructor; cbn [wn comp hist out pc init].
    - lia.
    - rewrite Hf. constructor.
    - rewrite Hu. constructor.
    - reflexivity.
    - intros i Hi. unfold phase. cbn [pc init]. destruct (Nat.leb_spec 1 i); [|lia].
      repeat split; reflexivity.
    - unfold ctl. cbn [pc init term wn pn]. repeat split; try lia.
      + unfold total. rewrite sumf_zero; auto.
  Qed.

  Lemma nth_error_firstn_S {A} (l : list A) n t :
    nth_error l n = Some t -> firstn (n+1) l = firstn n l ++ [t].
  Proof.
    revert n; induction l as [|x l IH]; intros [|n] H; cbn in *; try discriminate.
    - now injection H as ->.
    - now rewrite (IH n).
  Qed.

  (** Framing: state changes which touch only worker [i]. *)
  Lemma pend_sum s s' i : 1 <= i <= nw -> (forall j, j <> i -> pend s' j = pend s j) ->
    exists rest, Permutation (flat_map (pend s) (seq 1 nw)) (pend s i ++ rest) /\
                 Permutation (flat_map (pend s') (seq 1 nw)) (pend s' i ++ rest).
  Proof.
    intros Hi Hj. destruct (flat_map_upd_split (pend s) nw i Hi) as [rest [H1 H2]].
    exists rest. split; auto. specialize (H2 (pend s' i)).
    rewrite <- H2. erewrite flat_map_ext; [reflexivity|].
    intros j. unfold upd. destruct (Nat.eqb_spec j i); subst; auto.
  Qed.
  Lemma up_sum (s s' : st) i : 1 <= i <= nw -> (forall j, j <> i -> up s' j = up s j) ->
    exists rest, Permutation (flat_map (up s) (seq 1 nw)) (up s i ++ rest) /\
                 Permutation (flat_map (up s') (seq 1 nw)) (up s' i ++ rest).
  Proof.
    intros Hi Hj. destruct (flat_map_upd_split (up s) nw i Hi) as [rest [H1 H2]].
    exists rest. split; auto. specialize (H2 (up s' i)).
    rewrite <- H2. erewrite flat_map_ext; [reflexivity|].
    intros j. unfold upd. destruct (Nat.eqb_spec j i); subst; auto.
  Qed.
  Lemma total_one (s s' : st) i : 1 <= i <= nw ->
    (forall j, j <> i -> busy s' j = busy s j) -> total s' + busy s i = total s + busy s' i.
  Proof. intros. unfold total. now apply sumf_one. Qed.

  Ltac hj := intros j Hj; unfold pend, busy; cbn; rewrite ?upd_other by auto; reflexivity.

  Lemma phase_shape_eq s s' j :
    down s' j = down s j -> wk s' j = wk s j -> up s' j = up s j -> shape s j -> shape s' j.
  Proof. unfold shape. now intros -> -> ->. Qed.
  Lemma quiet_eq s s' j :
    down s' j = down s j -> wk s' j = wk s j -> up s' j = up s j -> quiet s j -> quiet s' j.
  Proof. unfold quiet. now intros -> -> ->. Qed.
  (* a worker step leaves other workers' phases alone *)
  Lemma phase_eq s s' j : pc s' = pc s ->
    down s' j = down s j -> wk s' j = wk s j -> up s' j = up s j -> phase s j -> phase s' j.
  Proof.
    unfold phase. intros -> H1 H2 H3.
    destruct (pc s) as [d| |d|]; try destruct (_ <=? _); try destruct (_ =? _);
      eauto using phase_shape_eq, quiet_eq.
  Qed.
  (* a worker which can step is in shape *)
  Lemma active_shape s i : phase s i ->
    (down s i <> [] \/ (exists t, wk s i = WWork t) \/ up s i <> []) -> shape s i.
  Proof.
    unfold phase, quiet. intros H H'.
    destruct (pc s) as [d| |d|]; try destruct (_ <=? _); try destruct (_ =? _); auto;
      destruct H as (H1 & H2 & H3); rewrite H1, H2, H3 in H';
      exfalso; destruct H' as [H'|[[t H']|H']]; congruence.
  Qed.
  Lemma shape_phase s i : shape s i ->
    (down s i <> [] \/ (exists t, wk s i = WWork t) \/ up s i <> []) ->
    forall s', pc s' = pc s -> phase s i -> shape s' i -> phase s' i.
  Proof.
    unfold phase. intros _ H' s' -> Hp Hs'.
    destruct (pc s) as [d| |d|]; auto.
    - destruct (d <=? i); auto. destruct Hp as (H1 & H2 & H3). rewrite H1, H2, H3 in H'.
      exfalso; destruct H' as [H'|[[t H']|H']]; congruence.
    - destruct (i =? d); auto. destruct Hp as (H1 & H2 & H3). rewrite H1, H2, H3 in H'.
      exfalso; destruct H' as [H'|[[t H']|H']]; congruence.
  Qed.

  Lemma ctl_eq s s' : pc s' = pc s -> wn s' = wn s -> pn s' = pn s -> term s' = term s ->
    total s' = total s -> ctl s -> ctl s'.
  Proof. unfold ctl. intros -> -> -> -> ->. auto. Qed.

  Lemma inv_step s s' : Inv s -> step s s' -> Inv s'.
  Proof.
    intros [Iw Ic Ih Io Ip It] Hs.
    destruct Hs as
      [s d t Hpc Hd Ht | s d Hpc Hd Ht | s d Hpc Hd | s d r rest Hpc Hterm Hd Hup
      | s d t Hpc Ht | s d Hpc Ht | s Hpc Hterm
      | s i t rest Hi Hwk Hdn | s i rest Hi Hwk Hdn | s i t r Hi Hwk Hr | s i t Hi Hwk Hr].
    - (* send work *)
      unfold ctl in It. rewrite Hpc in It. destruct It as (Hd1 & Htm & Hw & Htot & Hp).
      assert (Hlen : wn s < length tiles) by (apply nth_error_Some; congruence).
      pose proof (Ip d ltac:(lia)) as Hq. unfold phase in Hq. rewrite Hpc in Hq.
      rewrite Nat.leb_refl in Hq. destruct Hq as (Q1 & Q2 & Q3).
      match goal with |- Inv ?x => set (s' := x) end.
      assert (Hpd : pend s' d = [t]).
      { unfold pend, s'; cbn. rewrite upd_same, Q1, Q2. reflexivity. }
      assert (Hpd0 : pend s d = []).
      { unfold pend. rewrite Q1, Q2. reflexivity. }
      destruct (pend_sum s s' d ltac:(lia) ltac:(hj)) as [rest [E1 E2]].
      constructor; cbn [wn comp hist out pc s'].
      + lia.
      + rewrite E2, Hpd. rewrite E1, Hpd0 in Ic. rewrite (nth_error_firstn_S _ _ _ Ht), <- Ic.
        perm_solve.
      + exact Ih.
      + exact Io.
      + intros i Hi. unfold phase. cbn [pc s'].
        destruct (Nat.eq_dec i d) as [->|Hne].
        * destruct (Nat.leb_spec (d+1) d); [lia|]. left. exists t. cbn.
          rewrite upd_same, Q1. auto.
        * pose proof (Ip i Hi) as Hq. unfold phase in Hq. rewrite Hpc in Hq.
          destruct (Nat.leb_spec d i); destruct (Nat.leb_spec (d+1) i); try lia.
          -- eapply quiet_eq; [..|exact Hq]; cbn; rewrite ?upd_other by auto; auto.
          -- eapply phase_shape_eq; [..|exact Hq]; cbn; rewrite ?upd_other by auto; auto.
      + unfold ctl. cbn [pc s' term wn pn].
        pose proof (total_one s s' d ltac:(lia) ltac:(hj)) as HT.
        assert (busy s d = 0) by (unfold busy; rewrite Hpd0, Q3; reflexivity).
        assert (busy s' d = 1) by (unfold busy; rewrite Hpd; cbn; rewrite Q3; reflexivity).
        repeat split; try lia.
        destruct (Nat.ltb_spec (length tiles) (d-1)), (Nat.ltb_spec (length tiles) (d+1-1)); lia.
    - (* send none *)
      unfold ctl in It. rewrite Hpc in It. destruct It as (Hd1 & Htm & Hw & Htot & Hp).
      apply nth_error_None in Ht.
      pose proof (Ip d ltac:(lia)) as Hq. unfold phase in Hq. rewrite Hpc in Hq.
      rewrite Nat.leb_refl in Hq. destruct Hq as (Q1 & Q2 & Q3).
      match goal with |- Inv ?x => set (s' := x) end.
      assert (Hpd : pend s' d = []).
      { unfold pend, s'; cbn. rewrite upd_same, Q1, Q2. reflexivity. }
      assert (Hpd0 : pend s d = []).
      { unfold pend. rewrite Q1, Q2. reflexivity. }
      destruct (pend_sum s s' d ltac:(lia) ltac:(hj)) as [rest [E1 E2]].
      constructor; cbn [wn comp hist out pc s'].
      + lia.
      + rewrite E2, Hpd. rewrite E1, Hpd0 in Ic. exact Ic.
      + exact Ih.
      + exact Io.
      + intros i Hi. unfold phase. cbn [pc s'].
        destruct (Nat.eq_dec i d) as [->|Hne].
        * destruct (Nat.leb_spec (d+1) d); [lia|]. do 3 right. left. cbn.
          rewrite upd_same, Q1. auto.
        * pose proof (Ip i Hi) as Hq. unfold phase in Hq. rewrite Hpc in Hq.
          destruct (Nat.leb_spec d i); destruct (Nat.leb_spec (d+1) i); try lia.
          -- eapply quiet_eq; [..|exact Hq]; cbn; rewrite ?upd_other by auto; auto.
          -- eapply phase_shape_eq; [..|exact Hq]; cbn; rewrite ?upd_other by auto; auto.
      + unfold ctl. cbn [pc s' term wn pn].
        pose proof (total_one s s' d ltac:(lia) ltac:(hj)) as HT.
        assert (busy s d = 0) by (unfold busy; rewrite Hpd0, Q3; reflexivity).
        assert (busy s' d = 0) by (unfold busy; rewrite Hpd; cbn; rewrite Q3; reflexivity).
        repeat split; try lia.
        destruct (Nat.ltb_spec (length tiles) (d-1)), (Nat.ltb_spec (length tiles) (d+1-1)); lia.
    - (* enter loop *)
      unfold ctl in It. rewrite Hpc in It. destruct It as (Hd1 & Htm & Hw & Htot & Hp).
      constructor; cbn [wn comp hist out pc]; auto.
      + intros i Hi. pose proof (Ip i Hi) as Hq. unfold phase in *. cbn [pc]. rewrite Hpc in Hq.
        destruct (Nat.leb_spec d i); [lia|]. exact Hq.
      + unfold ctl. cbn [pc term wn pn].
        assert (HT : total (mk MLoop (wn s) (pn s) 0 (out s) (down s) (up s) (wk s) (hist s) (comp s))
                = total s) by reflexivity.
        rewrite HT, Htot, Hw, Hp.
        destruct (Nat.ltb_spec (length tiles) (d-1)); repeat split; lia.
    - (* receive *)
      unfold ctl in It. rewrite Hpc in It. destruct It as (Htot & Hp & Hw).
      pose proof (Ip d Hd) as Hq.
      assert (Hsh : shape s d) by (eapply active_shape; eauto; right; right; congruence).
      assert (Q : down s d = [] /\ wk s d = WRecv /\ rest = []).
      { destruct Hsh as [(x & A & B & C)|[(x & A & B & C)|[(x & A & B & C)|[(A & B & C)|[(A & B & C)|(x & A & B & C & D)]]]]];
          rewrite Hup in C; try discriminate. injection C as -> ->. auto. }
      destruct Q as (Q1 & Q2 & ->).
      match goal with |- Inv ?x => set (s' := x) end.
      destruct (up_sum s s' d Hd ltac:(hj)) as [rest [E1 E2]].
      constructor; cbn [wn comp hist out pc s'].
      + lia.
      + exact Ic.
      + rewrite E2. cbn [up s']. rewrite upd_same. rewrite E1, Hup in Ih. rewrite <- Ih.
        apply Permutation_map. perm_solve.
      + now rewrite fold_left_app, Io.
      + intros i Hi. unfold phase. cbn [pc s'].
        destruct (Nat.eqb_spec i d) as [->|Hne].
        * unfold quiet. cbn. rewrite upd_same. auto.
        * pose proof (Ip i Hi) as Hqi. unfold phase in Hqi. rewrite Hpc in Hqi.
          eapply phase_shape_eq; [..|exact Hqi]; cbn; rewrite ?upd_other by auto; auto.
      + unfold ctl. cbn [pc s' term wn pn].
        pose proof (total_one s s' d Hd ltac:(hj)) as HT.
        assert (busy s d = 1) by (unfold busy, pend; rewrite Q1, Q2, Hup; reflexivity).
        assert (busy s' d = 0) by (unfold busy, pend; cbn; rewrite upd_same, Q1, Q2; reflexivity).
        repeat split; try lia.
    - (* reply work *)
      unfold ctl in It. rewrite Hpc in It. destruct It as (Hd & Htot & Hp & Hw).
      assert (Hlen : wn s < length tiles) by (apply nth_error_Some; congruence).
      pose proof (Ip d Hd) as Hq. unfold phase in Hq. rewrite Hpc in Hq.
      rewrite Nat.eqb_refl in Hq. destruct Hq as (Q1 & Q2 & Q3).
      match goal with |- Inv ?x => set (s' := x) end.
      assert (Hpd : pend s' d = [t]).
      { unfold pend, s'; cbn. rewrite upd_same, Q1, Q2. reflexivity. }
      assert (Hpd0 : pend s d = []).
      { unfold pend. rewrite Q1, Q2. reflexivity. }
      destruct (pend_sum s s' d ltac:(lia) ltac:(hj)) as [rest [E1 E2]].
      constructor; cbn [wn comp hist out pc s'].
      + lia.
      + rewrite E2, Hpd. rewrite E1, Hpd0 in Ic. rewrite (nth_error_firstn_S _ _ _ Ht), <- Ic.
        perm_solve.
      + exact Ih.
      + exact Io.
      + intros i Hi. unfold phase. cbn [pc s'].
        destruct (Nat.eq_dec i d) as [->|Hne].
        * left. exists t. cbn. rewrite upd_same, Q1. auto.
        * pose proof (Ip i Hi) as Hq. unfold phase in Hq. rewrite Hpc in Hq.
          destruct (Nat.eqb_spec i d); [lia|].
          eapply phase_shape_eq; [..|exact Hq]; cbn; rewrite ?upd_other by auto; auto.
      + unfold ctl. cbn [pc s' term wn pn].
        pose proof (total_one s s' d ltac:(lia) ltac:(hj)) as HT.
        assert (busy s d = 0) by (unfold busy; rewrite Hpd0, Q3; reflexivity).
        assert (busy s' d = 1) by (unfold busy; rewrite Hpd; cbn; rewrite Q3; reflexivity).
        repeat split; try lia.
    - (* reply none *)
      unfold ctl in It. rewrite Hpc in It. destruct It as (Hd & Htot & Hp & Hw).
      apply nth_error_None in Ht.
      pose proof (Ip d Hd) as Hq. unfold phase in Hq. rewrite Hpc in Hq.
      rewrite Nat.eqb_refl in Hq. destruct Hq as (Q1 & Q2 & Q3).
      match goal with |- Inv ?x => set (s' := x) end.
      assert (Hpd : pend s' d = []).
      { unfold pend, s'; cbn. rewrite upd_same, Q1, Q2. reflexivity. }
      assert (Hpd0 : pend s d = []).
      { unfold pend. rewrite Q1, Q2. reflexivity. }
      destruct (pend_sum s s' d ltac:(lia) ltac:(hj)) as [rest [E1 E2]].
      constructor; cbn [wn comp hist out pc s'].
      + lia.
      + rewrite E2, Hpd. rewrite E1, Hpd0 in Ic. exact Ic.
      + exact Ih.
      + exact Io.
      + intros i Hi. unfold phase. cbn [pc s'].
        destruct (Nat.eq_dec i d) as [->|Hne].
        * do 3 right. left. cbn. rewrite upd_same, Q1. auto.
        * pose proof (Ip i Hi) as Hq. unfold phase in Hq. rewrite Hpc in Hq.
          destruct (Nat.eqb_spec i d); [lia|].
          eapply phase_shape_eq; [..|exact Hq]; cbn; rewrite ?upd_other by auto; auto.
      + unfold ctl. cbn [pc s' term wn pn].
        pose proof (total_one s s' d ltac:(lia) ltac:(hj)) as HT.
        assert (busy s d = 0) by (unfold busy; rewrite Hpd0, Q3; reflexivity).
        assert (busy s' d = 0) by (unfold busy; rewrite Hpd; cbn; rewrite Q3; reflexivity).
        repeat split; try lia.
    - (* leave *)
      unfold ctl in It. rewrite Hpc in It. destruct It as (Htot & Hp & Hw).
      constructor; cbn [wn comp hist out pc]; auto.
      + intros i Hi. pose proof (Ip i Hi) as Hq. unfold phase in *. cbn [pc]. rewrite Hpc in Hq. exact Hq.
      + unfold ctl. cbn [pc term wn pn].
        assert (HT : total (mk MDone (wn s) (pn s) (term s) (out s) (down s) (up s) (wk s) (hist s) (comp s))
                = total s) by reflexivity.
        rewrite HT. repeat split; try lia.
    - (* worker receives work *)
      assert (Hsh : shape s i) by (eapply active_shape; eauto; left; congruence).
      assert (Q : rest = [] /\ up s i = []).
      { destruct Hsh as [(x & A & B & C)|[(x & A & B & C)|[(x & A & B & C)|[(A & B & C)|[(A & B & C)|(x & A & B & C & D)]]]]];
          rewrite Hdn in A; try discriminate; split; congruence. }
      destruct Q as (-> & Q3).
      match goal with |- Inv ?x => set (s' := x) end.
      assert (Hpd0 : pend s i = [t]) by (unfold pend; rewrite Hdn, Hwk; reflexivity).
      assert (Hpd : pend s' i = [t]) by (unfold pend, s'; cbn; rewrite !upd_same; reflexivity).
      destruct (pend_sum s s' i Hi ltac:(hj)) as [rest [E1 E2]].
      constructor; cbn [wn comp hist out pc s']; auto.
      + rewrite E2, Hpd. rewrite E1, Hpd0 in Ic. exact Ic.
      + intros j Hjj. destruct (Nat.eq_dec j i) as [->|Hne].
        * eapply shape_phase; eauto; [left; congruence|].
          right. left. exists t. cbn. rewrite !upd_same. auto.
        * eapply phase_eq; [..|exact (Ip j Hjj)]; cbn; rewrite ?upd_other by auto; auto.
      + eapply ctl_eq; [..|exact It]; auto.
        pose proof (total_one s s' i ltac:(lia) ltac:(hj)) as HT.
        assert (busy s i = 1) by (unfold busy; rewrite Hpd0, Q3; reflexivity).
        assert (busy s' i = 1) by (unfold busy; rewrite Hpd; cbn; rewrite Q3; reflexivity).
        lia.
    - (* worker stops *)
      assert (Hsh : shape s i) by (eapply active_shape; eauto; left; congruence).
      assert (Q : rest = [] /\ up s i = []).
      { destruct Hsh as [(x & A & B & C)|[(x & A & B & C)|[(x & A & B & C)|[(A & B & C)|[(A & B & C)|(x & A & B & C & D)]]]]];
          rewrite Hdn in A; try discriminate; split; congruence. }
      destruct Q as (-> & Q3).
      match goal with |- Inv ?x => set (s' := x) end.
      assert (Hpd0 : pend s i = []) by (unfold pend; rewrite Hdn, Hwk; reflexivity).
      assert (Hpd : pend s' i = []) by (unfold pend, s'; cbn; rewrite !upd_same; reflexivity).
      destruct (pend_sum s s' i Hi ltac:(hj)) as [rest [E1 E2]].
      constructor; cbn [wn comp hist out pc s']; auto.
      + rewrite E2, Hpd. rewrite E1, Hpd0 in Ic. exact Ic.
      + intros j Hjj. destruct (Nat.eq_dec j i) as [->|Hne].
        * eapply shape_phase; eauto; [left; congruence|].
          do 4 right. left. cbn. rewrite !upd_same. auto.
        * eapply phase_eq; [..|exact (Ip j Hjj)]; cbn; rewrite ?upd_other by auto; auto.
      + eapply ctl_eq; [..|exact It]; auto.
        pose proof (total_one s s' i ltac:(lia) ltac:(hj)) as HT.
        assert (busy s i = 0) by (unfold busy; rewrite Hpd0, Q3; reflexivity).
        assert (busy s' i = 0) by (unfold busy; rewrite Hpd; cbn; rewrite Q3; reflexivity).
        lia.
    - (* worker computes *)
      assert (Hsh : shape s i) by (eapply active_shape; eauto).
      assert (Q : down s i = [] /\ up s i = []).
      { destruct Hsh as [(x & A & B & C)|[(x & A & B & C)|[(x & A & B & C)|[(A & B & C)|[(A & B & C)|(x & A & B & C & D)]]]]];
          rewrite Hwk in B; try discriminate; auto. }
      destruct Q as (Q1 & Q3).
      match goal with |- Inv ?x => set (s' := x) end.
      assert (Hpd0 : pend s i = [t]) by (unfold pend; rewrite Q1, Hwk; reflexivity).
      assert (Hpd : pend s' i = []) by (unfold pend, s'; cbn; rewrite !upd_same, Q1; reflexivity).
      destruct (pend_sum s s' i Hi ltac:(hj)) as [rest [E1 E2]].
      destruct (up_sum s s' i Hi ltac:(hj)) as [urest [U1 U2]].
      constructor; cbn [wn comp hist out pc s']; auto.
      + rewrite E2, Hpd. rewrite E1, Hpd0 in Ic. rewrite <- Ic. perm_solve.
      + rewrite U2. cbn [up s']. rewrite upd_same, Q3. rewrite U1, Q3 in Ih.
        rewrite (map_app calc). cbn [map app]. rewrite Hr, <- Ih. cbn [app].
        transitivity (map Some ((hist s ++ urest) ++ [r])).
        * apply Permutation_map. perm_solve.
        * rewrite map_app. reflexivity.
      + intros j Hjj. destruct (Nat.eq_dec j i) as [->|Hne].
        * eapply shape_phase; eauto.
          do 2 right. left. exists r. cbn. rewrite !upd_same, Q1, Q3. auto.
        * eapply phase_eq; [..|exact (Ip j Hjj)]; cbn; rewrite ?upd_other by auto; auto.
      + eapply ctl_eq; [..|exact It]; auto.
        pose proof (total_one s s' i ltac:(lia) ltac:(hj)) as HT.
        assert (busy s i = 1) by (unfold busy; rewrite Hpd0, Q3; reflexivity).
        assert (busy s' i = 1) by (unfold busy; rewrite Hpd; cbn; rewrite upd_same, Q3; reflexivity).
        lia.
    - (* worker fails *)
      assert (Hsh : shape s i) by (eapply active_shape; eauto).
      assert (Q : down s i = [] /\ up s i = []).
      { destruct Hsh as [(x & A & B & C)|[(x & A & B & C)|[(x & A & B & C)|[(A & B & C)|[(A & B & C)|(x & A & B & C & D)]]]]];
          rewrite Hwk in B; try discriminate; auto. }
      destruct Q as (Q1 & Q3).
      match goal with |- Inv ?x => set (s' := x) end.
      assert (Hpd0 : pend s i = [t]) by (unfold pend; rewrite Q1, Hwk; reflexivity).
      assert (Hpd : pend s' i = [t]) by (unfold pend, s'; cbn; rewrite !upd_same, Q1; reflexivity).
      destruct (pend_sum s s' i Hi ltac:(hj)) as [rest [E1 E2]].
      constructor; cbn [wn comp hist out pc s']; auto.
      + rewrite E2, Hpd. rewrite E1, Hpd0 in Ic. exact Ic.
      + intros j Hjj. destruct (Nat.eq_dec j i) as [->|Hne].
        * eapply shape_phase; eauto.
          do 5 right. exists t. cbn. rewrite !upd_same, Q1, Q3. auto.
        * eapply phase_eq; [..|exact (Ip j Hjj)]; cbn; rewrite ?upd_other by auto; auto.
      + eapply ctl_eq; [..|exact It]; auto.
        pose proof (total_one s s' i ltac:(lia) ltac:(hj)) as HT.
        assert (busy s i = 1) by (unfold busy; rewrite Hpd0, Q3; reflexivity).
        assert (busy s' i = 1) by (unfold busy; rewrite Hpd; cbn; rewrite Q3; reflexivity).
        lia.
  Qed.

  Lemma inv_reach s : star step init s -> Inv s.
  Proof. intros H. eapply star_inv; [apply inv_init|apply inv_step|exact H]. Qed.

  (** *** Progress *)
  (** The master waits for a result that will never come. *)
  Definition blocked (s : st) : Prop :=
    pc s = MLoop /\ term s < pn s /\ (forall i, 1 <= i <= nw -> up s i = []) /\
    exists i t, 1 <= i <= nw /\ wk s i = WFail t /\ calc t = None /\ In t tiles.

  Lemma pend_in s i t : Inv s -> 1 <= i <= nw -> In t (pend s i) -> In t tiles.
  Proof.
    intros [Iw Ic Ih Io Ip It] Hi Ht.
    assert (Hin : In t (firstn (wn s) tiles)).
    { eapply Permutation_in; [exact Ic|]. apply in_or_app. right.
      apply in_flat_map. exists i. split; auto. apply in_seq. lia. }
    rewrite <- (firstn_skipn (wn s) tiles). apply in_or_app. auto.
  Qed.

  Lemma progress s : Inv s -> finished nw s \/ blocked s \/ exists s', step s s'.
  Proof.
    intros HI. pose proof HI as [Iw Ic Ih Io Ip It].
    (* a worker in shape either can step, has a message up, has failed or is done *)
    assert (Hw : forall i, 1 <= i <= nw -> shape s i ->
              (exists s', step s s') \/ (exists r rest, up s i = r :: rest) \/
              (up s i = [] /\ busy s i = 1 /\ exists t, wk s i = WFail t /\ calc t = None /\ In t (pend s i)) \/
              (up s i = [] /\ wk s i = WDone /\ busy s i = 0)).
    { intros i Hi [(x & A & B & C)|[(x & A & B & C)|[(x & A & B & C)|[(A & B & C)|[(A & B & C)|(x & A & B & C & D)]]]]].
      - left. eexists. eapply step_w_work; eauto.
      - left. destruct (calc x) as [r|] eqn:E; eexists; [eapply step_w_calc|eapply step_w_fail]; eauto.
      - right. left. eauto.
      - left. eexists. eapply step_w_stop; eauto.
      - right. right. right. unfold busy, pend. rewrite A, B, C. auto.
      - right. right. left. unfold busy, pend. rewrite A, B, C. repeat split; auto.
        exists x. repeat split; auto. now left. }
    assert (Hall : (forall i, 1 <= i <= nw -> shape s i) ->
              (exists s', step s s') \/ (exists i r rest, 1 <= i <= nw /\ up s i = r :: rest) \/
              (forall i, 1 <= i <= nw ->
                 (up s i = [] /\ busy s i = 1 /\ exists t, wk s i = WFail t /\ calc t = None /\ In t (pend s i)) \/
                 (up s i = [] /\ wk s i = WDone /\ busy s i = 0))).
    { intros Hsh.
      assert (Hex : forall l, (forall i, In i l -> 1 <= i <= nw) ->
        (exists s', step s s') \/ (exists i r rest, 1 <= i <= nw /\ up s i = r :: rest) \/
              (forall i, In i l ->
                 (up s i = [] /\ busy s i = 1 /\ exists t, wk s i = WFail t /\ calc t = None /\ In t (pend s i)) \/
                 (up s i = [] /\ wk s i = WDone /\ busy s i = 0))).
      { induction l as [|i l IH]; intros Hl; [right; right; intros ? []|].
        destruct IH as [IH|[IH|IH]]; auto; [intros; apply Hl; now right|].
        assert (Hi : 1 <= i <= nw) by (apply Hl; now left).
        destruct (Hw i Hi (Hsh i Hi)) as [H|[(r & rest & H)|[H|H]]]; auto.
        - right. left. eauto.
        - right. right. intros j [<-|Hj]; auto.
        - right. right. intros j [<-|Hj]; auto. }
      destruct (Hex (seq 1 nw)) as [H|[H|H]]; auto.
      { intros i Hi. apply in_seq in Hi. lia. }
      right. right. intros i Hi. apply H. apply in_seq. lia. }
    destruct (pc s) as [d| |d|] eqn:Hpc; unfold ctl in It; rewrite Hpc in It.
    - right. right. destruct (le_lt_dec d nw).
      + destruct (nth_error tiles (wn s)) as [t|] eqn:E; eexists;
          [eapply step_send_work|eapply step_send_none]; eauto.
      + eexists. eapply step_enter; eauto.
    - destruct It as (Htot & Hp & Hwn).
      destruct (le_lt_dec (pn s) (term s)).
      + right. right. eexists. eapply step_leave; eauto.
      + destruct Hall as [H|[(i & r & rest & Hi & H)|H]]; auto.
        * intros i Hi. pose proof (Ip i Hi) as Hph. unfold phase in Hph. rewrite Hpc in Hph. exact Hph.
        * right. right. eexists. eapply step_recv; eauto.
        * right. left. repeat split; auto.
          -- intros i Hi. destruct (H i Hi) as [(? & _)|(? & _)]; auto.
          -- assert (Ht : 0 < total s) by lia. unfold total in Ht.
             apply sumf_pos in Ht as (i & Hi & Hb). apply in_seq in Hi.
             assert (Hi' : 1 <= i <= nw) by lia.
             destruct (H i Hi') as [(_ & _ & t & H1 & H2 & H3)|(_ & _ & H0)]; [|lia].
             exists i, t. repeat split; eauto; try lia. eapply pend_in; eauto.
    - right. right. destruct (nth_error tiles (wn s)) as [t|] eqn:E; eexists;
        [eapply step_reply_work|eapply step_reply_none]; eauto.
    - destruct It as (Htot & _).
      assert (Hb : forall i, 1 <= i <= nw -> busy s i = 0).
      { intros i Hi. unfold total in Htot. eapply sumf_le_zero; eauto. apply in_seq; lia. }
      destruct Hall as [H|[(i & r & rest & Hi & H)|H]]; auto.
      + intros i Hi. pose proof (Ip i Hi) as Hph. unfold phase in Hph. rewrite Hpc in Hph. exact Hph.
      + specialize (Hb i Hi). unfold busy in Hb. rewrite H in Hb. cbn in Hb. lia.
      + left. split; auto. intros i Hi. specialize (Hb i Hi).
        destruct (H i Hi) as [(_ & H1 & _)|(_ & H0 & _)]; auto. lia.
  Qed.

  (** *** Final states *)
  Lemma serial_fold ts s rs :
    Forall2 (fun t r => calc t = Some r) ts rs -> serial calc store s ts = Some (fold_left store rs s).
  Proof.
    intros H. revert s. induction H as [|t r ts rs Ht H IH]; intros s; cbn; auto. now rewrite Ht.
  Qed.
  Lemma results_of ts : (forall t, In t ts -> exists r, calc t = Some r) ->
    exists rs, map calc ts = map Some rs /\ Forall2 (fun t r => calc t = Some r) ts rs.
  Proof.
    induction ts as [|t ts IH]; intros H; [exists []; auto|].
    destruct IH as [rs [Hrs Hf]]; [intros; apply H; now right|].
    destruct (H t) as [r Hr]; [now left|]. exists (r :: rs). cbn. rewrite Hr, Hrs. auto.
  Qed.

  Lemma done_facts s : 1 <= nw -> Inv s -> pc s = MDone ->
    Permutation (comp s) tiles /\
    Permutation (map Some (hist s)) (map calc tiles) /\
    out s = fold_left store (hist s) s0.
  Proof.
    intros Hnw [Iw Ic Ih Io Ip It] Hpc.
    unfold ctl in It. rewrite Hpc in It. destruct It as (Htot & Htm & Hp & Hwn).
    assert (Hb : forall i, 1 <= i <= nw -> busy s i = 0).
    { intros i Hi. unfold total in Htot. eapply sumf_le_zero; eauto. apply in_seq; lia. }
    assert (Hq : forall i, 1 <= i <= nw -> pend s i = [] /\ up s i = []).
    { intros i Hi. specialize (Hb i Hi). unfold busy in Hb.
      destruct (pend s i), (up s i); cbn in Hb; auto; lia. }
    assert (Hp0 : forall l, (forall i, In i l -> 1 <= i <= nw) ->
              flat_map (pend s) l = [] /\ flat_map (up s) l = []).
    { induction l as [|i l IHl]; intros Hl; cbn; auto.
      destruct IHl as [-> ->]; [intros; apply Hl; now right|].
      destruct (Hq i) as [-> ->]; [apply Hl; now left|auto]. }
    destruct (Hp0 (seq 1 nw)) as [Hp1 Hu1]; [intros i Hi; apply in_seq in Hi; lia|].
    assert (Hwl : wn s = length tiles).
    { destruct (Nat.eq_dec (length tiles) 0); [lia|]. apply Hwn. lia. }
    rewrite Hp1, app_nil_r, Hwl, firstn_all in Ic.
    rewrite Hu1, app_nil_r in Ih.
    repeat split; auto. rewrite Ih. now apply Permutation_map.
  Qed.

  Lemma final_facts s : 1 <= nw -> Inv s -> finished nw s ->
    Permutation (comp s) tiles /\
    Permutation (map Some (hist s)) (map calc tiles) /\
    out s = fold_left store (hist s) s0 /\
    forall i, 1 <= i <= nw -> down s i = [] /\ up s i = [].
  Proof.
    intros Hnw HI Hf. pose proof Hf as [Hpc Hwd].
    destruct (done_facts s Hnw HI Hpc) as (F1 & F2 & F3).
    destruct HI as [Iw Ic Ih Io Ip It].
    split; [|split; [|split]]; auto.
    intros i Hi. pose proof (Ip i Hi) as Hph. pose proof (Hwd i Hi) as Hd.
    unfold phase in Hph. rewrite Hpc in Hph.
    destruct Hph as [(x & A & B & C)|[(x & A & B & C)|[(x & A & B & C)|[(A & B & C)|[(A & B & C)|(x & A & B & C & D)]]]]];
        rewrite Hd in B; try discriminate; auto.
  Qed.

  (** With a failing item the master never returns. *)
  Lemma fail_never_done s t : Inv s -> 1 <= nw -> In t tiles -> calc t = None -> pc s <> MDone.
  Proof.
    intros HI Hnw Ht Hc Hpc.
    destruct (done_facts s Hnw HI Hpc) as (_ & F2 & _).
    assert (Hin : In None (map calc tiles)) by (rewrite <- Hc; now apply in_map).
    apply (Permutation_in _ (Permutation_sym F2)) in Hin.
    apply in_map_iff in Hin as (x & Hx & _). discriminate.
  Qed.
End MWP.

Section MWT.
  Context {T R S : Type}.
  Variable calc : T -> option R.
  Variable store : S -> R -> S.
  Variable tiles : list T.
  Variable nw : nat.
  Notation st := (@st T R S).
  Notation step := (@step T R S calc store tiles nw).

  (** *** Termination: every step decreases a measure (whatever [calc] does). *)
  Definition mw (m : option T) : nat := match m with Some _ => 6 | None => 1 end.
  Definition wmeas (s : st) (i : nat) : nat :=
    list_sum (map mw (down s i)) + (match wk s i with WWork _ => 5 | _ => 0 end) + 4 * length (up s i).
  Definition measure (s : st) : nat :=
    4 * (length tiles - wn s) +
    (match pc s with MSend d => 3 * (nw + 1 - d) + 2 | MLoop => 1 | MReply _ => 4 | MDone => 0 end) +
    sumf (wmeas s) (seq 1 nw).

  Lemma wm_one (s s' : st) i : 1 <= i <= nw -> (forall j, j <> i -> wmeas s' j = wmeas s j) ->
    sumf (wmeas s') (seq 1 nw) + wmeas s i = sumf (wmeas s) (seq 1 nw) + wmeas s' i.
  Proof. intros; now apply sumf_one. Qed.

  Ltac hj2 := intros j Hj; unfold wmeas; cbn; rewrite ?upd_other by auto; reflexivity.

  Local Arguments list_sum : simpl never.
  Lemma list_sum_snoc l x : list_sum (l ++ [x]) = list_sum l + x.
  Proof. rewrite list_sum_app. change (list_sum [x]) with (x+0). lia. Qed.

  (* [pc_ok] : reply targets are ranks; preserved by steps *)
  Definition pc_ok (s : st) : Prop :=
    match pc s with MSend d => 1 <= d | MReply d => 1 <= d <= nw | _ => True end.
  Lemma pc_ok_step s s' : pc_ok s -> step s s' -> pc_ok s'.
  Proof.
    unfold pc_ok. intros H Hs; destruct Hs; cbn; auto; rewrite ?H0 in H; try lia.
  Qed.

  Lemma measure_step s s' : pc_ok s -> step s s' -> measure s' < measure s.
  Proof.
    unfold pc_ok. intros Hpk Hs.
    destruct Hs as
      [s d t Hpc Hd Ht | s d Hpc Hd Ht | s d Hpc Hd | s d r rest Hpc Hterm Hd Hup
      | s d t Hpc Ht | s d Hpc Ht | s Hpc Hterm
      | s i t rest Hi Hwk Hdn | s i rest Hi Hwk Hdn | s i t r Hi Hwk Hr | s i t Hi Hwk Hr];
      try rewrite Hpc in Hpk; unfold measure;
      match goal with |- context[sumf (wmeas ?x)] => set (s' := x) end;
      cbn [pc wn s'].
    - rewrite Hpc. assert (wn s < length tiles) by (apply nth_error_Some; congruence).
      pose proof (wm_one s s' d ltac:(lia) ltac:(hj2)) as HT.
      assert (wmeas s' d = wmeas s d + 6).
      { unfold wmeas. cbn. rewrite upd_same, map_app. cbn. rewrite list_sum_snoc. lia. }
      lia.
    - rewrite Hpc. pose proof (wm_one s s' d ltac:(lia) ltac:(hj2)) as HT.
      assert (wmeas s' d = wmeas s d + 1).
      { unfold wmeas. cbn. rewrite upd_same, map_app. cbn. rewrite list_sum_snoc. lia. }
      lia.
    - rewrite Hpc. assert (HT : sumf (wmeas s') (seq 1 nw) = sumf (wmeas s) (seq 1 nw)) by reflexivity. lia.
    - rewrite Hpc. pose proof (wm_one s s' d ltac:(lia) ltac:(hj2)) as HT.
      assert (wmeas s' d + 4 = wmeas s d).
      { unfold wmeas. cbn. rewrite upd_same, Hup. cbn. lia. }
      lia.
    - rewrite Hpc. assert (wn s < length tiles) by (apply nth_error_Some; congruence).
      pose proof (wm_one s s' d ltac:(lia) ltac:(hj2)) as HT.
      assert (wmeas s' d = wmeas s d + 6).
      { unfold wmeas. cbn. rewrite upd_same, map_app. cbn. rewrite list_sum_snoc. lia. }
      lia.
    - rewrite Hpc. pose proof (wm_one s s' d ltac:(lia) ltac:(hj2)) as HT.
      assert (wmeas s' d = wmeas s d + 1).
      { unfold wmeas. cbn. rewrite upd_same, map_app. cbn. rewrite list_sum_snoc. lia. }
      lia.
    - rewrite Hpc. assert (HT : sumf (wmeas s') (seq 1 nw) = sumf (wmeas s) (seq 1 nw)) by reflexivity. lia.
    - pose proof (wm_one s s' i ltac:(lia) ltac:(hj2)) as HT.
      assert (wmeas s' i + 1 = wmeas s i).
      { unfold wmeas. cbn. rewrite !upd_same, Hdn, Hwk. cbn [map mw]. change list_sum with (fold_right Nat.add 0). cbn [fold_right]. lia. }
      lia.
    - pose proof (wm_one s s' i ltac:(lia) ltac:(hj2)) as HT.
      assert (wmeas s' i + 1 = wmeas s i).
      { unfold wmeas. cbn. rewrite !upd_same, Hdn, Hwk. cbn [map mw]. change list_sum with (fold_right Nat.add 0). cbn [fold_right]. lia. }
      lia.
    - pose proof (wm_one s s' i ltac:(lia) ltac:(hj2)) as HT.
      assert (wmeas s' i + 1 = wmeas s i).
      { unfold wmeas. cbn. rewrite !upd_same, Hwk, app_length. cbn. lia. }
      lia.
    - pose proof (wm_one s s' i ltac:(lia) ltac:(hj2)) as HT.
      assert (wmeas s' i + 5 = wmeas s i).
      { unfold wmeas. cbn. rewrite !upd_same, Hwk. cbn. lia. }
      lia.
  Qed.

End MWT.


Lemma no_infinite_run {T R S} (cl : T -> option R) (st0 : S -> R -> S) ts n (a : S) :
  ~ exists run : nat -> st, run O = MWModel.init n a /\
      forall k, MWModel.step cl st0 ts n (run k) (run (Datatypes.S k)).
Proof.
  intros (run & H0 & Hr).
  assert (Hok' : forall k, pc_ok n (run k)).
  { induction k as [|k IH]; [rewrite H0; unfold pc_ok, MWModel.init; cbn; lia|].
    eapply pc_ok_step; [exact IH|apply Hr]. }
  assert (Hm : forall k, (measure ts n (run k) + k <= measure ts n (run O))).
  { induction k as [|k IH]; [lia|].
    pose proof (measure_step cl st0 ts n _ _ (Hok' k) (Hr k)). lia. }
  specialize (Hm (Datatypes.S (measure ts n (run O)))). lia.
Qed.

