From Coq Require Import List Arith Lia QArith Permutation.
From Verif Require Import Base TileSpec MWModel MWProofs DbProofs EvalModel.
Import ListNotations.
Open Scope nat_scope.

Section P.
  Context {T R : Type}.
  Variable calc : T -> option R.
  Variable files : list T.
  Variable nw : nat.
  Notation estep := (estep calc files nw).
  Notation step := (step calc addRow files nw).
  Notation init := (init nw (@nil R)).

  (** While rank 0 sends the first files it has sent one file per worker served, and
      the workers not served yet have nothing. *)
  Definition first (s : @st T R (list R)) : Prop :=
    forall d, pc s = MSend d -> 1 <= d <= nw + 1 /\ wn s = d - 1 /\ wn s <= length files /\
      forall i, d <= i -> wk s i = WRecv /\ down s i = [] /\ up s i = [].

  Lemma first_init : first init.
  Proof.
    intros d H. cbn in H. injection H as <-. cbn [wn MWModel.init]. repeat split; lia.
  Qed.

  Lemma first_step s s' : first s -> estep s s' -> first s'.
  Proof.
    intros F [St N]. destruct St; intros d' H'; cbn [pc] in H'; try discriminate.
    - (* send *) injection H' as <-. destruct (F d H) as (A1 & A2 & A3 & A4). cbn [wn wk down up].
      assert (wn s < length files) by (apply nth_error_Some; congruence).
      repeat split; try lia.
      + apply A4; lia.
      + rewrite upd_other by lia. apply A4; lia.
      + apply A4; lia.
    - exfalso. assert (O : outOfFiles files nw s) by (exists d; auto).
      specialize (N O). cbn [pc] in N. rewrite H in N. injection N as N. lia.
    - destruct (F _ H') as (A1 & A2 & A3 & A4). cbn [wn wk down up]. repeat split; try lia.
      all: destruct (Nat.le_gt_cases d' i) as [L|L];
        [destruct (A4 i L) as (B1 & B2 & B3); rewrite B2 in H1; discriminate|].
      all: rewrite ?upd_other by lia; apply A4; lia.
    - destruct (F _ H') as (A1 & A2 & A3 & A4). cbn [wn wk down up]. repeat split; try lia.
      all: destruct (Nat.le_gt_cases d' i) as [L|L];
        [destruct (A4 i L) as (B1 & B2 & B3); rewrite B2 in H1; discriminate|].
      all: rewrite ?upd_other by lia; apply A4; lia.
    - destruct (F _ H') as (A1 & A2 & A3 & A4). cbn [wn wk down up]. repeat split; try lia.
      all: destruct (Nat.le_gt_cases d' i) as [L|L];
        [destruct (A4 i L) as (B1 & B2 & B3); rewrite B1 in H0; discriminate|].
      all: rewrite ?upd_other by lia; apply A4; lia.
    - destruct (F _ H') as (A1 & A2 & A3 & A4). cbn [wn wk down up]. repeat split; try lia.
      all: destruct (Nat.le_gt_cases d' i) as [L|L];
        [destruct (A4 i L) as (B1 & B2 & B3); rewrite B1 in H0; discriminate|].
      all: rewrite ?upd_other by lia; apply A4; lia.
  Qed.

  Lemma first_reach s : star estep init s -> first s.
  Proof. apply star_inv; [apply first_init|apply first_step]. Qed.

  Lemma star_estep s : star estep init s -> star step init s.
  Proof.
    apply (star_inv _ (fun s => star step init s)).
    - constructor.
    - intros s1 s2 H [H2 _]. eapply star_step; eauto.
  Qed.

  Lemma finite : ~ exists run : nat -> st, run O = init /\ forall k, estep (run k) (run (S k)).
  Proof.
    intros (run & H0 & Hr). apply (no_infinite_run calc addRow files nw (@nil R)).
    exists run. split; [exact H0|]. intros k. apply Hr.
  Qed.

  Lemma fold_addRow (h : list R) : forall l : list R, fold_left addRow h l = l ++ h.
  Proof.
    induction h as [|r h IH]; intros l; cbn [fold_left]; [now rewrite app_nil_r|].
    rewrite IH. unfold addRow. now rewrite <- app_assoc.
  Qed.

  Lemma enough rs : 1 <= nw <= length files -> Forall2 (fun t r => calc t = Some r) files rs ->
    serial calc addRow [] files = Some rs /\
    always_ends_in init estep (fun s => finished nw s /\ Permutation (out s) rs).
  Proof.
    intros Hn F.
    destruct (mw_all calc addRow files nw (@nil R)) as (rs' & F' & S & [A B]).
    - intros t Ht E. clear -F Ht E. induction F as [|a b l l' H _ IH]; [contradiction|].
      destruct Ht as [->|Ht]; [congruence|auto].
    - lia.
    - assert (rs' = rs).
      { clear -F F'. revert rs' F'. induction F; intros rs' F'; inversion F'; subst; auto.
        f_equal; [congruence|auto]. }
      subst rs'. rewrite fold_addRow in S. split; [exact S|]. split; [apply finite|].
      intros s Hs Hstuck. destruct (B s) as (H1 & _ & (h & Hp & Ho) & _).
      + now apply star_estep.
      + intros s' St. apply (Hstuck s'). split; [exact St|].
        intros (d & Hpc & Hd & Hnone). exfalso.
        destruct (first_reach s Hs d Hpc) as (A1 & A2 & A3 & _).
        apply nth_error_None in Hnone. lia.
      + split; [exact H1|]. rewrite Ho, fold_addRow. exact Hp.
  Qed.

  Lemma few : length files < nw ->
    always_ends_in init estep (fun s => outOfFiles files nw s /\
      forall i, length files < i <= nw -> wk s i = WRecv /\ down s i = []).
  Proof.
    intros Hl. split; [apply finite|]. intros s Hs Hno.
    assert (P : exists d, pc s = MSend d /\ d <= length files + 1).
    { clear Hno. revert s Hs.
      assert (G : forall z, star estep init z -> first z /\ exists d, pc z = MSend d /\ d <= length files + 1).
      { intros z. apply (star_inv _ (fun s => first s /\ exists d, pc s = MSend d /\ d <= length files + 1)).
        - split; [apply first_init|]. exists 1. split; [reflexivity|lia].
        - intros s1 s2 [F1 (d & P1 & P2)] St. split; [eapply first_step; eauto|].
          destruct (F1 d P1) as (A1 & A2 & A3 & A4).
          destruct St as [St N]. destruct St; cbn [pc]; try congruence.
          + rewrite P1 in H. injection H as <-.
            assert (wn s < length files) by (apply nth_error_Some; congruence).
            exists (d + 1). split; [reflexivity|lia].
          + exfalso. assert (O : outOfFiles files nw s) by (exists d0; auto).
            specialize (N O). cbn [pc] in N. rewrite H in N. injection N as N. lia.
          + exfalso. rewrite P1 in H. injection H as <-. lia.
          + eauto. + eauto. + eauto. + eauto. }
      intros s Hs. now destruct (G s Hs). }
    destruct P as (d & P1 & P2). destruct (first_reach s Hs d P1) as (A1 & A2 & A3 & A4).
    assert (d = length files + 1).
    { destruct (Nat.eq_dec d (length files + 1)) as [|Nd]; [auto|]. exfalso.
      destruct (nth_error files (wn s)) as [t|] eqn:E.
      - eapply Hno. split.
        + eapply step_send_work; eauto. lia.
        + intros (d' & Q1 & Q2 & Q3). congruence.
      - apply nth_error_None in E. lia. }
    split.
    - exists d. split; [exact P1|]. split; [lia|]. apply nth_error_None. lia.
    - intros i Hi. destruct (A4 i) as (B1 & B2 & _); [lia|]. auto.
  Qed.
End P.

Lemma qfold_perm (l l' : list Q) : Permutation l l' -> (fold_right Qplus 0 l == fold_right Qplus 0 l')%Q.
Proof.
  induction 1; cbn; [reflexivity| | |].
  - now rewrite IHPermutation.
  - ring.
  - now rewrite IHPermutation1.
Qed.

Lemma mean_perm {C} (a b : list (C -> Q)) c : Permutation a b -> (cellMean a c == cellMean b c)%Q.
Proof.
  intros H. unfold cellMean. rewrite (Permutation_length H).
  now rewrite (qfold_perm _ _ (Permutation_map (fun r => r c) H)).
Qed.

Lemma mean_times {C} (rows : list (C -> Q)) c n : n = length rows -> 0 < n ->
  (cellMean rows c * inject_Z (Z.of_nat n) == fold_right Qplus 0 (map (fun r => r c) rows))%Q.
Proof.
  intros -> H. unfold cellMean. field. intros E. unfold Qeq in E. cbn in E. lia.
Qed.
