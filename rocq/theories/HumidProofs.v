(** Proofs about the humidity conversions. *)
From Coq Require Import Reals ZArith Bool Lia Lra Psatz Ranalysis5.
From Verif Require Import CircleModel CircleProofs HumidModel DerivTac.
Open Scope R_scope.

Definition K0 : R := 1678 / 100 * (2373 / 10) + 1169 / 10.
Lemma expo_form t : - (2373 / 10) < t ->
  (1678 / 100 * t - 1169 / 10) / (t + 2373 / 10) = 1678 / 100 - K0 / (t + 2373 / 10).
Proof. intros H. unfold K0. field. lra. Qed.
Lemma K0_pos : 0 < K0. Proof. unfold K0. lra. Qed.
Lemma expo_lt a b : - (2373 / 10) < a -> a < b ->
  (1678 / 100 * a - 1169 / 10) / (a + 2373 / 10) < (1678 / 100 * b - 1169 / 10) / (b + 2373 / 10).
Proof.
  intros H L. rewrite !expo_form by lra. pose proof K0_pos as P.
  assert (I : / (b + 2373 / 10) < / (a + 2373 / 10)) by (apply Rinv_lt_contravar; [apply Rmult_lt_0_compat; lra | lra]).
  unfold Rdiv at 2 4. pose proof (Rmult_lt_compat_l _ _ _ P I). lra.
Qed.
Lemma expo_top t : - (2373 / 10) < t -> (1678 / 100 * t - 1169 / 10) / (t + 2373 / 10) < 1678 / 100.
Proof.
  intros H. rewrite expo_form by lra. pose proof K0_pos as P.
  assert (0 < K0 / (t + 2373 / 10)) by (apply Rdiv_lt_0_compat; lra). lra.
Qed.
Lemma fromKPa_lt u a b : a < b -> fromKPa u a < fromKPa u b.
Proof. intros H. destruct u; cbn; lra. Qed.
Lemma fromKPa_pos u a : 0 < a -> 0 < fromKPa u a.
Proof. intros H. destruct u; cbn; lra. Qed.
Lemma sat_lt u a b : - (2373 / 10) < a -> a < b -> satVapPr a u < satVapPr b u.
Proof. intros H L. apply fromKPa_lt, exp_increasing, expo_lt; assumption. Qed.
Lemma sat_pos u t : 0 < satVapPr t u.
Proof. apply fromKPa_pos, exp_pos. Qed.

Definition dewOf (x : R) : R := (1169 / 10 + 2373 / 10 * x) / (1678 / 100 - x).
Lemma dew_expo t : - (2373 / 10) < t -> dewOf ((1678 / 100 * t - 1169 / 10) / (t + 2373 / 10)) = t.
Proof.
  intros H. pose proof (expo_top t H) as P. unfold dewOf in *.
  assert (D : 1678 / 100 - (1678 / 100 * t - 1169 / 10) / (t + 2373 / 10) = K0 / (t + 2373 / 10)) by (rewrite expo_form by exact H; lra).
  rewrite D. unfold K0. field. repeat split; lra.
Qed.
Lemma dew_sum x : x <> 1678 / 100 -> dewOf x + 2373 / 10 = K0 / (1678 / 100 - x).
Proof. intros H. unfold dewOf, K0. field. lra. Qed.
Lemma expo_dew x : x <> 1678 / 100 -> (1678 / 100 * dewOf x - 1169 / 10) / (dewOf x + 2373 / 10) = x.
Proof.
  intros H. rewrite dew_sum by exact H. unfold dewOf, K0. field. repeat split; try lra.
Qed.
Lemma dew_dom x : x < 1678 / 100 -> - (2373 / 10) < dewOf x.
Proof.
  intros H. pose proof (dew_sum x ltac:(lra)) as E. pose proof K0_pos.
  assert (0 < K0 / (1678 / 100 - x)) by (apply Rdiv_lt_0_compat; lra). lra.
Qed.
Lemma dew_mono x y : x < y -> y < 1678 / 100 -> dewOf x < dewOf y.
Proof.
  intros L H. destruct (Rlt_le_dec (dewOf x) (dewOf y)) as [|G]; [assumption|]. exfalso.
  pose proof (dew_dom y H) as Dy. pose proof (expo_dew x ltac:(lra)) as Ex. pose proof (expo_dew y ltac:(lra)) as Ey.
  destruct G as [G | G].
  - pose proof (expo_lt _ _ Dy G). lra.
  - rewrite G in Ey. lra.
Qed.

(** The vapour pressure of a trial wet bulb temperature increases. *)
Lemma trial_lt T p a b : 0 <= p -> T < 390 -> - (2373 / 10) < a -> a < b -> trial T p a < trial T p b.
Proof.
  intros P HT H L. unfold trial. pose proof (sat_lt HPa a b H L) as S.
  assert (Q : 0 <= p * ((b - a) * (1 + 115 / 100000 * (a + b - T)))).
  { apply Rmult_le_pos; [exact P|]. apply Rmult_le_pos; lra. }
  assert (E : p * (T - a) * (66 / 100000) * (1 + 115 / 100000 * a) - p * (T - b) * (66 / 100000) * (1 + 115 / 100000 * b)
     = 66 / 100000 * (p * ((b - a) * (1 + 115 / 100000 * (a + b - T))))) by ring.
  lra.
Qed.
Lemma trial_cont T p a : - (2373 / 10) < a -> continuity_pt (trial T p) a.
Proof.
  intros H. apply derivable_continuous_pt.
  unfold trial, satVapPr, fromKPa.
  eexists. unfold derivable_pt_abs. repeat dstep; lra.
Qed.
Lemma root T Td p : 0 < p -> - (2373 / 10) < Td -> Td < T -> T < 390 ->
  exists r, Td <= r <= T /\ diff T Td p r = 0.
Proof.
  intros P H L HT.
  destruct (IVT_interv (fun x => trial T p x - satVapPr Td HPa) Td T) as (r & B & E).
  - intros a Ha. apply continuity_pt_minus; [apply trial_cont; lra | apply continuity_pt_const; intros ? ?; reflexivity].
  - exact L.
  - unfold trial. assert (0 < p * ((T - Td) * (66 / 100000 * (1 + 115 / 100000 * Td)))) by (repeat apply Rmult_lt_0_compat; lra). lra.
  - unfold trial. pose proof (sat_lt HPa Td T H L). lra.
  - exists r. split; [exact B|]. unfold diff. cbv beta in E. lra.
Qed.
Section Search.
  Variables (T Td p r : R).
  Hypotheses (P : 0 < p) (HT : T < 390) (Hr : - (2373 / 10) < r) (R0 : diff T Td p r = 0).
  Lemma diff_pos x : - (2373 / 10) < x -> x < r -> 0 < diff T Td p x.
  Proof. intros H L. pose proof (trial_lt T p x r ltac:(lra) HT H L). unfold diff in *. lra. Qed.
  Lemma diff_neg x : r < x -> diff T Td p x < 0.
  Proof. intros L. pose proof (trial_lt T p r x ltac:(lra) HT Hr L). unfold diff in *. lra. Qed.
  Lemma diff_near : exists d, 0 < d /\ forall x, Rabs (x - r) < d -> Rabs (diff T Td p x) < 5 / 100.
  Proof.
    destruct (cont_eps _ _ (trial_cont T p r Hr) (5 / 100) ltac:(lra)) as (d & D & E).
    exists d. split; [exact D|]. intros x Hx. specialize (E x Hx).
    unfold diff in *. replace (satVapPr Td HPa - trial T p x) with (- (trial T p x - trial T p r)) by lra.
    rewrite Rabs_Ropp. exact E.
  Qed.
  Definition ends (s : wbState) : Prop := exists n t, wbRun T Td p n s = Some t /\ Rabs (diff T Td p t) <= 5 / 100.
  Lemma ends_step s s' : wbStep T Td p s = inr s' -> ends s' -> ends s.
  Proof. intros E (n & t & R & B). exists (S n), t. cbn. rewrite E. split; assumption. Qed.
  Lemma ends_now x i u : Rabs (diff T Td p x) <= 5 / 100 -> ends (x, i, u).
  Proof.
    intros B. exists 1%nat, x. cbn. replace (rlt (5 / 100) (Rabs (diff T Td p x))) with false by (symmetry; apply rlt_false; exact B).
    split; [reflexivity | exact B].
  Qed.
  (** a change of direction is a start in the other direction with a tenth of the increment *)
  Lemma turn_down x i : diff T Td p x < 0 -> ends (x, i / 10, false) -> ends (x, i, true).
  Proof.
    intros N (n & t & R & B). exists n, t. split; [|exact B]. destruct n; [discriminate|]. cbn in *.
    destruct (rlt (5 / 100) (Rabs (diff T Td p x))); [|exact R].
    replace (rlt (diff T Td p x) 0) with true in * by (symmetry; apply rlt_true; exact N). exact R.
  Qed.
  Lemma turn_up x i : 0 < diff T Td p x -> ends (x, i / 10, true) -> ends (x, i, false).
  Proof.
    intros N (n & t & R & B). exists n, t. split; [|exact B]. destruct n; [discriminate|]. cbn in *.
    destruct (rlt (5 / 100) (Rabs (diff T Td p x))); [|exact R].
    replace (rlt (diff T Td p x) 0) with false in * by (symmetry; apply rlt_false; lra). exact R.
  Qed.
  Lemma go_up x i : 0 < diff T Td p x -> ends (x + i, i, true) -> ends (x, i, true).
  Proof.
    intros N E. destruct (Rle_lt_dec (Rabs (diff T Td p x)) (5 / 100)) as [B|B]; [now apply ends_now|].
    apply (ends_step _ (x + i, i, true)); [|exact E]. cbn.
    replace (rlt (5 / 100) (Rabs (diff T Td p x))) with true by (symmetry; apply rlt_true; exact B).
    replace (rlt (diff T Td p x) 0) with false by (symmetry; apply rlt_false; lra). reflexivity.
  Qed.
  Lemma go_down x i : diff T Td p x < 0 -> ends (x - i, i, false) -> ends (x, i, false).
  Proof.
    intros N E. destruct (Rle_lt_dec (Rabs (diff T Td p x)) (5 / 100)) as [B|B]; [now apply ends_now|].
    apply (ends_step _ (x - i, i, false)); [|exact E]. cbn.
    replace (rlt (5 / 100) (Rabs (diff T Td p x))) with true by (symmetry; apply rlt_true; exact B).
    replace (rlt (diff T Td p x) 0) with true by (symmetry; apply rlt_true; lra). reflexivity.
  Qed.
  Lemma at_root i u : ends (r, i, u).
  Proof. apply ends_now. rewrite R0, Rabs_R0. lra. Qed.
  (** one sweep, up or down, leads to the first point beyond the root *)
  Lemma sweep_up i : 0 < i -> (forall y, r < y -> y < r + i -> ends (y, i, true)) ->
    forall n x, - (2373 / 10) < x -> x < r -> r <= x + INR n * i -> ends (x, i, true).
  Proof.
    intros I F. induction n as [|n IH]; intros x H L B; [cbn in B; lra|].
    apply go_up; [now apply diff_pos|]. rewrite S_INR in B.
    destruct (Rtotal_order (x + i) r) as [A|[A|A]].
    - apply IH; lra.
    - rewrite A. apply at_root.
    - apply F; lra.
  Qed.
  Lemma sweep_down i : 0 < i -> (forall y, y < r -> r - i < y -> ends (y, i, false)) ->
    forall n x, r < x -> x <= r + INR n * i -> ends (x, i, false).
  Proof.
    intros I F. induction n as [|n IH]; intros x L B; [cbn in B; lra|].
    apply go_down; [now apply diff_neg|]. rewrite S_INR in B.
    destruct (Rtotal_order (x - i) r) as [A|[A|A]].
    - apply F; lra.
    - rewrite A. apply at_root.
    - apply IH; lra.
  Qed.
  Lemma steps a i : 0 < i -> exists n, a <= INR n * i.
  Proof.
    intros I. assert (N : a / i < INR (Z.to_nat (up (a / i)))).
    { destruct (archimed (a / i)) as [A _]. rewrite INR_IZR_INZ. eapply Rlt_le_trans; [exact A|]. apply IZR_le. lia. }
    exists (Z.to_nat (up (a / i))).
    apply Rmult_lt_compat_r with (r := i) in N; [|exact I]. unfold Rdiv in N. rewrite Rmult_assoc, Rinv_l, Rmult_1_r in N; lra.
  Qed.
  Lemma search d : 0 < d -> (forall x, Rabs (x - r) < d -> Rabs (diff T Td p x) < 5 / 100) ->
    forall k i x, 0 < i -> i <= d * 10 ^ k ->
      (- (2373 / 10) < r - i / 10 -> - (2373 / 10) < x -> x < r -> ends (x, i, true)) /\
      (- (2373 / 10) < r - i -> r < x -> ends (x, i, false)).
  Proof.
    intros D N. induction k as [|k IH]; intros i x I B.
    - cbn in B. rewrite Rmult_1_r in B. split.
      + intros _ H L. destruct (steps (r - x) i I) as [n S]. apply (sweep_up i I) with n; try lra.
        intros y H1 H2. apply ends_now, Rlt_le, N. rewrite Rabs_right; lra.
      + intros _ L. destruct (steps (x - r) i I) as [n S]. apply (sweep_down i I) with n; try lra.
        intros y H1 H2. apply ends_now, Rlt_le, N. rewrite Rabs_left; lra.
    - cbn in B. assert (B' : i / 10 <= d * 10 ^ k) by lra. assert (I' : 0 < i / 10) by lra. split.
      + intros A H L. destruct (steps (r - x) i I) as [n S]. apply (sweep_up i I) with n; try lra.
        intros y H1 H2. apply turn_down; [now apply diff_neg|]. apply (IH (i / 10) y I' B'); lra.
      + intros A L. destruct (steps (x - r) i I) as [n S]. apply (sweep_down i I) with n; try lra.
        intros y H1 H2. apply turn_up; [apply diff_pos; lra|]. apply (IH (i / 10) y I' B'); lra.
  Qed.
  Lemma search_all x : - (2373 / 10) < r - 1 -> - (2373 / 10) < x -> x < r -> ends (x, 10, true).
  Proof.
    intros A H L. destruct diff_near as (d & D & N).
    assert (K : exists k, 10 <= d * 10 ^ k).
    { destruct (steps 10 d D) as [n S]. exists n. rewrite Rmult_comm in S.
      assert (Q : INR n <= 10 ^ n).
      { clear. induction n as [|n IH]; [cbn; lra|]. rewrite S_INR. cbn [pow]. pose proof (pow_R1_Rle 10 n ltac:(lra)). lra. }
      apply Rmult_le_compat_l with (r := d) in Q; lra. }
    destruct K as [k K]. apply (search d D N k 10 x); lra.
  Qed.
End Search.

Lemma round3_near x : Rabs (round3 x - x) <= 1 / 2000.
Proof.
  unfold round3. destruct (base_Int_part (1000 * x + 1 / 2)) as [A B].
  apply Rabs_le. lra.
Qed.
