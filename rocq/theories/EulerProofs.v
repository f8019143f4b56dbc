(** Euler's constant to nine digits. *)
From Coq Require Import Reals Lra Lia.
From Verif Require Import DerivTac LnProofs.
Open Scope R_scope.

(** [1 + 1/2 + ... + 1/n] *)
Fixpoint harmonic (n : nat) : R := match n with O => 0 | S k => harmonic k + / INR (S k) end.
(** Two sequences that enclose the limit *)
Definition above (n : nat) : R := let x := INR (S n) in harmonic (S n) - ln x - / (2 * x) + / (12 * x ^ 2).
Definition below (n : nat) : R := above n - / (120 * INR (S n) ^ 4).

Lemma ln_step x : 0 < x -> ln (x + 1) - ln x = ln ((1 + / (2 * x + 1)) / (1 - / (2 * x + 1))).
Proof.
  intros X. rewrite <- ln_quot by lra. f_equal. field. lra.
Qed.
Lemma above_step n : above (S n) <= above n.
Proof.
  unfold above. cbv zeta. change (harmonic (S (S n))) with (harmonic (S n) + / INR (S (S n))). rewrite (S_INR (S n)).
  assert (X : 1 <= INR (S n)) by (rewrite S_INR; pose proof (pos_INR n); lra). set (x := INR (S n)) in *.
  generalize (harmonic (S n)). intros h. clearbody x.
  pose proof (ln_step x ltac:(lra)) as E. set (y := / (2 * x + 1)) in *.
  assert (Y : 0 < y <= 1 / 3).
  { unfold y. split; [apply Rinv_0_lt_compat; lra|]. replace (1 / 3) with (/ 3) by lra. apply Rinv_le_contravar; lra. }
  pose proof (ln_lower 3 y ltac:(lra)) as B. rewrite <- E in B. cbn -[INR] in B. rewrite !INR_IZR_INZ in B. cbn -[IZR] in B.
  assert (XY : x = (1 - y) / (2 * y)) by (unfold y; field; lra).
  assert (XY' : x + 1 = (1 + y) / (2 * y)) by (unfold y; field; lra).
  assert (P : 0 < 1 - y * y) by nra.
  assert (R1 : - / (x + 1) - / (2 * x) + / (2 * (x + 1)) + / (12 * x ^ 2) - / (12 * (x + 1) ^ 2)
               = - 2 * y / (1 - y * y) + 4 / 3 * y ^ 3 / (1 - y * y) ^ 2).
  { rewrite XY', XY. field. repeat split; nra. }
  assert (K : 2 * y / (1 - y * y) - 4 / 3 * y ^ 3 / (1 - y * y) ^ 2 <= 2 * y + 2 / 3 * y ^ 3 + 2 / 5 * y ^ 5).
  { apply (Rmult_le_reg_r ((1 - y * y) ^ 2)); [apply pow_lt; exact P|].
    replace ((2 * y / (1 - y * y) - 4 / 3 * y ^ 3 / (1 - y * y) ^ 2) * (1 - y * y) ^ 2) with (2 * y * (1 - y * y) - 4 / 3 * y ^ 3) by (field; lra).
    assert (0 <= y ^ 5 * (16 / 15 - 2 / 15 * y ^ 2 + 2 / 5 * y ^ 4)).
    { apply Rmult_le_pos; [apply pow_le; lra|]. assert (0 <= y ^ 4) by (apply pow_le; lra). nra. }
    nra. }
  lra.
Qed.
Lemma below_step n : below n <= below (S n).
Proof.
  unfold below, above. cbv zeta. change (harmonic (S (S n))) with (harmonic (S n) + / INR (S (S n))). rewrite (S_INR (S n)).
  assert (X : 1 <= INR (S n)) by (rewrite S_INR; pose proof (pos_INR n); lra). set (x := INR (S n)) in *.
  generalize (harmonic (S n)). intros h. clearbody x.
  pose proof (ln_step x ltac:(lra)) as E. set (y := / (2 * x + 1)) in *.
  assert (Y : 0 < y <= 1 / 3).
  { unfold y. split; [apply Rinv_0_lt_compat; lra|]. replace (1 / 3) with (/ 3) by lra. apply Rinv_le_contravar; lra. }
  pose proof (ln_upper 3 y ltac:(lra)) as B. rewrite <- E in B. cbn -[INR] in B. rewrite !INR_IZR_INZ in B. cbn -[IZR] in B.
  assert (XY : x = (1 - y) / (2 * y)) by (unfold y; field; lra).
  assert (XY' : x + 1 = (1 + y) / (2 * y)) by (unfold y; field; lra).
  assert (P : 0 < 1 - y * y) by nra.
  assert (R1 : - / (x + 1) - / (2 * x) + / (2 * (x + 1)) + / (12 * x ^ 2) - / (12 * (x + 1) ^ 2) - / (120 * x ^ 4) + / (120 * (x + 1) ^ 4)
               = - 2 * y / (1 - y * y) + 4 / 3 * y ^ 3 / (1 - y * y) ^ 2 - 16 / 15 * y ^ 5 * (1 + y ^ 2) / (1 - y * y) ^ 4).
  { rewrite XY', XY. field. repeat split; nra. }
  assert (K : 2 * y + 2 / 3 * y ^ 3 + 2 / 5 * y ^ 5 + 2 / 7 * y ^ 7 / (1 - y * y) <=
              2 * y / (1 - y * y) - 4 / 3 * y ^ 3 / (1 - y * y) ^ 2 + 16 / 15 * y ^ 5 * (1 + y ^ 2) / (1 - y * y) ^ 4).
  { apply (Rmult_le_reg_r ((1 - y * y) ^ 4)); [apply pow_lt; exact P|].
    replace ((2 * y / (1 - y * y) - 4 / 3 * y ^ 3 / (1 - y * y) ^ 2 + 16 / 15 * y ^ 5 * (1 + y ^ 2) / (1 - y * y) ^ 4) * (1 - y * y) ^ 4)
      with (2 * y * (1 - y * y) ^ 3 - 4 / 3 * y ^ 3 * (1 - y * y) ^ 2 + 16 / 15 * y ^ 5 * (1 + y ^ 2)) by (field; lra).
    replace ((2 * y + 2 / 3 * y ^ 3 + 2 / 5 * y ^ 5 + 2 / 7 * y ^ 7 / (1 - y * y)) * (1 - y * y) ^ 4)
      with ((2 * y + 2 / 3 * y ^ 3 + 2 / 5 * y ^ 5) * (1 - y * y) ^ 4 + 2 / 7 * y ^ 7 * (1 - y * y) ^ 3) by (field; lra).
    set (z := y * y) in *. assert (Z : 0 <= z <= 1 / 9) by (unfold z; nra).
    assert (Q : 0 <= 2 * (1 - z) ^ 3 - 4 / 3 * z * (1 - z) ^ 2 + 16 / 15 * z ^ 2 * (1 + z) - ((2 + 2 / 3 * z + 2 / 5 * z ^ 2) * (1 - z) ^ 4 + 2 / 7 * z ^ 3 * (1 - z) ^ 3)).
    { replace (2 * (1 - z) ^ 3 - 4 / 3 * z * (1 - z) ^ 2 + 16 / 15 * z ^ 2 * (1 + z) - ((2 + 2 / 3 * z + 2 / 5 * z ^ 2) * (1 - z) ^ 4 + 2 / 7 * z ^ 3 * (1 - z) ^ 3))
        with (z ^ 3 * (64 / 21 - 92 / 105 * z + 8 / 105 * z ^ 2 - 4 / 35 * z ^ 3)) by field.
      apply Rmult_le_pos; [apply pow_le; lra|]. assert (0 <= z ^ 2 * (1 - z)) by (apply Rmult_le_pos; [apply pow_le|]; lra). assert (0 <= z ^ 2 <= 1) by nra. nra. }
    assert (T : 0 <= y * (2 * (1 - z) ^ 3 - 4 / 3 * z * (1 - z) ^ 2 + 16 / 15 * z ^ 2 * (1 + z) - ((2 + 2 / 3 * z + 2 / 5 * z ^ 2) * (1 - z) ^ 4 + 2 / 7 * z ^ 3 * (1 - z) ^ 3)))
      by (apply Rmult_le_pos; [lra|exact Q]).
    apply Rminus_le. apply Ropp_le_cancel. rewrite Ropp_0. eapply Rle_trans; [exact T|]. right. unfold z. ring. }
  lra.
Qed.

Lemma above_below n : below n < above n.
Proof.
  unfold below. assert (0 < INR (S n)) by (apply lt_0_INR; lia).
  assert (0 < / (120 * INR (S n) ^ 4)); [|lra]. apply Rinv_0_lt_compat. assert (0 < INR (S n) ^ 4) by (now apply pow_lt). lra.
Qed.
Lemma below_mono n m : (n <= m)%nat -> below n <= below m.
Proof. induction 1; [lra|]. eapply Rle_trans; [exact IHle|apply below_step]. Qed.
Lemma inv_cv : Un_cv (fun n => / INR (S n)) 0.
Proof.
  intros eps E. destruct (archimed_cor1 eps E) as (N & H & P). exists N. intros n Hn. unfold R_dist. rewrite Rminus_0_r.
  rewrite Rabs_right by (left; apply Rinv_0_lt_compat, lt_0_INR; lia). eapply Rle_lt_trans; [|exact H].
  apply Rinv_le_contravar; [apply lt_0_INR; lia|apply le_INR; lia].
Qed.
Lemma cv_ext u v l : (forall n, u n = v n) -> Un_cv u l -> Un_cv v l.
Proof. intros E H eps P. destruct (H eps P) as (N & HN). exists N. intros n Hn. rewrite <- E. now apply HN. Qed.

Lemma euler : exists g, Un_cv (fun n => harmonic (S n) - ln (INR (S n))) g /\ (forall n, below n <= g <= above n).
Proof.
  assert (D : Un_decreasing above) by (intros n; apply above_step).
  assert (B : has_lb above).
  { exists (- below 0). intros x (n & ->). unfold opp_seq. pose proof (below_mono 0 n ltac:(lia)). pose proof (above_below n). lra. }
  destruct (decreasing_cv _ D B) as (g & G). exists g.
  pose proof inv_cv as I0. pose proof (CV_mult _ _ _ _ I0 I0) as I1. pose proof (CV_mult _ _ _ _ I1 I1) as I2.
  assert (C1 : forall k, Un_cv (fun _ => k) k).
  { intros k eps P. exists 0%nat. intros n _. unfold R_dist. rewrite Rminus_eq_0, Rabs_R0. exact P. }
  pose proof (CV_mult _ _ _ _ (C1 (1 / 2)) I0) as J0. pose proof (CV_mult _ _ _ _ (C1 (1 / 12)) I1) as J1. pose proof (CV_mult _ _ _ _ (C1 (1 / 120)) I2) as J2.
  assert (NZ : forall n, INR (S n) <> 0) by (intros n; apply not_0_INR; lia).
  split.
  - pose proof (CV_plus _ _ _ _ G (CV_minus _ _ _ _ J0 J1)) as L. replace (g + (1 / 2 * 0 - 1 / 12 * (0 * 0))) with g in L by ring.
    revert L. apply cv_ext. intros n. unfold above. cbv zeta. generalize (harmonic (S n)) (ln (INR (S n))). intros. field. apply NZ.
  - assert (G2 : Un_cv below g).
    { pose proof (CV_minus _ _ _ _ G J2) as L. replace (g - 1 / 120 * (0 * 0 * (0 * 0))) with g in L by ring.
      revert L. apply cv_ext. intros n. unfold below. generalize (above n). intros. field. apply NZ. }
    intros n. split.
    + apply (growing_ineq below); [intros m; apply below_step|exact G2].
    + apply (decreasing_ineq above); [exact D|exact G].
Qed.
Lemma euler_value : exists g, Un_cv (fun n => harmonic (S n) - ln (INR (S n))) g /\ 577215664 / 1000000000 < g < 577215666 / 1000000000.
Proof.
  destruct euler as (g & G & B). exists g. split; [exact G|]. specialize (B 63%nat). unfold below, above in B. cbv zeta in B.
  assert (L : ln (INR 64) = 6 * ln 2).
  { replace (INR 64) with (2 * (2 * (2 * (2 * (2 * 2))))) by (rewrite INR_IZR_INZ; cbn -[IZR]; lra).
    rewrite !ln_mult by lra. ring. }
  rewrite L in B. clear L G. pose proof ln2_bounds as L2. revert B L2. generalize (ln 2). intros l B L2. revert B.
  cbn -[INR IZR pow Rinv]. rewrite !INR_IZR_INZ. cbn -[IZR pow Rinv]. intros B. lra.
Qed.
