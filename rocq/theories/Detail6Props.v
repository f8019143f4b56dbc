(** C89: the estimated shape reproduces the skewness. *)
From Coq Require Import Reals Lra.
From Verif Require Import LnProofs FitRModel SkewProofs.
Open Scope R_scope.

(** The distribution estimated from a skewness of at least -0.8 has this skewness, up to 0.02. [tau3] is the published
    ratio of the third to the second L-moment of the extreme value distribution with shape k,
    2 (1 - 3^-k) / (1 - 2^-k) - 3, and that of the Gumbel distribution for k = 0. *)
Theorem c89_skewness : forall gamma l1 l2 t3, 0 < l2 -> - (4 / 5) <= t3 < 1 ->
  let '(loc, scale, k) := pelgev gamma l1 l2 t3 in
  Rabs ((if Req_EM_T k 0 then 2 * (ln 3 / ln 2) - 3 else 2 * (1 - Rpower 3 (- k)) / (1 - Rpower 2 (- k)) - 3) - t3) <= 1 / 50.
Proof.
  intros gamma l1 l2 t3 L T. unfold pelgev. destruct (Rle_dec l2 0); [lra|].
  destruct (Rle_dec 1 (Rabs t3)) as [C|_]; [exfalso; revert C; apply Rlt_not_le, Rabs_def1; lra|].
  destruct (Rlt_dec 0 t3) as [P|P].
  - cbv zeta. destruct (Rlt_dec (Rabs (Gpos t3)) small) as [S|S].
    + destruct (Req_EM_T 0 0) as [_|N]; [|lra]. unfold small in S. apply Rabs_def2 in S.
      pose proof ln2_bounds as L2. pose proof ln3_bounds as L3. set (p := ln 3 / ln 2).
      assert (PB : 158 / 100 <= p <= 159 / 100). { assert (E : p * ln 2 = ln 3) by (unfold p; field; lra). clearbody p. split; apply (Rmult_le_reg_r (ln 2)); lra. }
      clearbody p. assert (A : 165 / 1000 <= t3).
      { apply Rnot_lt_le. intros C. pose proof (Gpos_mono t3 (165 / 1000) ltac:(lra) ltac:(lra) ltac:(lra)) as M.
        assert (1 / 1000 < Gpos (165 / 1000)); [|lra]. unfold Gpos, C1, C2, C3, D1, D2. cbv zeta. apply (Rmult_lt_reg_r (1 + (1 - 165 / 1000) * (- 64363929 / 100000000 + (1 - 165 / 1000) * (8985247 / 100000000)))); [lra|].
        match goal with |- _ < ?n / ?d * ?e => replace (n / d * e) with n by (field; lra) end. lra. }
      assert (B : t3 <= 175 / 1000).
      { apply Rnot_lt_le. intros C. pose proof (Gpos_mono (175 / 1000) t3 ltac:(lra) ltac:(lra) ltac:(lra)) as M.
        assert (Gpos (175 / 1000) < - (1 / 1000)); [|lra]. unfold Gpos, C1, C2, C3, D1, D2. cbv zeta. apply (Rmult_lt_reg_r (1 + (1 - 175 / 1000) * (- 64363929 / 100000000 + (1 - 175 / 1000) * (8985247 / 100000000)))); [lra|].
        match goal with |- ?n / ?d * ?e < _ => replace (n / d * e) with n by (field; lra) end. lra. }
      apply Rabs_le. lra.
    + exact (pos_skew t3 ltac:(lra)).
  - cbv zeta. destruct (Rlt_dec t3 (- 8 / 10)) as [C|_]; [lra|]. exact (neg_skew t3 ltac:(lra)).
Qed.
Example c89_skewness_met : exists l2 t3 : R, 0 < l2 /\ - (4 / 5) <= t3 < 1.
Proof. exists 1, 0. lra. Qed.
Print Assumptions c89_skewness.
