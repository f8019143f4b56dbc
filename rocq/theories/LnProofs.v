(** Bounds on logarithms by the series of the inverse hyperbolic tangent, and on Euler's constant. *)
From Coq Require Import Reals Lra Lia.
From Verif Require Import DerivTac.
Open Scope R_scope.

(** [y + y^3/3 + ... + y^(2n-1)/(2n-1)] *)
Fixpoint ath (n : nat) (y : R) : R :=
  match n with O => 0 | S k => ath k y + y ^ (2 * k + 1) / INR (2 * k + 1) end.
Fixpoint evens (n : nat) (y : R) : R := match n with O => 0 | S k => evens k y + y ^ (2 * k) end.
Lemma evens_sum n y : (1 - y * y) * evens n y = 1 - y ^ (2 * n).
Proof.
  induction n as [|n IH]; [cbn; ring|]. replace (2 * S n)%nat with (S (S (2 * n))) by lia. cbn [evens pow].
  rewrite Rmult_plus_distr_l, IH. ring.
Qed.
Lemma D_pow n x : derivable_pt_lim (fun y => y ^ S n) x (INR (S n) * x ^ n).
Proof. apply (derivable_pt_lim_pow x (S n)). Qed.
Lemma D_ath n x : derivable_pt_lim (ath n) x (evens n x).
Proof.
  induction n as [|n IH]; [exact (D_const 0 x)|]. cbn [evens].
  apply (D_plus (ath n) (fun y => y ^ (2 * n + 1) / INR (2 * n + 1))); [exact IH|].
  assert (P : 0 < INR (2 * n + 1)) by (apply lt_0_INR; lia).
  apply D_eq with (INR (2 * n + 1) * x ^ (2 * n) * / INR (2 * n + 1) + x ^ (2 * n + 1) * 0); [|field; lra].
  apply (D_mult (fun y => y ^ (2 * n + 1)) (fun _ => / INR (2 * n + 1))); [|apply D_const].
  replace (2 * n + 1)%nat with (S (2 * n)) by lia. apply D_pow.
Qed.
Lemma pow_even_pos n y : 0 <= y ^ (2 * n).
Proof. rewrite pow_mult. apply pow_le. nra. Qed.

Lemma D_logs y : -1 < y < 1 -> derivable_pt_lim (fun y => ln (1 + y) - ln (1 - y)) y (2 / (1 - y * y)).
Proof.
  intros H. apply D_eq with (/ (1 + y) * (0 + 1) - / (1 - y) * (0 - 1)).
  - apply D_minus.
    + apply (D_ln (fun y => 1 + y)); [lra|]. apply (D_plus (fun _ => 1) (fun y => y)); [apply D_const|apply D_id].
    + apply (D_ln (fun y => 1 - y)); [lra|]. apply (D_minus (fun _ => 1) (fun y => y)); [apply D_const|apply D_id].
  - field. repeat split; nra.
Qed.
Lemma nonneg_from_derivative f f' y : 0 < y -> f 0 = 0 -> (forall c, 0 <= c <= y -> derivable_pt_lim f c (f' c)) ->
  (forall c, 0 < c < y -> 0 <= f' c) -> 0 <= f y.
Proof.
  intros Y Z D P. destruct (MVT_cor2 f f' 0 y Y D) as (c & E & C). rewrite Z in E. specialize (P c C). nra.
Qed.
Lemma ath_0 n : ath n 0 = 0.
Proof. induction n as [|n IH]; [reflexivity|]. cbn [ath]. rewrite IH, pow_ne_zero by lia. unfold Rdiv. ring. Qed.
Lemma ln_quot a b : 0 < a -> 0 < b -> ln (a / b) = ln a - ln b.
Proof. intros A B. unfold Rdiv. rewrite ln_mult, ln_Rinv by (auto; now apply Rinv_0_lt_compat). ring. Qed.
Lemma ln_lower n y : 0 < y < 1 -> 2 * ath n y <= ln ((1 + y) / (1 - y)).
Proof.
  intros Y. rewrite ln_quot by lra.
  assert (0 <= ln (1 + y) - ln (1 - y) - 2 * ath n y); [|lra].
  apply (nonneg_from_derivative (fun y => ln (1 + y) - ln (1 - y) - 2 * ath n y) (fun y => 2 / (1 - y * y) - 2 * evens n y)); [lra| | |].
  - rewrite ath_0. replace (1 + 0) with 1 by ring. replace (1 - 0) with 1 by ring. ring.
  - intros c C. apply (D_minus (fun y => ln (1 + y) - ln (1 - y))); [apply D_logs; lra|].
    apply D_eq with (0 * ath n c + 2 * evens n c); [|ring]. apply (D_mult (fun _ => 2)); [apply D_const|apply D_ath].
  - intros c C. assert (0 < 1 - c * c) by nra. pose proof (evens_sum n c) as E. pose proof (pow_even_pos n c) as P.
    replace (2 / (1 - c * c) - 2 * evens n c) with (2 * (c ^ (2 * n) / (1 - c * c))).
    + apply Rmult_le_pos; [lra|]. apply Rmult_le_pos; [exact P|]. left. now apply Rinv_0_lt_compat.
    + replace (c ^ (2 * n)) with (1 - (1 - c * c) * evens n c) by lra. field. lra.
Qed.
Lemma ln_upper n y : 0 < y < 1 -> ln ((1 + y) / (1 - y)) <= 2 * ath n y + 2 * (y ^ (2 * n + 1) / INR (2 * n + 1)) / (1 - y * y).
Proof.
  intros Y. rewrite ln_quot by lra. assert (I : 0 < INR (2 * n + 1)) by (apply lt_0_INR; lia).
  assert (0 <= 2 * ath n y + (2 / INR (2 * n + 1)) * (y ^ (2 * n + 1) / (1 - y * y)) - (ln (1 + y) - ln (1 - y))).
  2:{ replace (2 * (y ^ (2 * n + 1) / INR (2 * n + 1)) / (1 - y * y)) with (2 / INR (2 * n + 1) * (y ^ (2 * n + 1) / (1 - y * y))) by (field; split; nra). lra. }
  apply (nonneg_from_derivative (fun y => 2 * ath n y + (2 / INR (2 * n + 1)) * (y ^ (2 * n + 1) / (1 - y * y)) - (ln (1 + y) - ln (1 - y)))
    (fun c => 2 * evens n c + (2 / INR (2 * n + 1)) * ((INR (2 * n + 1) * c ^ (2 * n) * (1 - c * c) - - (2 * c) * c ^ (2 * n + 1)) / (1 - c * c) ^ 2) - 2 / (1 - c * c))); [lra| | |].
  - rewrite ath_0, pow_ne_zero by lia. replace (1 + 0) with 1 by ring. replace (1 - 0) with 1 by ring. unfold Rdiv. ring.
  - intros c C. apply (D_minus (fun y => 2 * ath n y + (2 / INR (2 * n + 1)) * (y ^ (2 * n + 1) / (1 - y * y)))); [|apply D_logs; lra].
    apply (D_plus (fun y => 2 * ath n y)).
    + apply D_eq with (0 * ath n c + 2 * evens n c); [|ring]. apply (D_mult (fun _ => 2)); [apply D_const|apply D_ath].
    + set (d := (INR (2 * n + 1) * c ^ (2 * n) * (1 - c * c) - - (2 * c) * c ^ (2 * n + 1)) / (1 - c * c) ^ 2).
      apply D_eq with (0 * (c ^ (2 * n + 1) / (1 - c * c)) + 2 / INR (2 * n + 1) * d); [|ring].
      apply (D_mult (fun _ => 2 / INR (2 * n + 1)) (fun y => y ^ (2 * n + 1) / (1 - y * y))); [apply D_const|].
      unfold d. apply (D_div (fun y => y ^ (2 * n + 1)) (fun y => 1 - y * y)); [nra| |].
      * replace (2 * n + 1)%nat with (S (2 * n)) by lia. apply D_pow.
      * apply D_eq with (0 - (1 * c + c * 1)); [|ring]. apply (D_minus (fun _ => 1) (fun y => y * y)); [apply D_const|]. apply (D_mult (fun y => y) (fun y => y)); apply D_id.
  - intros c C. assert (0 < 1 - c * c) by nra. pose proof (evens_sum n c) as E. pose proof (pow_even_pos n c) as P.
    replace (2 * n + 1)%nat with (S (2 * n)) in * by lia. cbn [pow].
    replace (2 * evens n c + 2 / INR (S (2 * n)) * ((INR (S (2 * n)) * c ^ (2 * n) * (1 - c * c) - - (2 * c) * (c * c ^ (2 * n))) / (((1 - c * c) * ((1 - c * c) * 1)))) - 2 / (1 - c * c))
      with (4 * c * c * c ^ (2 * n) / (INR (S (2 * n)) * ((1 - c * c) * (1 - c * c)))).
    + apply Rmult_le_pos; [|left; apply Rinv_0_lt_compat; apply Rmult_lt_0_compat; [exact I|nra]].
      apply Rmult_le_pos; [nra|exact P].
    + replace (evens n c) with ((1 - c ^ (2 * n)) / (1 - c * c)); [field; split; lra|]. rewrite <- E. field. lra.
Qed.
Lemma ln2_bounds : 69314718055 / 100000000000 < ln 2 < 69314718057 / 100000000000.
Proof.
  assert (E : 2 = (1 + 1 / 3) / (1 - 1 / 3)) by lra. rewrite E at 1 2.
  split.
  - eapply Rlt_le_trans; [|apply (ln_lower 11); lra]. cbn -[INR]. rewrite !INR_IZR_INZ. cbn -[IZR]. lra.
  - eapply Rle_lt_trans; [apply (ln_upper 11); lra|]. cbn -[INR]. rewrite !INR_IZR_INZ. cbn -[IZR]. lra.
Qed.
Lemma ln3_bounds : 10986122886 / 10000000000 < ln 3 < 10986122887 / 10000000000.
Proof.
  assert (E : 3 = (1 + 1 / 2) / (1 - 1 / 2)) by lra. rewrite E at 1 2.
  split.
  - eapply Rlt_le_trans; [|apply (ln_lower 17); lra]. cbn -[INR]. rewrite !INR_IZR_INZ. cbn -[IZR]. lra.
  - eapply Rle_lt_trans; [apply (ln_upper 17); lra|]. cbn -[INR]. rewrite !INR_IZR_INZ. cbn -[IZR]. lra.
Qed.
