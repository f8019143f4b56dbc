(** The skewness of the extreme value distribution as a function of its shape, and the shape pelgev (lmomentFit.py:43-182)
    computes from a skewness of at least -0.8. *)
From Coq Require Import ZArith List Reals Lra Psatz Lia.
From Verif Require Import LnProofs FitRModel NewtonProofs.
Import ListNotations.
Open Scope R_scope.

(** * The ratio of the third to the second L-moment falls with the shape *)
(** Hosking, Wallis and Wood (1985), equation 12; the limit at shape zero is that of the Gumbel distribution. *)
Definition tau3 (k : R) : R :=
  if Req_EM_T k 0 then 2 * (ln 3 / ln 2) - 3 else 2 * (1 - Rpower 3 (- k)) / (1 - Rpower 2 (- k)) - 3.

Lemma bernoulli p q s : 0 < p -> p <= q -> exp (s * p) - 1 <= p / q * (exp (s * q) - 1).
Proof.
  intros P Q. pose proof (exp_lower (s * (q - p))) as A. pose proof (exp_lower (- (s * p))) as B.
  assert (E : exp (s * q) = exp (s * p) * exp (s * (q - p))) by (rewrite <- exp_plus; f_equal; ring).
  assert (F : exp (s * p) * exp (- (s * p)) = 1) by (rewrite <- exp_plus, <- exp_0; f_equal; ring).
  pose proof (exp_pos (s * p)) as X. set (x := exp (s * p)) in *. set (y := exp (s * q)) in *.
  assert (A' : x * (1 + s * (q - p)) <= y) by (rewrite E; apply Rmult_le_compat_l; lra).
  assert (B' : x * (1 + - (s * p)) <= 1) by (rewrite <- F; apply Rmult_le_compat_l; lra).
  clearbody x y. clear A B E F. apply (Rmult_le_reg_l q); [lra|]. replace (q * (p / q * (y - 1))) with (p * (y - 1)) by (field; lra).
  assert (A2 : p * (x * (1 + s * (q - p))) <= p * y) by (apply Rmult_le_compat_l; lra).
  assert (B2 : (q - p) * (x * (1 + - (s * p))) <= (q - p) * 1) by (apply Rmult_le_compat_l; lra). lra.
Qed.
Lemma tangent p q s t : 0 < p -> p <= q -> exp (t * q) + q / p * exp (t * q) / exp (t * p) * (exp (s * p) - exp (t * p)) <= exp (s * q).
Proof.
  intros P Q. pose proof (bernoulli p q (s - t) P Q) as B.
  assert (E : exp (s * p) = exp (t * p) * exp ((s - t) * p)) by (rewrite <- exp_plus; f_equal; ring).
  assert (F : exp (s * q) = exp (t * q) * exp ((s - t) * q)) by (rewrite <- exp_plus; f_equal; ring).
  rewrite E, F. pose proof (exp_pos (t * p)) as X. pose proof (exp_pos (t * q)) as Y.
  set (x := exp (t * p)) in *. set (y := exp (t * q)) in *. set (u := exp ((s - t) * p)) in *. set (v := exp ((s - t) * q)) in *. clearbody x y u v. clear E F.
  replace (y + q / p * y / x * (x * u - x)) with (y * (1 + q / p * (u - 1))) by (field; lra).
  apply Rmult_le_compat_l; [lra|]. assert (q / p * (u - 1) <= q / p * (p / q * (v - 1))).
  { apply Rmult_le_compat_l; [|exact B]. left. apply Rdiv_lt_0_compat; lra. }
  replace (q / p * (p / q * (v - 1))) with (v - 1) in H by (field; lra). lra.
Qed.

(** Slopes of the chords through one *)
Definition slope (p q s : R) : R := if Req_EM_T s 0 then q / p else (1 - exp (s * q)) / (1 - exp (s * p)).
Lemma exp_lt1 p s : 0 < p -> s < 0 -> 0 < exp (s * p) < 1.
Proof. intros. split; [apply exp_pos|]. rewrite <- exp_0. apply exp_increasing. nra. Qed.
Lemma exp_gt1 p s : 0 < p -> 0 < s -> 1 < exp (s * p).
Proof. intros. rewrite <- exp_0. apply exp_increasing. nra. Qed.
Lemma slope_low p q s : 0 < p -> p <= q -> s < 0 -> slope p q s <= q / p.
Proof.
  intros P Q S. unfold slope. destruct (Req_EM_T s 0); [lra|]. pose proof (bernoulli p q s P Q) as B. pose proof (exp_lt1 p s P S) as X.
  set (x := exp (s * p)) in *. set (y := exp (s * q)) in *. clearbody x y.
  apply (Rmult_le_reg_r (1 - x)); [lra|]. replace ((1 - y) / (1 - x) * (1 - x)) with (1 - y) by (field; lra).
  apply (Rmult_le_reg_l (p / q)); [apply Rdiv_lt_0_compat; lra|]. replace (p / q * (q / p * (1 - x))) with (1 - x) by (field; lra). lra.
Qed.
Lemma slope_high p q s : 0 < p -> p <= q -> 0 < s -> q / p <= slope p q s.
Proof.
  intros P Q S. unfold slope. destruct (Req_EM_T s 0); [lra|]. pose proof (bernoulli p q s P Q) as B. pose proof (exp_gt1 p s P S) as X.
  set (x := exp (s * p)) in *. set (y := exp (s * q)) in *. clearbody x y.
  apply (Rmult_le_reg_r (x - 1)); [lra|]. replace ((1 - y) / (1 - x) * (x - 1)) with (y - 1) by (field; lra).
  apply (Rmult_le_reg_l (p / q)); [apply Rdiv_lt_0_compat; lra|]. replace (p / q * (q / p * (x - 1))) with (x - 1) by (field; lra). lra.
Qed.
Lemma slope_mono p q s t : 0 < p -> p <= q -> s <= t -> slope p q s <= slope p q t.
Proof.
  intros P Q [ST|ST]; [|rewrite ST; lra].
  destruct (Rtotal_order s 0) as [S|[S|S]]; destruct (Rtotal_order t 0) as [T|[T|T]]; try lra.
  - unfold slope. destruct (Req_EM_T s 0); [lra|]. destruct (Req_EM_T t 0); [lra|].
    pose proof (tangent p q s t P Q) as A. pose proof (tangent p q 0 t P Q) as B. rewrite !Rmult_0_l, exp_0 in B.
    pose proof (exp_lt1 p s P S) as X. pose proof (exp_lt1 p t P T) as Y. assert (XY : exp (s * p) < exp (t * p)) by (apply exp_increasing; nra).
    set (m := q / p * exp (t * q) / exp (t * p)) in *. set (x := exp (s * p)) in *. set (y := exp (t * p)) in *. set (px := exp (s * q)) in *. set (py := exp (t * q)) in *.
    clearbody m x y px py. set (r := (1 - py) / (1 - y)). assert (R0 : r * (1 - y) = 1 - py) by (unfold r; field; lra). clearbody r.
    assert (M : m <= r). { apply (Rmult_le_reg_r (1 - y)); lra. }
    apply (Rmult_le_reg_r (1 - x)); [lra|]. replace ((1 - px) / (1 - x) * (1 - x)) with (1 - px) by (field; lra).
    assert (m * (y - x) <= r * (y - x)) by (apply Rmult_le_compat_r; lra). lra.
  - subst t. apply Rle_trans with (q / p); [apply slope_low; lra|]. unfold slope. destruct (Req_EM_T 0 0); lra.
  - apply Rle_trans with (q / p); [apply slope_low; lra|apply slope_high; lra].
  - subst s. apply Rle_trans with (q / p); [|apply slope_high; lra]. unfold slope. destruct (Req_EM_T 0 0); lra.
  - unfold slope. destruct (Req_EM_T s 0); [lra|]. destruct (Req_EM_T t 0); [lra|].
    pose proof (tangent p q t s P Q) as A. pose proof (tangent p q 0 s P Q) as B. rewrite !Rmult_0_l, exp_0 in B.
    pose proof (exp_gt1 p s P S) as X. pose proof (exp_gt1 p t P T) as Y. assert (XY : exp (s * p) < exp (t * p)) by (apply exp_increasing; nra).
    set (m := q / p * exp (s * q) / exp (s * p)) in *. set (x := exp (s * p)) in *. set (y := exp (t * p)) in *. set (px := exp (s * q)) in *. set (py := exp (t * q)) in *.
    clearbody m x y px py. set (r := (1 - px) / (1 - x)). assert (R0 : r * (1 - x) = 1 - px) by (unfold r; field; lra). clearbody r.
    assert (M : r <= m). { apply (Rmult_le_reg_r (x - 1)); lra. }
    apply (Rmult_le_reg_r (y - 1)); [lra|]. replace ((1 - py) / (1 - y) * (y - 1)) with (py - 1) by (field; lra).
    assert (r * (y - x) <= m * (y - x)) by (apply Rmult_le_compat_r; lra). lra.
Qed.
Lemma tau3_slope k : tau3 k = 2 * slope (ln 2) (ln 3) (- k) - 3.
Proof.
  unfold tau3, slope. destruct (Req_EM_T k 0) as [->|N]; destruct (Req_EM_T (- _) 0) as [E|E]; try lra. unfold Rpower.
  destruct (Req_dec (1 - exp (- k * ln 2)) 0) as [Z|Z]; [rewrite Z; unfold Rdiv; rewrite Rinv_0; ring|field; exact Z].
Qed.
Lemma tau3_mono k k' : k <= k' -> tau3 k' <= tau3 k.
Proof.
  intros H. rewrite !tau3_slope. pose proof ln2_bounds. pose proof ln3_bounds.
  assert (slope (ln 2) (ln 3) (- k') <= slope (ln 2) (ln 3) (- k)) by (apply slope_mono; lra). lra.
Qed.

(** * The two rational approximations fall with the skewness *)
Lemma neg_gap s t : - (4 / 5) <= s <= 0 -> - (4 / 5) <= t <= 0 -> 0 <= (3507967614049 / 1953125000000) * s^0 * t^0 + (2881616491958967 / 1000000000000000) * s^0 * t^1 + (75357392944207 / 62500000000000) * s^0 * t^2 + (3569011 / 50000000) * s^0 * t^3 + (2881616491958967 / 1000000000000000) * s^1 * t^0 + (47780659967428703 / 10000000000000000) * s^1 * t^1 + (263380298391243 / 125000000000000) * s^1 * t^2 + (5749166352427 / 39062500000000) * s^1 * t^3 + (75357392944207 / 62500000000000) * s^2 * t^0 + (263380298391243 / 125000000000000) * s^2 * t^1 + (1015042682608133 / 1000000000000000) * s^2 * t^2 + (470796232025629 / 5000000000000000) * s^2 * t^3 + (3569011 / 50000000) * s^3 * t^0 + (5749166352427 / 39062500000000) * s^3 * t^1 + (470796232025629 / 5000000000000000) * s^3 * t^2 + (5593778751509 / 312500000000000) * s^3 * t^3.
Proof.
  intros S T. set (a := s - (- (4 / 5))). set (b := 0 - s). set (c := t - (- (4 / 5))). set (d := 0 - t).
  assert (A : 0 <= a) by (unfold a; lra). assert (B : 0 <= b) by (unfold b; lra). assert (C : 0 <= c) by (unfold c; lra). assert (D : 0 <= d) by (unfold d; lra).
  assert (HS : forall i j, 0 <= a^i * b^j) by (intros; apply Rmult_le_pos; apply pow_le; lra).
  assert (HT : forall i j, 0 <= c^i * d^j) by (intros; apply Rmult_le_pos; apply pow_le; lra).
  assert (HH : forall i j k l, 0 <= (a^i * b^j) * (c^k * d^l)) by (intros; apply Rmult_le_pos; auto).
  pose proof (HH 0 3 0 3)%nat. pose proof (HH 0 3 1 2)%nat. pose proof (HH 0 3 2 1)%nat. pose proof (HH 0 3 3 0)%nat. pose proof (HH 1 2 0 3)%nat. pose proof (HH 1 2 1 2)%nat. pose proof (HH 1 2 2 1)%nat. pose proof (HH 1 2 3 0)%nat. pose proof (HH 2 1 0 3)%nat. pose proof (HH 2 1 1 2)%nat. pose proof (HH 2 1 2 1)%nat. pose proof (HH 2 1 3 0)%nat. pose proof (HH 3 0 0 3)%nat. pose proof (HH 3 0 1 2)%nat. pose proof (HH 3 0 2 1)%nat. pose proof (HH 3 0 3 0)%nat. 
  clear HS HT HH A B C D. unfold a, b, c, d in *. lra.
Qed.

Lemma pos_gap s t : 0 <= s <= 1 -> 0 <= t <= 1 -> 0 <= (47778781 / 50000000) * s^0 * t^0 + (- (19923483 / 50000000)) * s^0 * t^1 + (49161 / 3125000) * s^0 * t^2 + (- (19923483 / 50000000)) * s^1 * t^0 + (1164633870751 / 6250000000000) * s^1 * t^1 + (- (3164195113569 / 312500000000000)) * s^1 * t^2 + (49161 / 3125000) * s^2 * t^0 + (- (3164195113569 / 312500000000000)) * s^2 * t^1 + (441723727767 / 312500000000000) * s^2 * t^2.
Proof.
  intros S T. set (a := s - (0)). set (b := 1 - s). set (c := t - (0)). set (d := 1 - t).
  assert (A : 0 <= a) by (unfold a; lra). assert (B : 0 <= b) by (unfold b; lra). assert (C : 0 <= c) by (unfold c; lra). assert (D : 0 <= d) by (unfold d; lra).
  assert (HS : forall i j, 0 <= a^i * b^j) by (intros; apply Rmult_le_pos; apply pow_le; lra).
  assert (HT : forall i j, 0 <= c^i * d^j) by (intros; apply Rmult_le_pos; apply pow_le; lra).
  assert (HH : forall i j k l, 0 <= (a^i * b^j) * (c^k * d^l)) by (intros; apply Rmult_le_pos; auto).
  pose proof (HH 0 2 0 2)%nat. pose proof (HH 0 2 1 1)%nat. pose proof (HH 0 2 2 0)%nat. pose proof (HH 1 1 0 2)%nat. pose proof (HH 1 1 1 1)%nat. pose proof (HH 1 1 2 0)%nat. pose proof (HH 2 0 0 2)%nat. pose proof (HH 2 0 1 1)%nat. pose proof (HH 2 0 2 0)%nat. 
  clear HS HT HH A B C D. unfold a, b, c, d in *. lra.
Qed.

Lemma quot_le n d n' d' : 0 < d -> 0 < d' -> n' * d <= n * d' -> n' / d' <= n / d.
Proof.
  intros D D' H. apply (Rmult_le_reg_r (d * d')); [nra|]. replace (n' / d' * (d * d')) with (n' * d) by (field; lra). replace (n / d * (d * d')) with (n * d') by (field; lra). exact H.
Qed.
Lemma neg_den t : - (4 / 5) <= t <= 0 -> 0 < 1 + t * (B1 + t * (B2 + t * B3)).
Proof.
  intros T. unfold B1, B2, B3. assert (0 <= (t + 4 / 5) * (- t)) by nra. assert (0 <= (t + 4 / 5) * (- t) * (- t)) by nra. assert (0 <= (t + 4 / 5) * (- t) * (t + 4 / 5)) by nra.
  assert (0 <= (t + 4 / 5) * (t + 4 / 5) * (t + 4 / 5)) by (apply Rmult_le_pos; nra). assert (0 <= (- t) * (- t) * (- t)) by (apply Rmult_le_pos; nra). lra.
Qed.
Lemma pos_den z : 0 <= z <= 1 -> 0 < 1 + z * (D1 + z * D2).
Proof. intros Z. unfold D1, D2. nra. Qed.
Lemma Gneg_mono s t : - (4 / 5) <= s -> s <= t -> t <= 0 -> Gneg t <= Gneg s.
Proof.
  intros S ST T. unfold Gneg. apply quot_le; [apply neg_den; lra|apply neg_den; lra|].
  pose proof (neg_gap s t ltac:(lra) ltac:(lra)) as H. match type of H with 0 <= ?h => assert (K : 0 <= (t - s) * h) by (apply Rmult_le_pos; lra) end. clear H.
  apply Rminus_le. apply Ropp_le_cancel. rewrite Ropp_0. eapply Rle_trans; [exact K|]. right. unfold A0, A1, A2, A3, A4, B1, B2, B3. field.
Qed.
Lemma Gpos_mono s t : 0 <= s -> s <= t -> t <= 1 -> Gpos t <= Gpos s.
Proof.
  intros S ST T. unfold Gpos. cbv zeta. set (x := 1 - t). set (y := 1 - s). assert (X : 0 <= x /\ x <= y /\ y <= 1) by (unfold x, y; lra). clearbody x y. clear S ST T s t.
  apply quot_le; [apply pos_den; lra|apply pos_den; lra|].
  pose proof (pos_gap x y ltac:(lra) ltac:(lra)) as H. match type of H with 0 <= ?h => assert (K : 0 <= (y - x) * h) by (apply Rmult_le_pos; lra) end. clear H.
  apply Rminus_le. apply Ropp_le_cancel. rewrite Ropp_0. eapply Rle_trans; [exact K|]. right. unfold C1, C2, C3, D1, D2. field.
Qed.

(** * Powers of two and three in fixed point *)
Definition one : Z := (2 ^ 30)%Z.
Definition enc (l h : Z) (v : R) : Prop := IZR l <= v * IZR one <= IZR h.
Fixpoint roots (b : Z) (n : nat) : Z * Z :=
  match n with
  | O => (b * one, b * one)%Z
  | S n => let '(l, h) := roots b n in (Z.sqrt (l * one), Z.sqrt (h * one) + 1)%Z
  end.
Definition times (x r : Z * Z) : Z * Z := (fst x * fst r / one, snd x * snd r / one + 1)%Z.
(** [steps r x n]: x, x r^2, x r^4, ... *)
Fixpoint steps (r2 x s2 y : Z * Z) (n : nat) : list (Z * Z * (Z * Z)) :=
  match n with O => [] | S n => (x, y) :: steps r2 (times x r2) s2 (times y s2) n end.
Definition table (n : nat) : list (Z * Z * (Z * Z)) :=
  let r := roots 2 8 in let s := roots 3 8 in steps (times r r) r (times s s) s n.

Lemma one_pos : 0 < IZR one.
Proof. unfold one. apply IZR_lt. reflexivity. Qed.
Lemma roots_nonneg b n : (0 < b)%Z -> (0 <= fst (roots b n))%Z /\ (0 <= snd (roots b n))%Z.
Proof.
  intros B. induction n as [|n IH]; cbn [roots fst snd]; [unfold one; lia|].
  destruct (roots b n) as [l h]. cbn [fst snd] in *. pose proof (Z.sqrt_nonneg (l * one)). pose proof (Z.sqrt_nonneg (h * one)). lia.
Qed.
Lemma roots_ok b n : (0 < b)%Z -> enc (fst (roots b n)) (snd (roots b n)) (Rpower (IZR b) (/ 2 ^ n)).
Proof.
  intros B. pose proof one_pos as O. assert (BR : 0 < IZR b) by (now apply IZR_lt). induction n as [|n IH].
  - cbn [roots fst snd pow]. rewrite Rinv_1, Rpower_1 by exact BR. unfold enc. rewrite mult_IZR. lra.
  - pose proof (roots_nonneg b n B) as NN. cbn [roots]. destruct (roots b n) as [l h]. cbn [fst snd] in *.
    assert (E : Rpower (IZR b) (/ 2 ^ n) = Rpower (IZR b) (/ 2 ^ S n) * Rpower (IZR b) (/ 2 ^ S n)).
    { rewrite <- Rpower_plus. f_equal. cbn [pow]. field. apply pow_nonzero. lra. }
    rewrite E in IH. clear E. assert (V : 0 < Rpower (IZR b) (/ 2 ^ S n)) by apply exp_pos. set (v := Rpower (IZR b) (/ 2 ^ S n)) in *. clearbody v.
    unfold enc in *. set (o := IZR one) in *. destruct IH as [L H].
    assert (LO : (0 <= l * one)%Z) by (unfold one; lia). assert (HO : (0 <= h * one)%Z) by (unfold one; lia).
    pose proof (Z.sqrt_spec _ LO) as [SL _]. pose proof (Z.sqrt_spec _ HO) as [_ SH]. pose proof (Z.sqrt_nonneg (l * one)) as NL. pose proof (Z.sqrt_nonneg (h * one)) as NH.
    unfold Z.succ in SH. set (a := Z.sqrt (l * one)) in *. set (c := (Z.sqrt (h * one) + 1)%Z) in *.
    apply IZR_le in SL. apply IZR_lt in SH. rewrite !mult_IZR in SL, SH. fold o in SL, SH.
    assert (CN : 0 <= IZR c) by (apply IZR_le; unfold c; lia). apply IZR_le in NL. split.
    + apply Rnot_lt_le. intros C. assert (v * o * (v * o) < IZR a * IZR a) by (apply Rmult_le_0_lt_compat; nra). nra.
    + apply Rnot_lt_le. intros C. assert (IZR c * IZR c < v * o * (v * o)) by (apply Rmult_le_0_lt_compat; nra). nra.
Qed.
Lemma times_ok x r u v : (0 <= fst x)%Z -> (0 <= fst r)%Z -> 0 < u -> 0 < v ->
  enc (fst x) (snd x) u -> enc (fst r) (snd r) v -> enc (fst (times x r)) (snd (times x r)) (u * v) /\ (0 <= fst (times x r))%Z.
Proof.
  intros NX NR U V EX ER. pose proof one_pos as O. assert (OZ : (0 < one)%Z) by (unfold one; lia). unfold enc, times in *. cbn [fst snd].
  destruct x as [xl xh]. destruct r as [rl rh]. cbn [fst snd] in *. split; [|apply Z.div_pos; nia].
  pose proof (Z.mul_div_le (xl * rl) one OZ) as L. pose proof (Z.mul_succ_div_gt (xh * rh) one OZ) as H. unfold Z.succ in H.
  apply IZR_le in L, NX, NR. apply IZR_lt in H. rewrite !mult_IZR in L, H. set (o := IZR one) in *.
  set (lo := IZR (xl * rl / one)) in *. set (hi := IZR (xh * rh / one + 1)) in *. clearbody lo hi o. split.
  - apply (Rmult_le_reg_l o); [exact O|]. assert (IZR xl * IZR rl <= u * o * (v * o)) by (apply Rmult_le_compat; lra). lra.
  - apply (Rmult_le_reg_l o); [exact O|]. assert (u * o * (v * o) <= IZR xh * IZR rh) by (apply Rmult_le_compat; try lra; apply Rmult_le_pos; lra). lra.
Qed.
Definition holds (e : Z * Z * (Z * Z)) (k : R) : Prop :=
  enc (fst (fst e)) (snd (fst e)) (Rpower 2 k) /\ enc (fst (snd e)) (snd (snd e)) (Rpower 3 k).
Lemma steps_ok r2 s2 n : (0 <= fst r2)%Z -> (0 <= fst s2)%Z -> enc (fst r2) (snd r2) (Rpower 2 (2 / 256)) -> enc (fst s2) (snd s2) (Rpower 3 (2 / 256)) ->
  forall x y k, (0 <= fst x)%Z -> (0 <= fst y)%Z -> holds (x, y) k -> forall j d, (j < n)%nat -> holds (nth j (steps r2 x s2 y n) d) (k + 2 * INR j / 256).
Proof.
  intros R2 S2 ER ES. induction n as [|n IH]; intros x y k X Y H j d J; [lia|]. cbn [steps]. destruct j as [|j].
  - cbn [nth INR]. replace (k + 2 * 0 / 256) with k by lra. exact H.
  - change (nth (S j) ((x, y) :: steps r2 (times x r2) s2 (times y s2) n) d) with (nth j (steps r2 (times x r2) s2 (times y s2) n) d).
    destruct H as [H1 H2]. cbn [fst snd] in H1, H2.
    destruct (times_ok _ _ _ _ X R2 (exp_pos _) (exp_pos _) H1 ER) as [A1 A2]. destruct (times_ok _ _ _ _ Y S2 (exp_pos _) (exp_pos _) H2 ES) as [B1' B2'].
    fold (Rpower 2 k) (Rpower 2 (2 / 256)) in A1. fold (Rpower 3 k) (Rpower 3 (2 / 256)) in B1'. rewrite <- Rpower_plus in A1, B1'.
    replace (k + 2 * INR (S j) / 256) with (k + 2 / 256 + 2 * INR j / 256) by (rewrite S_INR; lra).
    apply IH; [exact A2|exact B2'| |lia]. split; cbn [fst snd]; assumption.
Qed.
Lemma table_ok n j d : (j < n)%nat -> holds (nth j (table n) d) ((2 * INR j + 1) / 256).
Proof.
  intros J. unfold table. replace ((2 * INR j + 1) / 256) with (/ 256 + 2 * INR j / 256) by lra.
  pose proof (roots_ok 2 8 ltac:(lia)) as R. pose proof (roots_ok 3 8 ltac:(lia)) as S. replace (2 ^ 8) with 256 in R, S by lra.
  pose proof (roots_nonneg 2 8 ltac:(lia)) as [RN _]. pose proof (roots_nonneg 3 8 ltac:(lia)) as [SN _].
  set (r := roots 2 8) in *. set (s := roots 3 8) in *. clearbody r s.
  destruct (times_ok r r _ _ RN RN (exp_pos _) (exp_pos _) R R) as [R2 RN2]. destruct (times_ok s s _ _ SN SN (exp_pos _) (exp_pos _) S S) as [S2 SN2].
  fold (Rpower 2 (/ 256)) in R2. fold (Rpower 3 (/ 256)) in S2. rewrite <- Rpower_plus in R2, S2. replace (/ 256 + / 256) with (2 / 256) in R2, S2 by lra.
  apply steps_ok; auto. split; assumption.
Qed.

(** * The check on a grid of skewnesses *)
(** [odd j] is the shape [(2 j + 1) / 256]; [lowOk tb c j]: its skewness is at least [c / 100], [highOk]: at most. *)
Definition node (j : Z) : R := (2 * IZR j + 1) / 256.
Definition entry (tb : list (Z * Z * (Z * Z))) (j : nat) : Z * Z * (Z * Z) := nth j tb (0, 0, (0, 0))%Z.
Definition lowOk (tb : list (Z * Z * (Z * Z))) (n : nat) (c j : Z) : bool :=
  if (0 <=? j)%Z
  then let '((xl, xh), (yl, yh)) := entry tb (Z.to_nat j) in
       ((Z.to_nat j <? n)%nat && (one <? xl)%Z && (one <? yl)%Z && (0 <=? c + 300)%Z && ((c + 300) * (yl * (xh - one)) <=? 200 * (xh * (yl - one)))%Z)%bool
  else let '((xl, xh), (yl, yh)) := entry tb (Z.to_nat (- j - 1)) in
       ((Z.to_nat (- j - 1) <? n)%nat && (one <? xl)%Z && (0 <=? c + 300)%Z && ((c + 300) * (xh - one) <=? 200 * (yl - one))%Z)%bool.
Definition highOk (tb : list (Z * Z * (Z * Z))) (n : nat) (c j : Z) : bool :=
  if (0 <=? j)%Z
  then let '((xl, xh), (yl, yh)) := entry tb (Z.to_nat j) in
       ((Z.to_nat j <? n)%nat && (one <? xl)%Z && (one <? yl)%Z && (0 <=? c + 300)%Z && (200 * (xl * (yh - one)) <=? (c + 300) * (yh * (xl - one)))%Z)%bool
  else let '((xl, xh), (yl, yh)) := entry tb (Z.to_nat (- j - 1)) in
       ((Z.to_nat (- j - 1) <? n)%nat && (one <? xl)%Z && (0 <=? c + 300)%Z && (200 * (yh - one) <=? (c + 300) * (xl - one))%Z)%bool.

Lemma tau3_pos k : 0 < k -> let x := Rpower 2 k in let y := Rpower 3 k in 1 < x /\ 1 < y /\ tau3 k = 2 * (x * (y - 1) / (y * (x - 1))) - 3.
Proof.
  intros K x y. pose proof ln2_bounds. pose proof ln3_bounds. assert (X : 1 < x) by (apply exp_gt1; lra). assert (Y : 1 < y) by (apply exp_gt1; lra).
  split; [exact X|split; [exact Y|]]. unfold tau3. destruct (Req_EM_T k 0); [lra|]. rewrite !Rpower_Ropp. fold x y. field. lra.
Qed.
Lemma tau3_neg k : 0 < k -> let x := Rpower 2 k in let y := Rpower 3 k in 1 < x /\ 1 < y /\ tau3 (- k) = 2 * ((y - 1) / (x - 1)) - 3.
Proof.
  intros K x y. pose proof ln2_bounds. pose proof ln3_bounds. assert (X : 1 < x) by (apply exp_gt1; lra). assert (Y : 1 < y) by (apply exp_gt1; lra).
  split; [exact X|split; [exact Y|]]. unfold tau3. destruct (Req_EM_T (- k) 0); [lra|]. rewrite Ropp_involutive. fold x y. field. lra.
Qed.
Lemma node_pos j : (0 <= j)%Z -> node j = (2 * INR (Z.to_nat j) + 1) / 256 /\ 0 < node j.
Proof. intros J. unfold node. rewrite INR_IZR_INZ, Z2Nat.id by exact J. split; [reflexivity|]. apply IZR_le in J. lra. Qed.
Lemma node_neg j : (j < 0)%Z -> node j = - ((2 * INR (Z.to_nat (- j - 1)) + 1) / 256) /\ 0 < (2 * INR (Z.to_nat (- j - 1)) + 1) / 256.
Proof.
  intros J. unfold node. rewrite INR_IZR_INZ, Z2Nat.id by lia. rewrite minus_IZR, opp_IZR. assert (IZR j <= -1) by (apply IZR_le; lia). lra.
Qed.
Ltac scaled := unfold enc; intros; repeat match goal with H : _ /\ _ |- _ => destruct H end.

Lemma lowOk_ok n c j : lowOk (table n) n c j = true -> IZR c / 100 <= tau3 (node j).
Proof.
  unfold lowOk. destruct (Z.leb_spec 0 j) as [J|J].
  - destruct (entry (table n) (Z.to_nat j)) as [[xl xh] [yl yh]] eqn:E. intros H. repeat (apply andb_prop in H; destruct H as [H ?]).
    apply Nat.ltb_lt in H. pose proof (table_ok n _ (0, 0, (0, 0))%Z H) as T. fold (entry (table n) (Z.to_nat j)) in T. rewrite E in T. destruct (node_pos j J) as [NE NP]. rewrite <- NE in T.
    destruct (tau3_pos (node j) NP) as (X & Y & ->). destruct T as [TX TY]. cbn [fst snd] in TX, TY. unfold enc in *. pose proof one_pos as O.
    set (x := Rpower 2 (node j)) in *. set (y := Rpower 3 (node j)) in *. clearbody x y.
    repeat match goal with H : (_ <? _)%Z = true |- _ => apply Z.ltb_lt, IZR_lt in H | H : (_ <=? _)%Z = true |- _ => apply Z.leb_le, IZR_le in H end.
    rewrite ?mult_IZR, ?minus_IZR, ?plus_IZR in *. set (o := IZR one) in *. clearbody o. set (XL := IZR xl) in *. set (XH := IZR xh) in *. set (YL := IZR yl) in *. set (C := IZR c) in *. clearbody XL XH YL C.
    clear NE NP E J H.
    assert (G : (C + 300) * (y * (x - 1)) <= 200 * (x * (y - 1))).
    { apply (Rmult_le_reg_r (o * o * YL * XH)); [apply Rmult_lt_0_compat; [apply Rmult_lt_0_compat; [nra|lra]|nra]|].
      assert (P1 : (x * o - o) * XH <= (XH - o) * (x * o)) by nra.
      assert (P2 : (YL - o) * (y * o) <= (y * o - o) * YL) by nra.
      assert (Q1 : (C + 300) * YL * ((x * o - o) * XH) <= (C + 300) * YL * ((XH - o) * (x * o))) by (apply Rmult_le_compat_l; [apply Rmult_le_pos; lra|exact P1]).
      assert (Q2 : (C + 300) * (YL * (XH - o)) * (x * o) <= 200 * (XH * (YL - o)) * (x * o)) by (apply Rmult_le_compat_r; [nra|assumption]).
      assert (Q3 : 200 * XH * (x * o) * ((YL - o) * (y * o)) <= 200 * XH * (x * o) * ((y * o - o) * YL)).
      { apply Rmult_le_compat_l; [|exact P2]. apply Rmult_le_pos; [lra|]. apply Rmult_le_pos; lra. }
      assert (Q4 : ((C + 300) * YL * ((x * o - o) * XH)) * (y * o) <= (200 * (XH * (YL - o)) * (x * o)) * (y * o)) by (apply Rmult_le_compat_r; [nra|lra]).
      lra. }
    assert (G2 : (C + 300) / 200 <= x * (y - 1) / (y * (x - 1))).
    { apply (Rmult_le_reg_r (y * (x - 1))); [nra|]. replace (x * (y - 1) / (y * (x - 1)) * (y * (x - 1))) with (x * (y - 1)) by (field; lra). lra. }
    lra.
  - destruct (entry (table n) (Z.to_nat (- j - 1))) as [[xl xh] [yl yh]] eqn:E. intros H. repeat (apply andb_prop in H; destruct H as [H ?]).
    apply Nat.ltb_lt in H. pose proof (table_ok n _ (0, 0, (0, 0))%Z H) as T. fold (entry (table n) (Z.to_nat (- j - 1))) in T. rewrite E in T. destruct (node_neg j J) as [NE NP]. rewrite NE.
    set (k := (2 * INR (Z.to_nat (- j - 1)) + 1) / 256) in *. clearbody k.
    destruct (tau3_neg k NP) as (X & Y & ->). destruct T as [TX TY]. cbn [fst snd] in TX, TY. unfold enc in *. pose proof one_pos as O.
    set (x := Rpower 2 k) in *. set (y := Rpower 3 k) in *. clearbody x y.
    repeat match goal with H : (_ <? _)%Z = true |- _ => apply Z.ltb_lt, IZR_lt in H | H : (_ <=? _)%Z = true |- _ => apply Z.leb_le, IZR_le in H end.
    rewrite ?mult_IZR, ?minus_IZR, ?plus_IZR in *. set (o := IZR one) in *. clearbody o. set (XL := IZR xl) in *. set (XH := IZR xh) in *. set (YL := IZR yl) in *. set (C := IZR c) in *. clearbody XL XH YL C.
    clear NE NP E J H.
    assert (Q1 : (C + 300) * (x * o - o) <= (C + 300) * (XH - o)) by (apply Rmult_le_compat_l; lra).
    assert (G2 : (C + 300) / 200 <= (y - 1) / (x - 1)).
    { apply (Rmult_le_reg_r (x - 1)); [lra|]. replace ((y - 1) / (x - 1) * (x - 1)) with (y - 1) by (field; lra).
      apply (Rmult_le_reg_r o); [lra|]. lra. }
    lra.
Qed.
Lemma highOk_ok n c j : highOk (table n) n c j = true -> tau3 (node j) <= IZR c / 100.
Proof.
  unfold highOk. destruct (Z.leb_spec 0 j) as [J|J].
  - destruct (entry (table n) (Z.to_nat j)) as [[xl xh] [yl yh]] eqn:E. intros H. repeat (apply andb_prop in H; destruct H as [H ?]).
    apply Nat.ltb_lt in H. pose proof (table_ok n _ (0, 0, (0, 0))%Z H) as T. fold (entry (table n) (Z.to_nat j)) in T. rewrite E in T. destruct (node_pos j J) as [NE NP]. rewrite <- NE in T.
    destruct (tau3_pos (node j) NP) as (X & Y & ->). destruct T as [TX TY]. cbn [fst snd] in TX, TY. unfold enc in *. pose proof one_pos as O.
    set (x := Rpower 2 (node j)) in *. set (y := Rpower 3 (node j)) in *. clearbody x y.
    repeat match goal with H : (_ <? _)%Z = true |- _ => apply Z.ltb_lt, IZR_lt in H | H : (_ <=? _)%Z = true |- _ => apply Z.leb_le, IZR_le in H end.
    rewrite ?mult_IZR, ?minus_IZR, ?plus_IZR in *. set (o := IZR one) in *. clearbody o. set (XL := IZR xl) in *. set (YH := IZR yh) in *. set (YL := IZR yl) in *. set (C := IZR c) in *. clearbody XL YH YL C.
    clear NE NP E J H.
    assert (G : 200 * (x * (y - 1)) <= (C + 300) * (y * (x - 1))).
    { apply (Rmult_le_reg_r (o * o * YH * XL)); [apply Rmult_lt_0_compat; [apply Rmult_lt_0_compat; [nra|nra]|nra]|].
      assert (P1 : (XL - o) * (x * o) <= (x * o - o) * XL) by nra.
      assert (P2 : (y * o - o) * YH <= (YH - o) * (y * o)) by nra.
      assert (Q1 : 200 * XL * (x * o) * ((y * o - o) * YH) <= 200 * XL * (x * o) * ((YH - o) * (y * o))).
      { apply Rmult_le_compat_l; [|exact P2]. apply Rmult_le_pos; [lra|]. apply Rmult_le_pos; lra. }
      assert (Q2 : 200 * (XL * (YH - o)) * ((x * o) * (y * o)) <= (C + 300) * (YH * (XL - o)) * ((x * o) * (y * o))) by (apply Rmult_le_compat_r; [apply Rmult_le_pos; nra|assumption]).
      assert (Q3 : (C + 300) * YH * (y * o) * ((XL - o) * (x * o)) <= (C + 300) * YH * (y * o) * ((x * o - o) * XL)).
      { apply Rmult_le_compat_l; [|exact P1]. apply Rmult_le_pos; [apply Rmult_le_pos; nra|nra]. }
      lra. }
    assert (G2 : x * (y - 1) / (y * (x - 1)) <= (C + 300) / 200).
    { apply (Rmult_le_reg_r (y * (x - 1))); [nra|]. replace (x * (y - 1) / (y * (x - 1)) * (y * (x - 1))) with (x * (y - 1)) by (field; lra). lra. }
    lra.
  - destruct (entry (table n) (Z.to_nat (- j - 1))) as [[xl xh] [yl yh]] eqn:E. intros H. repeat (apply andb_prop in H; destruct H as [H ?]).
    apply Nat.ltb_lt in H. pose proof (table_ok n _ (0, 0, (0, 0))%Z H) as T. fold (entry (table n) (Z.to_nat (- j - 1))) in T. rewrite E in T. destruct (node_neg j J) as [NE NP]. rewrite NE.
    set (k := (2 * INR (Z.to_nat (- j - 1)) + 1) / 256) in *. clearbody k.
    destruct (tau3_neg k NP) as (X & Y & ->). destruct T as [TX TY]. cbn [fst snd] in TX, TY. unfold enc in *. pose proof one_pos as O.
    set (x := Rpower 2 k) in *. set (y := Rpower 3 k) in *. clearbody x y.
    repeat match goal with H : (_ <? _)%Z = true |- _ => apply Z.ltb_lt, IZR_lt in H | H : (_ <=? _)%Z = true |- _ => apply Z.leb_le, IZR_le in H end.
    rewrite ?mult_IZR, ?minus_IZR, ?plus_IZR in *. set (o := IZR one) in *. clearbody o. set (XL := IZR xl) in *. set (YH := IZR yh) in *. set (C := IZR c) in *. clearbody XL YH C.
    clear NE NP E J H.
    assert (Q1 : (C + 300) * (XL - o) <= (C + 300) * (x * o - o)) by (apply Rmult_le_compat_l; lra).
    assert (G2 : (y - 1) / (x - 1) <= (C + 300) / 200).
    { apply (Rmult_le_reg_r (x - 1)); [lra|]. replace ((y - 1) / (x - 1) * (x - 1)) with (y - 1) by (field; lra).
      apply (Rmult_le_reg_r o); [lra|]. lra. }
    lra.
Qed.

Definition negN (m : Z) : Z := (2837753000000000 + m * (- 121096399000000 + m * (- 2507282140000 + m * (- 11345556600 + m * - 7138022))))%Z.
Definition negD (m : Z) : Z := (100000000000000 + m * (2061896960000 + m * (13191223900 + m * 25077104)))%Z.
Definition posN (z : Z) : Z := (- 100000000000000 + z * (1599214910000 + z * (- 4883221300 + z * 1573152)))%Z.
Definition posD (z : Z) : Z := (1000000000000 + z * (- 6436392900 + z * 8985247))%Z.
Definition near (tb : list (Z * Z * (Z * Z))) (n : nat) (N D m : Z) : bool :=
  let q := (256 * N / (100 * D))%Z in
  ((0 <? D)%Z && lowOk tb n (m - 1) ((q + 1) / 2) && highOk tb n (m + 1) ((q - 1) / 2))%bool.
Definition checks (n : nat) : bool :=
  let tb := table n in
  (forallb (fun i => let m := (Z.of_nat i - 80)%Z in near tb n (negN m) (negD m) m) (seq 0 81) &&
   forallb (fun i => let z := (100 - Z.of_nat i)%Z in near tb n (posN z) (posD z) (Z.of_nat i)) (seq 0 101))%bool.
Lemma checked : checks 400 = true.
Proof. vm_compute. reflexivity. Qed.

Lemma near_ok n N D m g : near (table n) n N D m = true -> (D <> 0%Z -> g = IZR N / (100 * IZR D)) -> IZR (m - 1) / 100 <= tau3 g <= IZR (m + 1) / 100.
Proof.
  unfold near. cbv zeta. intros H G. apply andb_prop in H. destruct H as [H HI]. apply andb_prop in H. destruct H as [HD LO].
  apply Z.ltb_lt in HD. specialize (G ltac:(lia)). apply lowOk_ok in LO. apply highOk_ok in HI.
  set (q := (256 * N / (100 * D))%Z) in *.
  assert (B : IZR q <= 256 * g <= IZR q + 1).
  { pose proof (Z.mul_div_le (256 * N) (100 * D) ltac:(lia)) as L. pose proof (Z.mul_succ_div_gt (256 * N) (100 * D) ltac:(lia)) as U. fold q in L, U. unfold Z.succ in U.
    apply IZR_le in L. apply IZR_lt in U. rewrite ?mult_IZR, ?plus_IZR in *. apply IZR_lt in HD. subst g. clearbody q. clear LO HI.
    assert (E : IZR N / (100 * IZR D) * (100 * IZR D) = IZR N) by (field; lra). set (g := IZR N / (100 * IZR D)) in *. clearbody g.
    rewrite <- E in L, U. split; apply (Rmult_le_reg_l (100 * IZR D)); lra. }
  clearbody q. clear G HD. split.
  - eapply Rle_trans; [exact LO|]. apply tau3_mono. unfold node.
    pose proof (Z.mul_succ_div_gt (q + 1) 2 ltac:(lia)) as U. set (j := ((q + 1) / 2)%Z) in *. assert (W : (q + 1 <= 2 * j + 1)%Z) by lia.
    apply IZR_le in W. rewrite !plus_IZR, mult_IZR in W. lra.
  - eapply Rle_trans; [|exact HI]. apply tau3_mono. unfold node.
    pose proof (Z.mul_div_le (q - 1) 2 ltac:(lia)) as U. set (j := ((q - 1) / 2)%Z) in *. assert (W : (2 * j + 1 <= q)%Z) by lia.
    apply IZR_le in W. rewrite plus_IZR, mult_IZR in W. lra.
Qed.
Lemma checks_neg n m : checks n = true -> (-80 <= m <= 0)%Z -> near (table n) n (negN m) (negD m) m = true.
Proof.
  intros H M. unfold checks in H. cbv zeta in H. apply andb_prop in H. destruct H as [H _]. rewrite forallb_forall in H.
  specialize (H (Z.to_nat (m + 80))). rewrite in_seq in H. specialize (H ltac:(lia)). cbv beta zeta in H. replace (Z.of_nat (Z.to_nat (m + 80)) - 80)%Z with m in H by lia. exact H.
Qed.
Lemma checks_pos n i : checks n = true -> (0 <= i <= 100)%Z -> near (table n) n (posN (100 - i)) (posD (100 - i)) i = true.
Proof.
  intros H M. unfold checks in H. cbv zeta in H. apply andb_prop in H. destruct H as [_ H]. rewrite forallb_forall in H.
  specialize (H (Z.to_nat i)). rewrite in_seq in H. specialize (H ltac:(lia)). cbv beta zeta in H. replace (Z.of_nat (Z.to_nat i)) with i in H by lia. exact H.
Qed.
Lemma neg_node n m : checks n = true -> (-80 <= m <= 0)%Z -> IZR (m - 1) / 100 <= tau3 (Gneg (IZR m / 100)) <= IZR (m + 1) / 100.
Proof.
  intros H M. apply (near_ok _ _ _ _ _ (checks_neg n m H M)). intros D. clear H. assert (DR : IZR (negD m) <> 0) by (intros C; apply D; now apply eq_IZR).
  unfold Gneg, A0, A1, A2, A3, A4, B1, B2, B3. unfold negN, negD in *.
  repeat rewrite ?plus_IZR, ?mult_IZR in *. set (x := IZR m) in *. clearbody x.
  field. split; [intros C; apply DR; lra|intros C; apply DR; lra].
Qed.
Lemma pos_node n i : checks n = true -> (0 <= i <= 100)%Z -> IZR (i - 1) / 100 <= tau3 (Gpos (IZR i / 100)) <= IZR (i + 1) / 100.
Proof.
  intros H M. apply (near_ok _ _ _ _ _ (checks_pos n i H M)). intros D. clear H. assert (DR : IZR (posD (100 - i)) <> 0) by (intros C; apply D; now apply eq_IZR).
  unfold Gpos, C1, C2, C3, D1, D2. cbv zeta. unfold posN, posD in *.
  repeat rewrite ?plus_IZR, ?mult_IZR, ?minus_IZR in *. set (x := IZR i) in *. clearbody x.
  field. split; [intros C; apply DR; lra|intros C; apply DR; lra].
Qed.
Lemma grid t : exists m, IZR m / 100 <= t < IZR (m + 1) / 100.
Proof.
  exists (Int_part (t * 100)). pose proof (base_Int_part (t * 100)) as [A B]. rewrite plus_IZR. lra.
Qed.
Lemma neg_skew t : - (4 / 5) <= t <= 0 -> Rabs (tau3 (Gneg t) - t) <= 1 / 50.
Proof.
  intros [T [T0|T0]].
  2: { subst t. pose proof (neg_node _ 0 checked ltac:(lia)) as H. cbn [Z.sub Z.add Z.opp Z.pos_sub Pos.add] in H. replace (0 / 100) with 0 in H by lra. apply Rabs_le. lra. }
  destruct (grid t) as (m & L & U). assert (M : (-80 <= m < 0)%Z).
  { split; [assert (-81 < m)%Z; [|lia]; apply lt_IZR; rewrite plus_IZR in U; lra|apply lt_IZR; lra]. }
  pose proof (neg_node _ m checked ltac:(lia)) as [A _]. pose proof (neg_node _ (m + 1) checked ltac:(lia)) as [_ B].
  assert (MR : -80 <= IZR m /\ IZR (m + 1) <= 0) by (split; [apply IZR_le; lia|apply (IZR_le _ 0); lia]).
  pose proof (tau3_mono _ _ (Gneg_mono (IZR m / 100) t ltac:(lra) ltac:(lra) ltac:(lra))). pose proof (tau3_mono _ _ (Gneg_mono t (IZR (m + 1) / 100) ltac:(lra) ltac:(lra) ltac:(lra))).
  rewrite ?plus_IZR, ?minus_IZR in *. apply Rabs_le. lra.
Qed.
Lemma pos_skew t : 0 <= t < 1 -> Rabs (tau3 (Gpos t) - t) <= 1 / 50.
Proof.
  intros T. destruct (grid t) as (m & L & U). assert (M : (0 <= m < 100)%Z).
  { split; [assert (-1 < m)%Z; [|lia]; apply lt_IZR; rewrite plus_IZR in U; lra|apply lt_IZR; lra]. }
  pose proof (pos_node _ m checked ltac:(lia)) as [A _]. pose proof (pos_node _ (m + 1) checked ltac:(lia)) as [_ B].
  assert (MR : 0 <= IZR m /\ IZR (m + 1) <= 100) by (split; [apply IZR_le; lia|apply (IZR_le _ 100); lia]).
  pose proof (tau3_mono _ _ (Gpos_mono (IZR m / 100) t ltac:(lra) ltac:(lra) ltac:(lra))). pose proof (tau3_mono _ _ (Gpos_mono t (IZR (m + 1) / 100) ltac:(lra) ltac:(lra) ltac:(lra))).
  rewrite ?plus_IZR, ?minus_IZR in *. apply Rabs_le. lra.
Qed.
