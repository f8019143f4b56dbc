(** The Newton iteration of pelgev (lmomentFit.py:160-172) keeps the shape positive for every skewness below -0.8. *)
From Coq Require Import Reals Lra Psatz Lia.
From Verif Require Import LnProofs FitRModel FitRProofs.
Open Scope R_scope.

(** * Powers *)
Lemma Rpower_le_base b G e : 0 < b <= 1 -> e <= G -> Rpower b G <= Rpower b e.
Proof.
  intros B H. unfold Rpower. assert (L : ln b <= 0).
  { destruct B as [B [C| ->]]; [|rewrite ln_1; lra]. left. rewrite <- ln_1. now apply ln_increasing. }
  destruct (Req_dec (G * ln b) (e * ln b)) as [->|N]; [lra|]. left. apply exp_increasing. nra.
Qed.
Lemma power_root b m n : 0 < b -> (0 < n)%nat -> Rpower b (INR m / INR n) ^ n = b ^ m.
Proof.
  intros B N. rewrite <- !Rpower_pow; [|exact B|apply exp_pos]. rewrite Rpower_mult. f_equal. field. apply not_0_INR. lia.
Qed.
Lemma pow_cancel u v n : 0 <= u -> 0 <= v -> u ^ n <= v ^ n -> (0 < n)%nat -> u <= v.
Proof.
  intros U V H N. apply Rnot_lt_le. intros C. assert (v ^ n < u ^ n); [|lra]. clear H.
  induction n as [|[|n] IH]; [lia|cbn; lra|]. specialize (IH ltac:(lia)). cbn [pow] in *.
  apply Rmult_le_0_lt_compat; try lra. assert (0 <= v ^ n) by (now apply pow_le). nra.
Qed.
Lemma power_le b G v m n : 0 < b <= 1 -> 0 <= v -> INR m / INR n <= G -> (0 < n)%nat -> b ^ m <= v ^ n -> Rpower b G <= v.
Proof.
  intros B V H N P. eapply Rle_trans; [apply (Rpower_le_base b G _ B H)|].
  apply (pow_cancel _ _ n); [left; apply exp_pos|exact V| |exact N]. now rewrite power_root by tauto.
Qed.
Lemma power_ge b G v m n : 0 < b <= 1 -> 0 <= v -> G <= INR m / INR n -> (0 < n)%nat -> v ^ n <= b ^ m -> v <= Rpower b G.
Proof.
  intros B V H N P. eapply Rle_trans; [|apply (Rpower_le_base b _ _ B H)].
  apply (pow_cancel _ _ n); [exact V|left; apply exp_pos| |exact N]. now rewrite power_root by tauto.
Qed.
Lemma exp_lower u : 1 + u <= exp u.
Proof. apply exp_ineq1_le. Qed.

(** * One step *)
Lemma shrink q t : 0 < q <= 394 / 1000 -> 0 <= t <= 64 / 100 -> let x := t * q in let w := 1 - x in let a := 1 - q in let E := a - 585 / 1000 * w * q in
  E * E <= w * w * (2 * E - w * a).
Proof.
  intros Q T x w a E. unfold E, w, a, x.
  assert (P : 0 <= 1 + (167 / 50) * q * t - t - (251 / 100) * q^2 * t^2 - q * t^2 + (17/100) * q^3 * t^3 + q^2 * t^3 - (100489 / 40000) * q + (37089/20000) * q^2 * t - (13689/40000) * q^3*t^2).
  { set (b := 394/1000 - q). set (d := 64/100 - t). assert (0 <= b) by (unfold b; lra). assert (0 <= d) by (unfold d; lra).
    assert (HQ : forall i j, 0 <= q^i * b^j) by (intros; apply Rmult_le_pos; apply pow_le; lra).
    assert (HT : forall i j, 0 <= t^i * d^j) by (intros; apply Rmult_le_pos; apply pow_le; lra).
    assert (HH : forall i j k l, 0 <= (q^i * b^j) * (t^k * d^l)) by (intros; apply Rmult_le_pos; auto).
    pose proof (HH 0 3 0 3)%nat. pose proof (HH 0 3 1 2)%nat. pose proof (HH 0 3 2 1)%nat. pose proof (HH 0 3 3 0)%nat.
    pose proof (HH 1 2 0 3)%nat. pose proof (HH 1 2 1 2)%nat. pose proof (HH 1 2 2 1)%nat. pose proof (HH 1 2 3 0)%nat.
    pose proof (HH 2 1 0 3)%nat. pose proof (HH 2 1 1 2)%nat. pose proof (HH 2 1 2 1)%nat. pose proof (HH 2 1 3 0)%nat.
    pose proof (HH 3 0 0 3)%nat. pose proof (HH 3 0 1 2)%nat. pose proof (HH 3 0 2 1)%nat. pose proof (HH 3 0 3 0)%nat.
    clear HQ HT HH. unfold b, d in *. lra. }
  assert (H : 0 <= q * (1 + (167 / 50) * q * t - t - (251 / 100) * q^2 * t^2 - q * t^2 + (17/100) * q^3 * t^3 + q^2 * t^3 - (100489 / 40000) * q + (37089/20000) * q^2 * t - (13689/40000) * q^3*t^2)) by (apply Rmult_le_pos; lra).
  clear P. apply Rminus_le. apply Ropp_le_cancel. rewrite Ropp_0. eapply Rle_trans; [exact H|]. right. field.
Qed.
Lemma back q x : 0 < q <= 3012 / 10000 -> q * q <= x <= 64 / 100 * q -> let w := 1 - x in let a := 1 - q in let E := a - 585 / 1000 * w * q in
  w * (1001 / 1000 * w - a) <= 66 / 100 * (693147 / 1000000) * E.
Proof.
  intros Q X w a E. unfold E, w, a.
  assert (M : (1 - x) * (1001 / 1000 * (1 - x) - (1 - q)) <= (1 - q * q) * (1001 / 1000 * (1 - q * q) - (1 - q))) by nra.
  eapply Rle_trans; [exact M|].
  assert (N : 66 / 100 * (693147 / 1000000) * (1 - q - 585 / 1000 * (1 - q * q) * q) <= 66 / 100 * (693147 / 1000000) * (1 - q - 585 / 1000 * (1 - x) * q)) by nra.
  eapply Rle_trans; [|exact N]. clear M N w a E X x.
  assert (0 <= q * (3012 / 10000 - q)) by nra. assert (0 <= q * q * (3012 / 10000 - q)) by nra.
  assert (0 <= q * q * q * (3012 / 10000 - q)) by nra. nra.
Qed.

(** The bounds kept by the iteration; [h] is [T0 - 1], half of one plus the skewness *)
Definition kept (h G : R) : Prop := 23 / 10 <= G /\ h * Rpower 2 G <= 1001 / 1000.

Lemma quotients G : 23 / 10 <= G -> exists q, Rpower 3 (- G) = Rpower 2 (- G) * q /\ q = Rpower (2 / 3) G /\ 0 < q <= 394 / 1000 /\
  q * q <= Rpower 2 (- G) <= 64 / 100 * q.
Proof.
  intros H. exists (Rpower (2 / 3) G).
  assert (L : ln (2 / 3) = ln 2 - ln 3) by (apply ln_quot; lra).
  assert (P : 0 < Rpower (2 / 3) G) by apply exp_pos.
  split; [|split; [reflexivity|split; [split; [exact P|]|split]]].
  - unfold Rpower. rewrite <- exp_plus, L. f_equal. ring.
  - apply (power_le _ _ _ 23 10); try lra; try lia; rewrite ?INR_IZR_INZ; cbn -[IZR pow Rdiv]; lra.
  - unfold Rpower. rewrite <- exp_plus, L. pose proof ln2_bounds. pose proof ln3_bounds.
    destruct (Req_dec (G * (ln 2 - ln 3) + G * (ln 2 - ln 3)) (- G * ln 2)) as [->|N]; [lra|]. left. apply exp_increasing. nra.
  - assert (E : Rpower 2 (- G) = Rpower (3 / 4) G * Rpower (2 / 3) G).
    { unfold Rpower. rewrite <- exp_plus, L. f_equal. replace (3 / 4) with (3 / (2 * 2)) by lra. rewrite ln_quot, ln_mult by lra. ring. }
    rewrite E. apply Rmult_le_compat_r; [lra|].
    apply (power_le _ _ _ 23 10); try lra; try lia; rewrite ?INR_IZR_INZ; cbn -[IZR pow Rdiv]; lra.
Qed.

Definition newtonStep (T0 G : R) : R :=
  let x2 := Rpower 2 (- G) in
  let x3 := Rpower 3 (- G) in
  let xx2 := 1 - x2 in
  let xx3 := 1 - x3 in
  let T := xx3 / xx2 in
  let deriv := (xx2 * x3 * DL3 - xx3 * x2 * DL2) / (xx2 * xx2) in
  G - (T - T0) / deriv.

Lemma step_form h G q x s : x = Rpower 2 (- G) -> Rpower 3 (- G) = x * q -> 0 < x < 1 -> h = s * x ->
  0 < (1 - x * q) * DL2 - (1 - x) * q * DL3 ->
  newtonStep (1 + h) G = G + (1 - x) * ((1 - q) - s * (1 - x)) / ((1 - x * q) * DL2 - (1 - x) * q * DL3).
Proof.
  intros X Y B H D. unfold newtonStep. rewrite Y, <- X, H. clear X Y H. field.
  assert (x * ((1 - x * q) * DL2 - (1 - x) * q * DL3) > 0) by (apply Rmult_lt_0_compat; lra).
  repeat split; lra.
Qed.
(** At most 2.96 the iterate is left of the root. *)
Lemma left_ok G q x : 23 / 10 <= G <= 296 / 100 -> q = Rpower (2 / 3) G -> x = Rpower 2 (- G) -> 1 / 10 * (1 - x) <= x * (1 - q).
Proof.
  intros H Q X.
  assert (E : x = Rpower (1 / 2) G).
  { rewrite X. unfold Rpower. f_equal. replace (1 / 2) with (/ 2) by lra. rewrite ln_Rinv by lra. ring. }
  assert (C : forall m n m' n' v u, INR m / INR n <= G -> G <= INR m' / INR n' -> (0 < n)%nat -> (0 < n')%nat -> 0 <= v <= 1 -> 0 <= u ->
    (2 / 3) ^ m <= v ^ n -> u ^ n' <= (1 / 2) ^ m' -> 1 / 10 * (1 - u) <= u * (1 - v) -> 1 / 10 * (1 - x) <= x * (1 - q)).
  { intros m n m' n' v u A B N N' V U P1 P2 F.
    assert (q <= v) by (rewrite Q; apply (power_le _ _ _ m n); tauto || lra).
    assert (u <= x) by (rewrite E; apply (power_ge _ _ _ m' n'); tauto || lra).
    nra. }
  clear E X Q.
  destruct (Rle_dec G (25 / 10)).
  { apply (C 23%nat 10%nat 25%nat 10%nat (394 / 1000) (176 / 1000)); try lra; try lia; rewrite ?INR_IZR_INZ; cbn -[IZR pow Rdiv]; lra. }
  destruct (Rle_dec G (275 / 100)).
  { apply (C 10%nat 4%nat 11%nat 4%nat (363 / 1000) (148 / 1000)); try lra; try lia; rewrite ?INR_IZR_INZ; cbn -[IZR pow Rdiv]; lra. }
  destruct (Rle_dec G (29 / 10)).
  { apply (C 11%nat 4%nat 29%nat 10%nat (328 / 1000) (1339 / 10000)); try lra; try lia; rewrite ?INR_IZR_INZ; cbn -[IZR pow Rdiv]; lra. }
  apply (C 29%nat 10%nat 74%nat 25%nat (3087 / 10000) (1284 / 10000)); try lra; try lia; rewrite ?INR_IZR_INZ; cbn -[IZR pow Rdiv]; lra.
Qed.

Lemma gain c l w a E D : c = 69314718 / 100000000 -> 69314718055 / 100000000000 < l < 69314718057 / 100000000000 ->
  747 / 1000 <= w < 1 -> 0 < a < 1 -> 37 / 100 <= E -> c * E <= D <= c * E * (1 + 1 / 5000) -> E * E <= w * w * (2 * E - w * a) ->
  D * D <= 1001 / 1000 * (l * (w * w) * (2 * D - l * w * a)).
Proof.
  intros Hc Hl W A E0 DE F.
  assert (E2 : 13 / 100 <= E * E).
  { apply Rle_trans with (37 / 100 * (37 / 100)); [lra|]. apply Rmult_le_compat; lra. }
  set (V := w * w * (2 * E - w * a)) in *.
  assert (WA : 0 <= w * a <= 1).
  { split; [apply Rmult_le_pos; lra|]. replace 1 with (1 * 1) by ring. apply Rmult_le_compat; lra. }
  assert (W2 : 0 < w * w <= 1).
  { split; [apply Rmult_lt_0_compat; lra|]. replace 1 with (1 * 1) by ring. apply Rmult_le_compat; lra. }
  set (r := 2 * E - w * a) in *.
  assert (R0 : 13 / 100 <= r).
  { apply Rnot_lt_le. intros C. assert (V < 13 / 100); [|lra]. unfold V. destruct (Rle_dec r 0) as [N|N].
    - assert (0 <= w * w * - r) by (apply Rmult_le_pos; lra). lra.
    - assert (w * w * r <= 1 * r) by (apply Rmult_le_compat_r; lra). lra. }
  assert (N : c * r - 1 / 1000000000 <= 2 * D - l * w * a).
  { assert (l * w * a <= c * (w * a) + 1 / 1000000000).
    { replace (l * w * a) with (c * (w * a) + (l - c) * (w * a)) by ring. apply Rplus_le_compat_l.
      apply Rle_trans with (1 / 1000000000 * 1); [apply Rmult_le_compat; lra|lra]. }
    unfold r. lra. }
  assert (P : 0 <= c * r - 1 / 1000000000).
  { assert (c * (13 / 100) <= c * r) by (apply Rmult_le_compat_l; lra). lra. }
  assert (U : c * c * (V - 1 / 100000000) <= l * (w * w) * (2 * D - l * w * a)).
  { apply Rle_trans with (c * (w * w) * (c * r - 1 / 1000000000)).
    - unfold V. replace (c * (w * w) * (c * r - 1 / 1000000000)) with (c * c * (w * w * r) - c * (w * w) * (1 / 1000000000)) by ring.
      assert (c * (w * w) <= c * 1) by (apply Rmult_le_compat_l; lra). rewrite Hc in *. lra.
    - apply Rmult_le_compat; [apply Rmult_le_pos; lra|exact P| |exact N]. apply Rmult_le_compat_r; lra. }
  assert (CE : 0 < c * E) by (apply Rmult_lt_0_compat; lra).
  assert (DD : D * D <= c * c * (E * E) * (1 + 1 / 2000)).
  { apply Rle_trans with ((c * E * (1 + 1 / 5000)) * (c * E * (1 + 1 / 5000))).
    - apply Rmult_le_compat; lra.
    - replace (c * E * (1 + 1 / 5000) * (c * E * (1 + 1 / 5000))) with (c * c * (E * E) * ((1 + 1 / 5000) * (1 + 1 / 5000))) by ring.
      apply Rmult_le_compat_l; [|lra]. replace (c * c * (E * E)) with ((c * E) * (c * E)) by ring. apply Rmult_le_pos; lra. }
  eapply Rle_trans; [exact DD|].
  apply Rle_trans with (1001 / 1000 * (c * c * (V - 1 / 100000000))); [|apply Rmult_le_compat_l; [lra|exact U]].
  assert (c * c * (E * E) <= c * c * V) by (apply Rmult_le_compat_l; [apply Rmult_le_pos; lra|exact F]).
  assert (c * c * (13 / 100) <= c * c * V) by (apply Rmult_le_compat_l; [apply Rmult_le_pos; lra|lra]).
  replace (1001 / 1000 * (c * c * (V - 1 / 100000000))) with (1001 / 1000 * (c * c * V) - c * c * (1001 / 1000 / 100000000)) by field.
  rewrite Hc in *. lra.
Qed.

Lemma step_kept h G : 0 < h <= 1 / 10 -> kept h G -> kept h (newtonStep (1 + h) G).
Proof.
  intros Hh [HG HK]. destruct (quotients G HG) as (q & Y & Q & Hq & Hx). set (x := Rpower 2 (- G)) in *.
  assert (X0 : 0 < x) by apply exp_pos. assert (X1 : x <= 253 / 1000) by lra.
  assert (XG : Rpower 2 G * x = 1) by (unfold x; rewrite Rpower_Ropp; apply Rinv_r; apply Rgt_not_eq; apply exp_pos).
  set (s := h * Rpower 2 G) in *. assert (Hs : h = s * x) by (unfold s; rewrite Rmult_assoc, XG; ring).
  assert (S0 : 0 < s) by (apply Rmult_lt_0_compat; [lra|apply exp_pos]).
  set (w := 1 - x). set (a := 1 - q). set (E := a - 585 / 1000 * w * q). set (D := (1 - x * q) * DL2 - (1 - x) * q * DL3).
  assert (W : 747 / 1000 <= w < 1) by (unfold w; lra). assert (A : 606 / 1000 <= a < 1) by (unfold a; lra).
  assert (WQ : 0 <= w * q <= 394 / 1000) by nra.
  assert (E0 : 37 / 100 <= E <= a) by (unfold E; lra).
  assert (DE : DL2 * E <= D <= DL2 * E * (1 + 1 / 5000)).
  { unfold D, E, w, a, DL2, DL3 in *. replace ((1 - x * q) * (69314718 / 100000000) - (1 - x) * q * (10986123 / 10000000))
      with (69314718 / 100000000 * (1 - q) - ((1 - x) * q) * (10986123 / 10000000 - 69314718 / 100000000)) by ring.
    set (z := (1 - x) * q) in *. replace (585 / 1000 * (1 - x) * q) with (585 / 1000 * z) in * by (unfold z; ring). lra. }
  assert (D0 : 0 < D) by (unfold DL2 in DE; lra).
  rewrite (step_form h G q x s eq_refl Y ltac:(lra) Hs D0). fold D w a.
  set (st := w * (a - s * w) / D). split.
  - destruct (Rle_dec G (296 / 100)) as [C|C].
    + assert (L : 0 <= a - s * w).
      { pose proof (left_ok G q x ltac:(lra) Q eq_refl) as L. fold w a in L.
        assert (s * x * w <= x * a) by nra. assert (x * (s * w) <= x * a) by lra.
        apply Rmult_le_reg_l in H0; lra. }
      assert (0 <= st); [|lra]. apply Rmult_le_pos; [apply Rmult_le_pos; lra|left; now apply Rinv_0_lt_compat].
    + assert (Hq' : q <= 3012 / 10000).
      { rewrite Q. apply (power_le _ _ _ 74 25); try lra; try lia; rewrite ?INR_IZR_INZ; cbn -[IZR pow Rdiv]; lra. }
      pose proof (back q x ltac:(lra) Hx) as B. fold w a E in B.
      assert (SB : w * (s * w - a) <= 66 / 100 * D).
      { eapply Rle_trans; [|apply Rmult_le_compat_l; [lra|apply DE]]. eapply Rle_trans; [|unfold DL2; eapply Rle_trans; [exact B|]].
        - apply Rmult_le_compat_l; [lra|]. apply Rplus_le_compat_r. apply Rmult_le_compat_r; lra.
        - rewrite Rmult_assoc. apply Rmult_le_compat_l; [lra|]. apply Rmult_le_compat_r; lra. }
      assert (- (66 / 100) <= st); [|lra]. unfold st. apply (Rmult_le_reg_r D); [exact D0|].
      replace (w * (a - s * w) / D * D) with (w * (a - s * w)) by (field; lra). lra.
  - replace (h * Rpower 2 (G + st)) with (s * exp (st * ln 2)) by (unfold s; rewrite Rpower_plus; unfold Rpower; ring).
    pose proof ln2_bounds as L2. set (l := ln 2) in *. clearbody l.
    set (al := l * w * a / D). set (be := l * w * w / D).
    assert (ST : st * l = al - be * s) by (unfold st, al, be; field; lra).
    assert (BE : 0 < be) by (unfold be; apply Rdiv_lt_0_compat; [repeat apply Rmult_lt_0_compat; lra|exact D0]).
    assert (K : 1 <= 1001 / 1000 * (be * (2 - al))).
    { pose proof (shrink q (x / q) ltac:(lra)) as F. cbv zeta in F. replace (x / q * q) with x in F by (field; lra). fold w a E in F.
      assert (T : 0 <= x / q <= 64 / 100).
      { split; [apply Rmult_le_pos; [lra|left; apply Rinv_0_lt_compat; lra]|]. apply (Rmult_le_reg_r q); [lra|]. unfold Rdiv at 1. rewrite Rmult_assoc, Rinv_l, Rmult_1_r by lra. lra. }
      specialize (F T).
      replace (be * (2 - al)) with (l * (w * w) * (2 * D - l * w * a) / (D * D)) by (unfold al, be; field; lra).
      apply (Rmult_le_reg_r (D * D)); [now apply Rmult_lt_0_compat|]. replace (1001 / 1000 * (l * (w * w) * (2 * D - l * w * a) / (D * D)) * (D * D)) with (1001 / 1000 * (l * (w * w) * (2 * D - l * w * a))) by (field; lra).
      rewrite Rmult_1_l. apply (gain DL2 l w a E D eq_refl L2 W ltac:(lra) (proj1 E0) DE F). }
    rewrite ST. assert (AL : 0 < 2 - al).
    { apply Rnot_le_lt. intros C. assert (0 <= be * - (2 - al)) by (apply Rmult_le_pos; lra). lra. }
    clearbody al be. clear ST.
    replace (al - be * s) with ((1 - be * s) + (al - 1)) by ring. rewrite exp_plus.
    assert (P1 : be * s * exp (1 - be * s) <= 1).
    { pose proof (exp_lower (be * s - 1)) as Z. replace (1 + (be * s - 1)) with (be * s) in Z by ring.
      assert (exp (be * s - 1) * exp (1 - be * s) = 1) by (rewrite <- exp_plus; replace (be * s - 1 + (1 - be * s)) with 0 by ring; apply exp_0).
      pose proof (exp_pos (1 - be * s)). nra. }
    assert (P2 : (2 - al) * exp (al - 1) <= 1).
    { pose proof (exp_lower (1 - al)) as Z.
      assert (exp (1 - al) * exp (al - 1) = 1) by (rewrite <- exp_plus; replace (1 - al + (al - 1)) with 0 by ring; apply exp_0).
      pose proof (exp_pos (al - 1)). nra. }
    pose proof (exp_pos (1 - be * s)). pose proof (exp_pos (al - 1)).
    set (e1 := exp (1 - be * s)) in *. set (e2 := exp (al - 1)) in *. clearbody e1 e2.
    set (g := be * (2 - al)) in *.
    assert (G0 : 0 < g) by (unfold g; now apply Rmult_lt_0_compat).
    assert (Z : g * (s * (e1 * e2)) <= 1).
    { replace (g * (s * (e1 * e2))) with ((be * s * e1) * ((2 - al) * e2)) by (unfold g; ring). replace 1 with (1 * 1) by ring.
      apply Rmult_le_compat; [|apply Rmult_le_pos; lra|exact P1|exact P2].
      apply Rmult_le_pos; [apply Rmult_le_pos|]; lra. }
    assert (Y0 : 0 < s * (e1 * e2)) by (apply Rmult_lt_0_compat; [exact S0|apply Rmult_lt_0_compat; assumption]).
    set (v := s * (e1 * e2)) in *. apply Rnot_lt_le. intros C.
    assert (g * (1001 / 1000) < g * v) by (apply Rmult_lt_compat_l; lra). lra.
Qed.
Lemma newton_kept h n : 0 < h <= 1 / 10 -> forall G, kept h G -> kept h (newton (1 + h) n G).
Proof.
  intros Hh. induction n as [|n IH]; intros G K; [exact K|]. cbn [newton]. pose proof (step_kept h G Hh K) as P.
  unfold newtonStep in P. cbv zeta in *. destruct (Rle_dec _ _); [exact P|]. apply IH. exact P.
Qed.

(** * The starting values *)
Ltac bern4 t a b :=
  let HH := fresh in
  assert (HH : forall i j, 0 <= (t - (a)) ^ i * ((b) - t) ^ j) by (intros; apply Rmult_le_pos; apply pow_le; lra);
  pose proof (HH 0%nat 4%nat); pose proof (HH 1%nat 3%nat); pose proof (HH 2%nat 2%nat); pose proof (HH 3%nat 1%nat); pose proof (HH 4%nat 0%nat);
  clear HH.
Lemma low_den t : - 97 / 100 <= t <= - 8 / 10 -> 1 / 100 <= 1 + t * (B1 + t * (B2 + t * B3)).
Proof. intros H. consts. bern4 t (- 97 / 100) (- 8 / 10). lra. Qed.
Lemma low_start t : - 97 / 100 <= t <= - 8 / 10 -> 23 / 10 <= Gneg t.
Proof.
  intros H. unfold Gneg. pose proof (low_den t H) as D. apply (Rmult_le_reg_r (1 + t * (B1 + t * (B2 + t * B3)))); [lra|].
  unfold Rdiv at 2. rewrite Rmult_assoc, Rinv_l, Rmult_1_r by lra. clear D. consts. bern4 t (- 97 / 100) (- 8 / 10). lra.
Qed.
Lemma piece t k : - 97 / 100 <= t <= - 8 / 10 ->
  let num := A0 + t * (A1 + t * (A2 + t * (A3 + t * A4))) in let den := 1 + t * (B1 + t * (B2 + t * B3)) in
  let r := (1 + t) / 2 * 2 ^ k in
  6931 / 10000 * (num - INR k * den) <= (1 - r) * den -> 6932 / 10000 * (num - INR k * den) <= (1 - r) * den ->
  (1 + t) / 2 * Rpower 2 (Gneg t) <= 1.
Proof.
  intros H num den r P1 P2. pose proof (low_den t H) as D. fold den in D. unfold Gneg. fold num den.
  assert (L : ln 2 * (num / den - INR k) <= 1 - r).
  { apply (Rmult_le_reg_r den); [lra|]. replace (ln 2 * (num / den - INR k) * den) with (ln 2 * (num - INR k * den)) by (field; lra).
    pose proof ln2_bounds. destruct (Rle_dec 0 (num - INR k * den)).
    - eapply Rle_trans; [|exact P2]. apply Rmult_le_compat_r; lra.
    - eapply Rle_trans; [|exact P1]. assert ((ln 2 - 6931 / 10000) * (num - INR k * den) <= 0); [|lra].
      assert (0 <= (ln 2 - 6931 / 10000) * - (num - INR k * den)) by (apply Rmult_le_pos; lra). lra. }
  replace ((1 + t) / 2 * Rpower 2 (num / den)) with (r * exp (ln 2 * (num / den - INR k))).
  2:{ unfold r. rewrite Rmult_assoc. f_equal. rewrite <- Rpower_pow by lra. unfold Rpower. rewrite <- exp_plus. f_equal. ring. }
  assert (R0 : 0 < r) by (unfold r; apply Rmult_lt_0_compat; [lra|apply pow_lt; lra]).
  apply Rle_trans with (r * exp (1 - r)).
  - apply Rmult_le_compat_l; [lra|]. destruct L as [L| ->]; [left; now apply exp_increasing|lra].
  - pose proof (exp_lower (r - 1)). assert (E : exp (r - 1) * exp (1 - r) = 1) by (rewrite <- exp_plus; replace (r - 1 + (1 - r)) with 0 by ring; apply exp_0).
    eapply Rle_trans; [|right; exact E]. apply Rmult_le_compat_r; [left; apply exp_pos|lra].
Qed.
Lemma start_kept t : - 97 / 100 <= t <= - 8 / 10 -> kept ((1 + t) / 2) (Gneg t).
Proof.
  intros H. split; [now apply low_start|].
  apply Rle_trans with 1; [|lra].
  destruct (Rle_dec t (- 957 / 1000)).
  { apply (piece t 6%nat H); consts; rewrite ?INR_IZR_INZ; cbn -[IZR Rdiv]; bern4 t (- 97 / 100) (- 957 / 1000); lra. }
  destruct (Rle_dec t (- 914 / 1000)).
  { apply (piece t 5%nat H); consts; rewrite ?INR_IZR_INZ; cbn -[IZR Rdiv]; bern4 t (- 957 / 1000) (- 914 / 1000); lra. }
  destruct (Rle_dec t (- 828 / 1000)).
  { apply (piece t 4%nat H); consts; rewrite ?INR_IZR_INZ; cbn -[IZR Rdiv]; bern4 t (- 914 / 1000) (- 828 / 1000); lra. }
  apply (piece t 3%nat H); consts; rewrite ?INR_IZR_INZ; cbn -[IZR Rdiv]; bern4 t (- 828 / 1000) (- 8 / 10); lra.
Qed.

(** Every double above -1 is at least [-1 + 2^-53]. *)
Lemma far_kept t : - 1 + / 2 ^ 53 <= t <= - 97 / 100 -> kept ((1 + t) / 2) (1 - ln (1 + t) / DL2).
Proof.
  intros H. pose proof ln2_bounds as L2. assert (P53 : 0 < / 2 ^ 53) by (apply Rinv_0_lt_compat, pow_lt; lra).
  assert (U : ln (1 + t) <= - 5 * ln 2).
  { replace (- 5 * ln 2) with (ln (/ 2 ^ 5)).
    - destruct (Req_dec (1 + t) (/ 2 ^ 5)) as [->|N]; [lra|]. left. apply ln_increasing; [lra|]. assert (E : / 2 ^ 5 = 1 / 32) by lra. rewrite E in *. lra.
    - rewrite ln_Rinv, ln_pow by lra. rewrite INR_IZR_INZ. cbn -[IZR]. ring. }
  assert (L : - 53 * ln 2 <= ln (1 + t)).
  { replace (- 53 * ln 2) with (ln (/ 2 ^ 53)).
    - destruct (Req_dec (1 + t) (/ 2 ^ 53)) as [->|N]; [lra|]. left. apply ln_increasing; [exact P53|]. lra.
    - rewrite ln_Rinv by (apply pow_lt; lra). rewrite ln_pow by lra. rewrite INR_IZR_INZ. cbn -[IZR]. ring. }
  set (u := ln (1 + t)) in *. assert (EU1 : exp u = 1 + t) by (unfold u; apply exp_ln; lra). clearbody u.
  split.
  - assert (13 / 10 <= - u / DL2); [|lra]. unfold DL2. lra.
  - unfold Rpower. rewrite <- EU1. replace (exp u / 2 * exp ((1 - u / DL2) * ln 2)) with (exp (- u * (ln 2 / DL2 - 1))).
    2:{ unfold Rdiv at 2. replace (/ 2) with (exp (- ln 2)) by (rewrite exp_Ropp, exp_ln by lra; reflexivity).
        rewrite <- !exp_plus. f_equal. field. unfold DL2. lra. }
    assert (Z : - u * (ln 2 / DL2 - 1) <= 1 / 2000).
    { apply Rle_trans with (40 * (1 / 100000000)); [|lra]. apply Rmult_le_compat; unfold DL2; lra. }
    set (z := - u * (ln 2 / DL2 - 1)) in *. clearbody z.
    pose proof (exp_lower (- z)) as X. assert (Y : exp (- z) * exp z = 1) by (rewrite <- exp_plus, Rplus_opp_l; apply exp_0).
    pose proof (exp_pos z). assert ((1 - 1 / 2000) * exp z <= exp (- z) * exp z) by (apply Rmult_le_compat_r; lra). lra.
Qed.

Section E.
  Variable gamma : R -> R.
  Hypothesis gamma_pos : forall z, 0 < z -> 0 < gamma z.
  Lemma pelgev_all l1 l2 t3 : 0 < l2 -> - 1 + / 2 ^ 53 <= t3 < 1 ->
    let '(loc, scale, k) := pelgev gamma l1 l2 t3 in
    0 < scale /\ -1 < k /\ (t3 <= 0 -> 0 < k) /\
    (k <> 0 -> loc + scale * (1 - gamma (1 + k)) / k = l1 /\ scale * gamma (1 + k) * (1 - Rpower 2 (- k)) / k = l2) /\
    (k = 0 -> loc + EU * scale = l1 /\ scale * DL2 = l2).
  Proof.
    intros Hl Ht. destruct (Rle_dec (- 8 / 10) t3) as [C|C]; [apply pelgev_ok; auto; lra|].
    assert (P53 : 0 < / 2 ^ 53) by (apply Rinv_0_lt_compat, pow_lt; lra).
    unfold pelgev. destruct (Rle_dec l2 0) as [|_]; [lra|].
    destruct (Rle_dec 1 (Rabs t3)) as [X|_]; [exfalso; rewrite Rabs_left in X; lra|].
    destruct (Rlt_dec 0 t3) as [|_]; [lra|]. cbv zeta. destruct (Rlt_dec t3 (- 8 / 10)) as [_|]; [|lra].
    set (G := if Rle_dec t3 (- 97 / 100) then 1 - ln (1 + t3) / DL2 else Gneg t3).
    assert (K : kept ((1 + t3) / 2) G) by (unfold G; destruct (Rle_dec t3 (- 97 / 100)); [apply far_kept; lra|apply start_kept; lra]).
    replace ((t3 + 3) * (1 / 2)) with (1 + (1 + t3) / 2) by field.
    destruct (newton_kept ((1 + t3) / 2) 20 ltac:(lra) G K) as [KG _].
    set (k := newton (1 + (1 + t3) / 2) 20 G) in *. clearbody k.
    pose proof (estimate_ok gamma gamma_pos l1 l2 k Hl ltac:(lra) ltac:(lra)) as P.
    destruct (estimate gamma l1 l2 k) as [[loc scale] k']. destruct P as (P1 & -> & P3 & P4).
    repeat split; auto; lra.
  Qed.
End E.
