(** The Holland profile: join at the radius of maximum wind, bounds, vorticity, hemispheres, and the
    compiled subroutines; the Jelesnianski and Rankine profiles. *)
From Coq Require Import Reals Lra Psatz.
From Verif Require Import CircleModel CircleProofs FitRProofs DerivTac WindModel WindProofs WindProofs2.
Open Scope R_scope.

(** profiles made by the constructors of the Holland family *)
Definition hstorm (p : prof) : Prop := storm p /\ pvMax p = hollandSpeed (pbeta p) (pdP p).

Lemma vmax_sq p : hstorm p -> pvMax p * pvMax p = A p / exp 1.
Proof.
  intros [S ->]. pose proof (A_pos p S). unfold hollandSpeed.
  replace (pbeta p * pdP p / (exp 1 * rho)) with (A p / exp 1).
  - apply sqrt_sqrt. left. apply ratio_pos; [assumption | apply E_pos].
  - unfold A. field. pose proof E_pos. pose proof rho_pos. lra.
Qed.
Lemma vmax_pos p : hstorm p -> 0 < pvMax p.
Proof.
  intros [S ->]. unfold hollandSpeed. apply sqrt_lt_R0. destruct S as (Hb & Hd & Hr).
  apply ratio_pos; [now apply Rmult_lt_0_compat|]. apply Rmult_lt_0_compat; [apply E_pos | apply rho_pos].
Qed.
Lemma ss_sq' p : hstorm p -> ss p * ss p = pvMax p * pvMax p + (prMax p * pf p) ^ 2 / 4.
Proof. intros H. rewrite ss_sq by apply H. rewrite <- vmax_sq by exact H. field. Qed.
Lemma sq_abs x : x ^ 2 = Rabs x * Rabs x.
Proof. rewrite <- Rabs_mult. rewrite Rabs_right; [ring | apply Rle_ge, Rle_0_sqr]. Qed.

(** ** The value outside at the radius of maximum wind *)
Lemma outer_rMax p : outer p (prMax p) = ss p - prMax p * Rabs (pf p) / 2.
Proof. reflexivity. Qed.
Lemma outer_gap p : hstorm p -> pf p <> 0 -> outer p (prMax p) < pvMax p.
Proof.
  intros H Hf. rewrite outer_rMax. pose proof (ss_pos p (proj1 H)) as P. pose proof (vmax_pos p H) as V.
  pose proof (ss_sq' p H) as Q. rewrite Rpow_mult_distr, (sq_abs (pf p)) in Q.
  pose proof (Rabs_pos_lt _ Hf) as F. destruct H as [(_ & _ & Hm) _].
  assert (Z : 0 < prMax p * Rabs (pf p)) by now apply Rmult_lt_0_compat.
  apply Rnot_le_lt. intros L. nra.
Qed.
Lemma outer_join p : hstorm p -> pf p = 0 -> outer p (prMax p) = pvMax p.
Proof.
  intros H Hf. rewrite outer_rMax, Hf, Rabs_R0.
  pose proof (ss_pos p (proj1 H)) as P. pose proof (vmax_pos p H) as V. pose proof (ss_sq' p H) as Q.
  rewrite Hf in Q. apply Rmult_eq_reg_l with (ss p + pvMax p); nra.
Qed.

Lemma not_cont p d2 : hstorm p -> pf p <> 0 -> ~ continuity_pt (hollandAbs p d2) (prMax p).
Proof.
  intros H Hf C. pose proof (outer_gap p H Hf) as G. pose proof H as [S _]. pose proof S as (_ & _ & Hm).
  assert (CO : continuity_pt (outer p) (prMax p)).
  { apply derivable_continuous_pt. exists (firstDerivative p). now apply outer_first. }
  set (e := (pvMax p - outer p (prMax p)) / 2).
  destruct (cont_eps _ _ C e ltac:(unfold e; lra)) as (d & Hd & HC).
  destruct (cont_eps _ _ CO e ltac:(unfold e; lra)) as (d' & Hd' & HO).
  set (x := prMax p + Rmin d d' / 2).
  assert (Hx : 0 < Rmin d d') by now apply Rmin_pos.
  pose proof (Rmin_l d d') as M1. pose proof (Rmin_r d d') as M2.
  assert (B : Rabs (x - prMax p) = Rmin d d' / 2).
  { unfold x. replace (prMax p + Rmin d d' / 2 - prMax p) with (Rmin d d' / 2) by ring. apply Rabs_right. lra. }
  specialize (HC x ltac:(rewrite B; lra)). specialize (HO x ltac:(rewrite B; lra)).
  unfold hollandAbs in HC. rewrite (proj2 (rle_false x (prMax p))) in HC by (unfold x; lra).
  rewrite (proj2 (rle_true (prMax p) (prMax p))) in HC by lra.
  rewrite core_rMax in HC by lra.
  apply Rabs_def2 in HC. apply Rabs_def2 in HO. unfold e in *. lra.
Qed.

(** ** Bounds *)
Lemma exp_ge_1 x : 1 + x <= exp x.
Proof.
  destruct (Req_dec x 0) as [-> | N]; [rewrite exp_0; lra|]. left. now apply exp_ineq1.
Qed.
Lemma delta_max d : d * exp (- d) <= / exp 1.
Proof.
  pose proof (exp_ge_1 (d - 1)) as H. replace (1 + (d - 1)) with d in H by ring.
  apply Rle_trans with (exp (d - 1) * exp (- d)).
  - apply Rmult_le_compat_r; [left; apply exp_pos | exact H].
  - rewrite <- exp_plus. replace (d - 1 + - d) with (- (1)) by ring. rewrite exp_Ropp. right. reflexivity.
Qed.
Lemma outer_bounds p r : hstorm p -> 0 < r -> 0 <= outer p r <= pvMax p.
Proof.
  intros H Hr. pose proof H as [S _]. pose proof (vmax_pos p H) as V.
  change (outer p r) with (sqrt (gg p r) - r * Rabs (pf p) / 2).
  pose proof (gg_ge p r S) as [G1 G2]. pose proof (gg_pos p r S) as G.
  pose proof (sqrt_lt_R0 _ G) as Q. assert (QQ : sqrt (gg p r) * sqrt (gg p r) = gg p r) by (apply sqrt_sqrt; lra).
  assert (Y : 0 <= r * Rabs (pf p) / 2).
  { pose proof (Rabs_pos (pf p)). apply Rmult_le_pos; [|lra]. apply Rmult_le_pos; lra. }
  assert (YY : (r * pf p / 2) ^ 2 = (r * Rabs (pf p) / 2) * (r * Rabs (pf p) / 2)).
  { replace ((r * pf p / 2) ^ 2) with (r * r * (pf p ^ 2) / 4) by field. rewrite sq_abs. field. }
  assert (U : A p * delta p r * exp (- delta p r) <= pvMax p * pvMax p).
  { rewrite vmax_sq by exact H. rewrite Rmult_assoc. apply Rmult_le_compat_l; [left; now apply A_pos | apply delta_max]. }
  unfold gg in QQ at 3. rewrite YY in QQ.
  split; apply Rnot_lt_le; intros L; nra.
Qed.

Lemma first_neg p : storm p -> pf p <> 0 -> firstDerivative p < 0.
Proof.
  intros S Hf. rewrite first_formula by exact S. pose proof (ss_pos p S) as P. pose proof (ss_sq p S) as Q.
  pose proof (A_pos p S) as HA. assert (HE : 0 < A p / exp 1) by (apply ratio_pos; [exact HA | apply E_pos]).
  pose proof (Rabs_pos_lt _ Hf) as F. destruct S as (_ & _ & Hm).
  rewrite sq_abs. set (g := Rabs (pf p)) in *.
  assert (L : prMax p * g < 2 * ss p).
  { replace ((prMax p * pf p / 2) ^ 2) with (prMax p * prMax p * pf p ^ 2 / 4) in Q by field.
    rewrite sq_abs in Q. fold g in Q. apply Rnot_le_lt. intros L. nra. }
  replace (prMax p * (g * g) / (4 * ss p)) with (g / 2 * (prMax p * g / (2 * ss p))) by (field; lra).
  assert (prMax p * g / (2 * ss p) < 1).
  { apply Rmult_lt_reg_r with (2 * ss p); [lra|].
    replace (prMax p * g / (2 * ss p) * (2 * ss p)) with (prMax p * g) by (field; lra). lra. }
  nra.
Qed.
Lemma first_le p : storm p -> firstDerivative p <= 0.
Proof.
  intros S. destruct (Req_dec (pf p) 0) as [E | N]; [|left; now apply first_neg].
  rewrite first_formula by exact S. rewrite E, Rabs_R0. pose proof (ss_pos p S). right. field. lra.
Qed.

(** just inside, the core exceeds the maximum wind *)
Lemma core_exceeds p d2 : storm p -> pf p <> 0 ->
  exists r, 0 < r < prMax p /\ pvMax p < core d2 (firstDerivative p) (pvMax p) (prMax p) r.
Proof.
  intros S Hf. pose proof (first_neg p S Hf) as N. pose proof S as (_ & _ & Hm).
  pose proof (core_deriv d2 (firstDerivative p) (pvMax p) (prMax p) (prMax p)) as D.
  rewrite coreD1_rMax in D.
  destruct (D (- firstDerivative p) ltac:(lra)) as [d Hd].
  pose proof (cond_pos d) as Pd.
  set (h := - Rmin (d / 2) (prMax p / 2)).
  assert (P : 0 < Rmin (d / 2) (prMax p / 2)) by (apply Rmin_pos; lra).
  pose proof (Rmin_l (d / 2) (prMax p / 2)) as M1. pose proof (Rmin_r (d / 2) (prMax p / 2)) as M2.
  assert (AB : Rabs h < d) by (unfold h; rewrite Rabs_Ropp, Rabs_right; lra).
  specialize (Hd h ltac:(unfold h; lra) AB).
  rewrite core_rMax in Hd by lra. apply Rabs_def2 in Hd as [Hd _].
  exists (prMax p + h). split; [unfold h; lra|].
  set (v := core _ _ _ _ _) in *.
  assert (Q : (v - pvMax p) / h < 0) by lra.
  assert (hneg : h < 0) by (unfold h; lra).
  assert (W : v - pvMax p = (v - pvMax p) / h * h) by (field; lra).
  assert (0 < v - pvMax p) by (rewrite W; nra). lra.
Qed.

(** ** The second derivative *)
Lemma second_short p : hstorm p ->
  rawSecond p * prMax p ^ 2 =
  pvMax p ^ 2 * (- 2 * pbeta p ^ 2 * ss p ^ 2 + (prMax p * pf p) ^ 2) / (4 * ss p ^ 3).
Proof.
  intros H. rewrite second_formula by apply H. pose proof (ss_pos p (proj1 H)) as P.
  pose proof (ss_sq' p H) as Q. pose proof (vmax_sq p H) as V. pose proof E_pos as HE.
  destruct H as [(Hb & Hd & Hm) _].
  assert (F : (prMax p * pf p) ^ 2 = 4 * (ss p * ss p) - 4 * (pvMax p * pvMax p)) by lra.
  replace ((- A p * pbeta p ^ 2 / exp 1 / prMax p ^ 2 + pf p ^ 2 / 2) / (2 * ss p) -
           (prMax p * pf p ^ 2 / 2) ^ 2 / (4 * ss p ^ 3))
    with ((- (A p / exp 1) * pbeta p ^ 2 / prMax p ^ 2 + pf p ^ 2 / 2) / (2 * ss p) -
           (prMax p * pf p ^ 2 / 2) ^ 2 / (4 * ss p ^ 3)) by (field; lra).
  rewrite <- V.
  transitivity ((- 8 * pvMax p ^ 2 * pbeta p ^ 2 * ss p ^ 2 + 4 * (prMax p * pf p) ^ 2 * ss p ^ 2 -
                 ((prMax p * pf p) ^ 2) ^ 2) / (16 * ss p ^ 3)).
  { field. lra. }
  rewrite F. field. lra.
Qed.
Lemma second_sign p : hstorm p ->
  (rawSecond p < 0 <-> (2 - pbeta p ^ 2) * (prMax p * pf p) ^ 2 < 4 * pbeta p ^ 2 * pvMax p ^ 2) /\
  (0 < rawSecond p <-> 4 * pbeta p ^ 2 * pvMax p ^ 2 < (2 - pbeta p ^ 2) * (prMax p * pf p) ^ 2).
Proof.
  intros H. pose proof (second_short p H) as E. pose proof (ss_pos p (proj1 H)) as P.
  pose proof (ss_sq' p H) as Q. pose proof (vmax_pos p H) as V. destruct H as [(Hb & Hd & Hm) _].
  assert (K : 2 * (- 2 * pbeta p ^ 2 * ss p ^ 2 + (prMax p * pf p) ^ 2) =
              (2 - pbeta p ^ 2) * (prMax p * pf p) ^ 2 - 4 * pbeta p ^ 2 * pvMax p ^ 2).
  { replace (ss p ^ 2) with (ss p * ss p) by ring. rewrite Q. field. }
  set (X := - 2 * pbeta p ^ 2 * ss p ^ 2 + (prMax p * pf p) ^ 2) in *.
  assert (m2 : 0 < prMax p ^ 2) by (apply pow_lt; lra).
  set (c := pvMax p ^ 2 / (4 * ss p ^ 3)).
  assert (hc : 0 < c).
  { unfold c. apply ratio_pos; [apply pow_lt; lra|]. apply Rmult_lt_0_compat; [lra | apply pow_lt; lra]. }
  assert (E' : rawSecond p * prMax p ^ 2 = c * X) by (rewrite E; unfold c; field; lra).
  set (w := rawSecond p) in *. set (m := prMax p ^ 2) in *.
  repeat split; intros L.
  - assert (X < 0); [|lra]. apply Rnot_le_lt; intros N. assert (0 <= c * X) by (apply Rmult_le_pos; lra). nra.
  - assert (X < 0) by lra. assert (c * X < 0) by nra. apply Rnot_le_lt; intros N.
    assert (0 <= w * m) by (apply Rmult_le_pos; lra). lra.
  - assert (0 < X); [|lra]. apply Rnot_le_lt; intros N. assert (0 < w * m) by (apply Rmult_lt_0_compat; lra). nra.
  - assert (0 < X) by lra. assert (0 < c * X) by (apply Rmult_lt_0_compat; lra). apply Rnot_le_lt; intros N. nra.
Qed.

Lemma second_none p : hstorm p -> 1 / 2 <= pdP p ->
  (secondDerivative p = None <-> 4 * pbeta p ^ 2 * pvMax p ^ 2 <= (2 - pbeta p ^ 2) * (prMax p * pf p) ^ 2) /\
  (forall d2, secondDerivative p = Some d2 -> d2 = rawSecond p /\ d2 < 0).
Proof.
  intros H Hd. pose proof (second_sign p H) as [[S1 S2] _].
  unfold secondDerivative. cbv zeta.
  assert (E : rlt (Rabs (pdP p)) (1 / 2) = false) by (apply rlt_false; rewrite Rabs_right; lra).
  rewrite E, Bool.andb_false_r. destruct (rlt (rawSecond p) 0) eqn:F.
  - apply rlt_true in F. split; [split; [discriminate | intros L; specialize (S1 F); lra]|].
    intros d2 [= <-]. auto.
  - apply rlt_false in F. split; [|discriminate]. split; [intros _|reflexivity].
    apply Rnot_lt_le. intros L. specialize (S2 L). lra.
Qed.

(** ** The core turns with the storm *)
Lemma core_form d2 d1 v m r : m <> 0 ->
  core d2 d1 v m r = r / m * (v * (1 + (1 - r / m) + (1 - r / m) ^ 2) - d1 * m * ((1 - r / m) + (1 - r / m) ^ 2)
                              + d2 * m ^ 2 * (1 - r / m) ^ 2 / 2).
Proof. intros H. unfold core, cc, bb, aa. field. exact H. Qed.

Lemma second_lower p : hstorm p -> - (pbeta p ^ 2 / 2) * pvMax p <= rawSecond p * prMax p ^ 2.
Proof.
  intros H. rewrite second_short by exact H. pose proof (ss_pos p (proj1 H)) as P.
  pose proof (ss_sq' p H) as Q. pose proof (vmax_pos p H) as V.
  pose proof (pow2_ge_0 (prMax p * pf p)) as F. set (X := (prMax p * pf p) ^ 2) in *.
  assert (L : pvMax p <= ss p) by (apply Rnot_lt_le; intros L; nra).
  pose proof (pow2_ge_0 (pbeta p)) as B. set (b2 := pbeta p ^ 2) in *.
  apply Rle_trans with (- b2 / 2 * (pvMax p ^ 2 / ss p)).
  - assert (pvMax p ^ 2 / ss p <= pvMax p).
    { apply Rmult_le_reg_r with (ss p); [exact P|]. unfold Rdiv. rewrite Rmult_assoc, Rinv_l by lra. nra. }
    nra.
  - assert (0 <= pvMax p ^ 2 * X / (4 * ss p ^ 3)).
    { apply Rmult_le_pos; [apply Rmult_le_pos; [apply pow2_ge_0 | exact F]|].
      left. apply Rinv_0_lt_compat. apply Rmult_lt_0_compat; [lra | apply pow_lt; exact P]. }
    replace (pvMax p ^ 2 * (-2 * b2 * ss p ^ 2 + X) / (4 * ss p ^ 3))
      with (- b2 / 2 * (pvMax p ^ 2 / ss p) + pvMax p ^ 2 * X / (4 * ss p ^ 3)) by (field; lra).
    lra.
Qed.

Lemma core_nonneg d2 d1 v m r : 0 < m -> 0 < v -> d1 <= 0 -> - 6 * v <= d2 * m ^ 2 -> 0 <= r <= m ->
  0 <= core d2 d1 v m r.
Proof.
  intros Hm Hv H1 H2 [Hr0 Hr]. rewrite core_form by lra.
  assert (T : 0 <= r / m <= 1).
  { split; [apply Rmult_le_pos; [exact Hr0 | left; now apply Rinv_0_lt_compat]|].
    apply Rmult_le_reg_r with m; [exact Hm|]. unfold Rdiv. rewrite Rmult_assoc, Rinv_l; lra. }
  set (u := 1 - r / m) in *. assert (U : 0 <= u <= 1) by (unfold u; lra).
  apply Rmult_le_pos; [apply T|]. clear T.
  set (d := d2 * m ^ 2) in *. clearbody d u.
  pose proof (pow2_ge_0 u) as UU.
  assert (K1 : 0 <= - (d1 * m) * (u + u ^ 2)) by (apply Rmult_le_pos; [nra | lra]).
  assert (K2 : - 6 * v * u ^ 2 <= d * u ^ 2) by (apply Rmult_le_compat_r; lra).
  assert (K3 : 0 <= v * ((1 - u) * (1 + 2 * u))) by (apply Rmult_le_pos; [lra | apply Rmult_le_pos; lra]).
  replace (v * ((1 - u) * (1 + 2 * u))) with (v * (1 + u + u ^ 2) + -6 * v * u ^ 2 / 2) in K3 by field.
  lra.
Qed.

Lemma holland_cyclonic p d2 r : hstorm p -> 1 / 2 <= pdP p -> pbeta p ^ 2 <= 12 -> 0 < r ->
  secondDerivative p = Some d2 -> 0 <= hollandAbs p d2 r.
Proof.
  intros H Hd Hb Hr S. destruct (proj2 (second_none p H Hd) d2 S) as [-> _].
  unfold hollandAbs. destruct (rle r (prMax p)) eqn:E; [|apply outer_bounds; assumption].
  apply rle_true in E. pose proof (second_lower p H) as L. pose proof (vmax_pos p H) as V.
  apply core_nonneg; [apply H | exact V | apply first_le, H | | lra]. nra.
Qed.

(** ** Vorticity *)
Lemma core_vort d2 d1 v m r : r <> 0 -> coreVort d2 d1 v m r = coreD1 d2 d1 v m r + core d2 d1 v m r / r.
Proof. intros H. unfold coreVort, coreD1, core. field. exact H. Qed.
Lemma outer_vort p r : storm p -> 0 < r -> outerVort p r = outerD1 p r + outer p r / r + 2 * Rabs (pf p).
Proof.
  intros S Hr. pose proof (gg_pos p r S) as G. pose proof (sqrt_lt_R0 _ G) as Q.
  unfold outerVort, outerD1, outer. cbv zeta.
  replace (pbeta p * pdP p * delta p r * exp (- delta p r) / rho + (r * pf p / 2) ^ 2) with (gg p r)
    by (unfold gg, A; field; apply Rgt_not_eq, rho_pos).
  replace (pdP p * pbeta p / rho * delta p r * exp (- delta p r) + (r * pf p / 2) ^ 2) with (gg p r)
    by (unfold gg, A; reflexivity).
  unfold A. set (s := sqrt (gg p r)) in *. pose proof rho_pos. field. lra.
Qed.
