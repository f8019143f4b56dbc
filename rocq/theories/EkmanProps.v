(** Kepert's surface wind is the bottom of the linear boundary layer it is derived from. *)
From Coq Require Import Reals Lra Psatz.
From Verif Require Import CircleModel CircleProofs DerivTac WindModel WindProofs WindProofs4 WindProofs5 WindProofs7.
Open Scope R_scope.

(** ** The boundary layer, Kepert 2001
    Departures [u] (outward) and [v] (anticlockwise) from the gradient wind [V], by direction and height, seen from the storm:
    carried around the storm, turned by the inertia of the gradient flow, mixed vertically with diffusivity 50; at the ground the
    stress is that of the drag law with coefficient 0.002, linearised, on the wind seen from the earth, which includes the
    motion [T] towards [th]; far above the ground the wind is the gradient wind. *)
Definition layer (f V Z r T th : R) (u v : R -> R -> R) : Prop :=
  exists uz vz : R -> R -> R,
  (forall l z, derivable_pt_lim (u l) z (uz l z) /\ derivable_pt_lim (v l) z (vz l z)) /\
  (forall l z, exists uzz vzz ul vl,
     derivable_pt_lim (uz l) z uzz /\ derivable_pt_lim (vz l) z vzz /\
     derivable_pt_lim (fun l => u l z) l ul /\ derivable_pt_lim (fun l => v l z) l vl /\
     V / r * ul - (2 * V / r + f) * v l z = 50 * uzz /\ V / r * vl + (f + Z) * u l z = 50 * vzz) /\
  (forall l, 50 * uz l 0 = 2 / 1000 * Rabs V * (u l 0 + T * cos (l - th)) /\
             50 * vz l 0 = 2 / 1000 * Rabs V * (V + 2 * (v l 0 - T * sin (l - th)))) /\
  exists k M, 0 < k /\ forall l z, 0 <= z -> Rabs (u l z) <= M * exp (- k * z) /\ Rabs (v l z) <= M * exp (- k * z).

(** ** Waves *)
Definition wave (k m s P Q l z : R) : R := exp (- k * z) * (P * cos (m * l + s * k * z) + Q * sin (m * l + s * k * z)).
Lemma wave_z k m s P Q l z : derivable_pt_lim (wave k m s P Q l) z (wave k m s (k * (s * Q - P)) (- k * (s * P + Q)) l z).
Proof.
  unfold wave.
  assert (E : derivable_pt_lim (fun z => exp (- k * z)) z (exp (- k * z) * - k)).
  { replace (exp (- k * z) * - k) with (exp (- k * z) * (- k * 1)) by ring.
    apply (derivable_pt_lim_comp (fun z => - k * z) exp); [apply derivable_pt_lim_scal, derivable_pt_lim_id|apply derivable_pt_lim_exp]. }
  assert (A : derivable_pt_lim (fun z => m * l + s * k * z) z (0 + s * k * 1)).
  { apply (derivable_pt_lim_plus (fun _ => m * l) (fun z => s * k * z)); [apply derivable_pt_lim_const|apply derivable_pt_lim_scal, derivable_pt_lim_id]. }
  pose proof (derivable_pt_lim_comp _ cos z _ _ A (derivable_pt_lim_cos _)) as Dc.
  pose proof (derivable_pt_lim_comp _ sin z _ _ A (derivable_pt_lim_sin _)) as Ds.
  pose proof (derivable_pt_lim_plus _ _ z _ _ (derivable_pt_lim_scal _ P z _ Dc) (derivable_pt_lim_scal _ Q z _ Ds)) as Dp.
  pose proof (derivable_pt_lim_mult _ _ z _ _ E Dp) as D.
  eapply D_eq; [exact D|]. unfold plus_fct, mult_real_fct, comp. ring.
Qed.
Lemma wave_l k m s P Q l z : derivable_pt_lim (fun l => wave k m s P Q l z) l (wave k m s (m * Q) (- m * P) l z).
Proof.
  unfold wave.
  assert (A : derivable_pt_lim (fun l => m * l + s * k * z) l (m * 1 + 0)).
  { apply (derivable_pt_lim_plus (fun l => m * l) (fun _ => s * k * z)); [apply derivable_pt_lim_scal, derivable_pt_lim_id|apply derivable_pt_lim_const]. }
  pose proof (derivable_pt_lim_comp _ cos l _ _ A (derivable_pt_lim_cos _)) as Dc.
  pose proof (derivable_pt_lim_comp _ sin l _ _ A (derivable_pt_lim_sin _)) as Ds.
  pose proof (derivable_pt_lim_plus _ _ l _ _ (derivable_pt_lim_scal _ P l _ Dc) (derivable_pt_lim_scal _ Q l _ Ds)) as Dp.
  pose proof (derivable_pt_lim_scal _ (exp (- k * z)) l _ Dp) as D.
  eapply D_eq; [exact D|]. unfold plus_fct, mult_real_fct, comp. ring.
Qed.
Lemma wave_bound k m s P Q l z : Rabs (wave k m s P Q l z) <= (Rabs P + Rabs Q) * exp (- k * z).
Proof.
  unfold wave. pose proof (exp_pos (- k * z)) as E. rewrite Rabs_mult, (Rabs_right (exp _)) by lra.
  rewrite Rmult_comm. apply Rmult_le_compat_r; [lra|]. eapply Rle_trans; [apply Rabs_triang|]. rewrite !Rabs_mult.
  assert (Rabs (cos (m * l + s * k * z)) <= 1) by (apply Rabs_le; apply COS_bound).
  assert (Rabs (sin (m * l + s * k * z)) <= 1) by (apply Rabs_le; apply SIN_bound).
  pose proof (Rabs_pos P). pose proof (Rabs_pos Q). nra.
Qed.
Lemma wave_0 k m s P Q l : wave k m s P Q l 0 = P * cos (m * l) + Q * sin (m * l).
Proof. unfold wave. rewrite !Rmult_0_r, exp_0, Rplus_0_r. ring. Qed.
Lemma wave_lin k m s P Q l z a b P' Q' : a * wave k m s P Q l z + b * wave k m s P' Q' l z = wave k m s (a * P + b * P') (a * Q + b * Q') l z.
Proof. unfold wave. ring. Qed.
Lemma D_scal c f x a : derivable_pt_lim f x a -> derivable_pt_lim (fun y => c * f y) x (c * a).
Proof. apply derivable_pt_lim_scal. Qed.
Lemma D_shift f x th a : derivable_pt_lim f (x - th) a -> derivable_pt_lim (fun y => f (y - th)) x a.
Proof.
  intros H. eapply D_eq; [apply (derivable_pt_lim_comp (fun y => y - th) f x 1 a); [|exact H]|ring].
  eapply D_eq; [apply (D_minus (fun y => y) (fun _ => th)); [apply D_id|apply D_const]|ring].
Qed.
Lemma sqrt_ratio al be : 0 < al -> 0 < be -> be * sqrt (al / be) = sqrt (al * be) /\ sqrt (al / be) * sqrt (al * be) = al.
Proof.
  intros A B. assert (0 < al / be) by now apply Rdiv_lt_0_compat. split.
  - replace (al * be) with (be ^ 2 * (al / be)) by (field; lra). rewrite sqrt_mult by (try apply pow2_ge_0; lra). rewrite sqrt_pow2 by lra. reflexivity.
  - rewrite <- sqrt_mult by nra. replace (al / be * (al * be)) with (al ^ 2) by (field; lra). apply sqrt_pow2; lra.
Qed.

(** Three waves: without dependence on direction, and once around in either sense. *)
Definition lu (ra k0 k1 k2 s2 P0 Q0 P1 Q1 P2 Q2 th l z : R) : R :=
  ra * (wave k0 0 1 P0 Q0 (l - th) z + wave k1 1 (- 1) P1 Q1 (l - th) z + wave k2 1 s2 P2 Q2 (l - th) z).
Definition lv (k0 k1 k2 s2 P0 Q0 P1 Q1 P2 Q2 th l z : R) : R :=
  1 * (wave k0 0 1 Q0 (- P0) (l - th) z + wave k1 1 (- 1) (- Q1) P1 (l - th) z + wave k2 1 s2 Q2 (- P2) (l - th) z).
Lemma three_z ra k0 k1 k2 s1 s2 a0 b0 a1 b1 a2 b2 l z :
  derivable_pt_lim (fun z => ra * (wave k0 0 1 a0 b0 l z + wave k1 1 s1 a1 b1 l z + wave k2 1 s2 a2 b2 l z)) z
    (ra * (wave k0 0 1 (k0 * (1 * b0 - a0)) (- k0 * (1 * a0 + b0)) l z + wave k1 1 s1 (k1 * (s1 * b1 - a1)) (- k1 * (s1 * a1 + b1)) l z +
          wave k2 1 s2 (k2 * (s2 * b2 - a2)) (- k2 * (s2 * a2 + b2)) l z)).
Proof. apply D_scal. apply D_plus; [apply D_plus|]; apply wave_z. Qed.
Lemma three_l ra k0 k1 k2 s1 s2 a0 b0 a1 b1 a2 b2 th l z :
  derivable_pt_lim (fun l => ra * (wave k0 0 1 a0 b0 (l - th) z + wave k1 1 s1 a1 b1 (l - th) z + wave k2 1 s2 a2 b2 (l - th) z)) l
    (ra * (wave k0 0 1 (0 * b0) (- 0 * a0) (l - th) z + wave k1 1 s1 (1 * b1) (- 1 * a1) (l - th) z + wave k2 1 s2 (1 * b2) (- 1 * a2) (l - th) z)).
Proof. apply D_scal. apply D_plus; [apply D_plus|]; apply (D_shift (fun l => wave _ _ _ _ _ l z)); apply wave_l. Qed.
Lemma three_bound ra k0 k1 k2 s1 s2 a0 b0 a1 b1 a2 b2 : 0 < k0 -> 0 < k1 -> 0 < k2 -> forall l z, 0 <= z ->
  Rabs (ra * (wave k0 0 1 a0 b0 l z + wave k1 1 s1 a1 b1 l z + wave k2 1 s2 a2 b2 l z)) <=
  Rabs ra * (Rabs a0 + Rabs b0 + Rabs a1 + Rabs b1 + Rabs a2 + Rabs b2) * exp (- Rmin k0 (Rmin k1 k2) * z).
Proof.
  intros H0 H1 H2 l z Hz. rewrite Rabs_mult, Rmult_assoc. apply Rmult_le_compat_l; [apply Rabs_pos|].
  set (k := Rmin k0 (Rmin k1 k2)). assert (K : k <= k0 /\ k <= k1 /\ k <= k2).
  { unfold k. pose proof (Rmin_l k0 (Rmin k1 k2)). pose proof (Rmin_r k0 (Rmin k1 k2)). pose proof (Rmin_l k1 k2). pose proof (Rmin_r k1 k2). lra. }
  clearbody k. destruct K as (K0 & K1 & K2).
  assert (M : forall q, k <= q -> exp (- q * z) <= exp (- k * z)).
  { intros q Q. destruct (Rle_lt_or_eq_dec (- q * z) (- k * z)) as [L|L]; [nra|left; now apply exp_increasing|rewrite L; lra]. }
  eapply Rle_trans; [apply Rabs_triang|]. eapply Rle_trans; [apply Rplus_le_compat_r, Rabs_triang|].
  pose proof (wave_bound k0 0 1 a0 b0 l z) as W0. pose proof (wave_bound k1 1 s1 a1 b1 l z) as W1. pose proof (wave_bound k2 1 s2 a2 b2 l z) as W2.
  pose proof (M k0 K0) as E0. pose proof (M k1 K1) as E1. pose proof (M k2 K2) as E2.
  assert (X : forall a b q, q <= exp (- k * z) -> (Rabs a + Rabs b) * q <= (Rabs a + Rabs b) * exp (- k * z)).
  { intros a b q Hq. apply Rmult_le_compat_l; [pose proof (Rabs_pos a); pose proof (Rabs_pos b); lra|exact Hq]. }
  pose proof (X a0 b0 _ E0). pose proof (X a1 b1 _ E1). pose proof (X a2 b2 _ E2). lra.
Qed.
(** The waves satisfy the equations above the ground. *)
Lemma layer_waves f V Z r T th k0 k1 k2 s2 P0 Q0 P1 Q1 P2 Q2 :
  let al := (2 * V / r + f) / 100 in let be := (f + Z) / 100 in let gam := V / (100 * r) in
  let ra := sqrt (al / be) in
  0 < V -> 0 < r -> 0 < al -> 0 < be -> 0 < k0 -> 0 < k1 -> 0 < k2 ->
  k0 ^ 2 = sqrt (al * be) -> k1 ^ 2 = sqrt (al * be) + gam -> s2 * k2 ^ 2 = sqrt (al * be) - gam -> s2 ^ 2 = 1 ->
  (k0 * (Q0 - P0) = V / 25000 * P0 /\ - k0 * (P0 + Q0) = V / 25000 * (V + 2 * Q0)) ->
  (ra * (k1 * (- Q1 - P1) + k2 * (s2 * Q2 - P2)) = V / 25000 * (ra * (P1 + P2) + T) /\
   - (k1 * (Q1 - P1) + k2 * (s2 * P2 + Q2)) = V / 25000 * (Q1 + Q2) /\
   k1 * (Q1 - P1) - k2 * (s2 * P2 + Q2) = 2 * (V / 25000) * (Q2 - Q1) /\
   - k1 * (P1 + Q1) - k2 * (s2 * Q2 - P2) = 2 * (V / 25000) * (P1 - P2 - T)) ->
  layer f V Z r T th (lu ra k0 k1 k2 s2 P0 Q0 P1 Q1 P2 Q2 th) (lv k0 k1 k2 s2 P0 Q0 P1 Q1 P2 Q2 th).
Proof.
  intros al be gam ra HV Hr Ha Hb H0 H1 H2 E0 E1 E2 S2 (B1 & B2) (C1 & C2 & C3 & C4).
  destruct (sqrt_ratio al be Ha Hb) as [X1 X2]. fold ra in X1, X2. set (q := sqrt (al * be)) in *.
  assert (Fa : 2 * V / r + f = 100 * al) by (unfold al; field; lra).
  assert (Fb : f + Z = 100 * be) by (unfold be; field).
  assert (Fg : V / r = 100 * gam) by (unfold gam; field; lra).
  clearbody al be gam ra q.
  eexists (fun l z => _), (fun l z => _). split; [|split; [|split]].
  - intros l z. split; apply three_z.
  - intros l z. do 4 eexists. split; [apply three_z|]. split; [apply three_z|]. split; [apply three_l|]. split; [apply three_l|].
    rewrite Fa, Fb, Fg. unfold lu, lv, wave.
    set (x := l - th). set (c0 := cos (0 * x + 1 * k0 * z)). set (d0 := sin (0 * x + 1 * k0 * z)). set (c1 := cos (1 * x + -1 * k1 * z)). set (d1 := sin (1 * x + -1 * k1 * z)).
    set (c2 := cos (1 * x + s2 * k2 * z)). set (d2 := sin (1 * x + s2 * k2 * z)).
    set (e0 := exp (- k0 * z)). set (e1 := exp (- k1 * z)). set (e2 := exp (- k2 * z)). clearbody c0 d0 c1 d1 c2 d2 e0 e1 e2.
    assert (A2 : al = ra * q) by lra. clear X2.
    assert (S : s2 = 1 \/ s2 = - 1) by (assert ((s2 - 1) * (s2 + 1) = 0) as Y by lra; apply Rmult_integral in Y; destruct Y; lra).
    rewrite A2. assert (Fq : gam = k1 ^ 2 - q) by lra. rewrite Fq in *.
    assert (W : be * ra = k0 ^ 2) by lra.
    destruct S as [-> | ->].
    + assert (W2 : k2 ^ 2 = 2 * q - k1 ^ 2) by lra. split; ring [E0 W W2].
    + assert (W2 : k2 ^ 2 = k1 ^ 2 - 2 * q) by lra. split; ring [E0 W W2].
  - intros l. rewrite (Rabs_right V) by lra. unfold lu, lv. rewrite !wave_0, Rmult_0_l, cos_0, sin_0, !Rmult_1_l. set (c := cos (l - th)). set (d := sin (l - th)). clearbody c d.
    split.
    + transitivity (50 * (ra * (k0 * (Q0 - P0)) + ra * (k1 * (- Q1 - P1) + k2 * (s2 * Q2 - P2)) * c + ra * - (k1 * (Q1 - P1) + k2 * (s2 * P2 + Q2)) * d)); [ring|].
      rewrite B1, C1, C2. field.
    + transitivity (50 * (- k0 * (P0 + Q0) + (k1 * (Q1 - P1) - k2 * (s2 * P2 + Q2)) * c + (- k1 * (P1 + Q1) - k2 * (s2 * Q2 - P2)) * d)); [ring|].
      rewrite B2, C3, C4. field.
  - set (M := Rmax (Rabs ra * (Rabs P0 + Rabs Q0 + Rabs P1 + Rabs Q1 + Rabs P2 + Rabs Q2)) (Rabs 1 * (Rabs Q0 + Rabs (- P0) + Rabs (- Q1) + Rabs P1 + Rabs Q2 + Rabs (- P2)))).
    exists (Rmin k0 (Rmin k1 k2)), M. split; [repeat apply Rmin_pos; assumption|]. intros l z Hz.
    split; (eapply Rle_trans; [apply three_bound; assumption|]); apply Rmult_le_compat_r; try (left; apply exp_pos); [apply Rmax_l|apply Rmax_r].
Qed.

(** ** The amplitudes *)
Lemma amp_0 chi V : 0 <= chi -> let A := cscale (- 1 / (2 * chi ^ 2 + 3 * chi + 2)) (cscale (chi * V) (C 1 (1 + chi))) in
  im A - re A = chi * re A /\ - (re A + im A) = chi * (V + 2 * im A).
Proof.
  intros H A. unfold A, cscale, C. cbn [re im]. assert (2 * chi ^ 2 + 3 * chi + 2 <> 0) by nra. split; field; assumption.
Qed.
Definition ampMinus (low : bool) (psi eta Vt albe : R) : cplx :=
  let nAm := cscale (- psi * Vt) (cadd (C (1 + 2 * albe) 0) (cscale ((1 + albe) * eta) (C 1 1))) in
  if low then cdiv nAm (cscale albe (C (2 + 3 * (eta + psi) + 2 * (eta * psi)) (- 2 + 2 * (eta * psi))))
  else cdiv nAm (cscale albe (C (2 * (1 + eta * psi) + 3 * psi) (2 * (1 + eta * psi) + 3 * eta))).
Definition ampPlus (low : bool) (psi eta Vt albe : R) : cplx :=
  if low then cdiv (cscale (- eta * Vt) (cadd (C (1 - 2 * albe) 0) (cscale ((1 - albe) * psi) (C 1 (- 1)))))
                   (cscale albe (C (2 + 3 * (eta + psi) + 2 * (eta * psi)) (2 - 2 * (eta * psi))))
  else cdiv (cscale (- eta * Vt) (cadd (C (1 - 2 * albe) 0) (cscale ((1 - albe) * psi) (C 1 1))))
            (cscale albe (C (2 * (1 + eta * psi) + 3 * eta) (2 * (1 + eta * psi) + 3 * psi))).
Lemma scaled_ne a x y : 0 < a -> 0 < x ^ 2 + y ^ 2 \/ 0 < x ^ 2 + (- y) ^ 2 -> (a * x) ^ 2 + (a * y) ^ 2 <> 0.
Proof.
  intros A H. replace ((a * x) ^ 2 + (a * y) ^ 2) with (a ^ 2 * (x ^ 2 + y ^ 2)) by ring.
  assert (0 < a ^ 2) by now apply pow_lt. assert (0 < x ^ 2 + y ^ 2) by lra. apply Rgt_not_eq. now apply Rmult_lt_0_compat.
Qed.
(** the conditions at the ground, with the vertical wave numbers in units of the drag *)
Lemma amp_1 (low : bool) psi eta Vt a : 0 < psi -> 0 < eta -> 0 < a ->
  let s2 := if low then - 1 else 1 in
  let P1 := re (ampPlus low psi eta Vt a) in let Q1 := - im (ampPlus low psi eta Vt a) in
  let P2 := re (ampMinus low psi eta Vt a) in let Q2 := im (ampMinus low psi eta Vt a) in
  a * (/ eta * (- Q1 - P1) + / psi * (s2 * Q2 - P2)) = a * (P1 + P2) + Vt /\
  - (/ eta * (Q1 - P1) + / psi * (s2 * P2 + Q2)) = Q1 + Q2 /\
  / eta * (Q1 - P1) - / psi * (s2 * P2 + Q2) = 2 * (Q2 - Q1) /\
  - / eta * (P1 + Q1) - / psi * (s2 * Q2 - P2) = 2 * (P1 - P2 - Vt).
Proof.
  intros Hp He Ha s2 P1 Q1 P2 Q2. assert (Hq : 0 < eta * psi) by now apply Rmult_lt_0_compat.
  unfold P1, Q1, P2, Q2, s2, ampPlus, ampMinus, cdiv, cscale, cadd, C. destruct low; cbn [re im].
  - assert (D : 0 < (2 + 3 * (eta + psi) + 2 * (eta * psi)) ^ 2 + (2 - 2 * (eta * psi)) ^ 2).
    { pose proof (pow2_ge_0 (2 - 2 * (eta * psi))). assert (0 < (2 + 3 * (eta + psi) + 2 * (eta * psi)) ^ 2) by (apply pow_lt; lra). lra. }
    split; [|split; [|split]]; field; repeat split; try lra; (apply scaled_ne; [lra|left; lra]).
  - assert (D : 0 < (2 * (1 + eta * psi) + 3 * psi) ^ 2 + (2 * (1 + eta * psi) + 3 * eta) ^ 2).
    { pose proof (pow2_ge_0 (2 * (1 + eta * psi) + 3 * eta)). assert (0 < (2 * (1 + eta * psi) + 3 * psi) ^ 2) by (apply pow_lt; lra). lra. }
    split; [|split; [|split]]; field; repeat split; try lra; (apply scaled_ne; [lra|left; lra]).
Qed.

(** ** The two hemispheres *)
Lemma kepert_north f rMax Vm V Z r vFm th : 0 < f -> 0 < V -> 0 < f + Z -> 0 < r -> (V / r) ^ 2 <> (2 * V / r + f) * (f + Z) ->
  let T := kvt Vm vFm rMax r in
  exists u v, layer f V Z r T th u v /\ forall lam,
    kepertPolar 1 f rMax Vm V Z r lam vFm th = (u lam 0 + T * cos (lam - th), V + v lam 0 - T * sin (lam - th)).
Proof.
  intros Hf HV HZ Hr Hne T.
  assert (Hvr : 0 < V / r) by now apply Rdiv_lt_0_compat.
  set (al := (2 * V / r + f) / 100). set (be := (f + Z) / 100). set (gam := V / (100 * r)).
  assert (E2 : 2 * V / r = 2 * (V / r)) by (field; lra).
  assert (Ha : 0 < al) by (unfold al; rewrite E2; lra). assert (Hb : 0 < be) by (unfold be; lra).
  assert (Hg : 0 < gam). { unfold gam. apply Rdiv_lt_0_compat; lra. }
  assert (Hab : 0 < al * be) by now apply Rmult_lt_0_compat.
  set (q := sqrt (al * be)). assert (Hq : 0 < q) by now apply sqrt_lt_R0.
  assert (Qne : q <> gam).
  { intros E. apply Hne. assert (Q2 : q ^ 2 = al * be) by (unfold q; rewrite pow2_sqrt; lra).
    rewrite E in Q2. unfold al, be, gam in Q2. replace (V / r) with (100 * (V / (100 * r))) by (field; lra).
    replace (2 * V / r + f) with (100 * ((2 * V / r + f) / 100)) by (field; lra). replace (f + Z) with (100 * ((f + Z) / 100)) by field.
    transitivity (10000 * (V / (100 * r)) ^ 2); [ring|]. rewrite Q2. ring. }
  set (low := rlt q gam). set (s2 := if low then - 1 else 1).
  set (k0 := sqrt q). set (k1 := sqrt (q + gam)). set (k2 := sqrt (Rabs (q - gam))).
  assert (Hk0 : 0 < k0) by now apply sqrt_lt_R0. assert (Hk1 : 0 < k1) by (apply sqrt_lt_R0; lra).
  assert (Habs : 0 < Rabs (q - gam)) by (apply Rabs_pos_lt; lra). assert (Hk2 : 0 < k2) by now apply sqrt_lt_R0.
  set (kap := V / 25000). assert (Hk : 0 < kap) by (unfold kap; lra).
  set (a := sqrt (al / be)). assert (Hra : 0 < a) by (apply sqrt_lt_R0; now apply Rdiv_lt_0_compat).
  set (A0 := cscale (- 1 / (2 * (kap / k0) ^ 2 + 3 * (kap / k0) + 2)) (cscale ((kap / k0) * V) (C 1 (1 + kap / k0)))).
  set (Ap := ampPlus low (kap / k2) (kap / k1) T a). set (Am := ampMinus low (kap / k2) (kap / k1) T a).
  exists (lu a k0 k1 k2 s2 (re A0) (im A0) (re Ap) (- im Ap) (re Am) (im Am) th),
         (lv k0 k1 k2 s2 (re A0) (im A0) (re Ap) (- im Ap) (re Am) (im Am) th).
  split.
  - apply layer_waves; fold al be gam q a kap; try assumption.
    + unfold k0. apply pow2_sqrt. lra.
    + unfold k1. apply pow2_sqrt. lra.
    + unfold k2. rewrite pow2_sqrt by lra. unfold s2, low. destruct (rlt q gam) eqn:L.
      * apply rlt_true in L. rewrite Rabs_left by lra. ring.
      * apply rlt_false in L. rewrite Rabs_right by lra. ring.
    + unfold s2. destruct low; ring.
    + destruct (amp_0 (kap / k0) V) as [B1 B2]; [left; now apply Rdiv_lt_0_compat|]. fold A0 in B1, B2. split.
      * rewrite B1. field. lra.
      * transitivity (k0 * - (re A0 + im A0)); [ring|]. rewrite B2. field. lra.
    + destruct (amp_1 low (kap / k2) (kap / k1) T a) as (B1 & B2 & B3 & B4); try (now apply Rdiv_lt_0_compat); [exact Hra|].
      fold Ap Am s2 in B1, B2, B3, B4.
      split; [|split; [|split]].
      * rewrite <- B1. field. lra.
      * rewrite <- B2. field. lra.
      * rewrite Rmult_assoc, (Rmult_comm kap), <- Rmult_assoc, <- B3. field. lra.
      * rewrite Rmult_assoc, (Rmult_comm kap), <- Rmult_assoc, <- B4. field. lra.
  - intros lam. unfold lu, lv. rewrite !wave_0. replace (0 * (lam - th)) with 0 by ring. rewrite cos_0, sin_0, !Rmult_1_l.
    unfold kepertPolar. cbv zeta. fold T.
    replace ((2 * V / r + f) / (2 * 50)) with al by (unfold al; field; lra).
    replace ((f + Z) / (2 * 50)) with be by (unfold be; field). replace (V / (2 * 50 * r)) with gam by (unfold gam; field; lra).
    fold q a. rewrite (Rabs_right gam) by lra. fold low k0 k1 k2.
    assert (X : forall k, 0 < k -> Rabs (2 / 1000 / 50 * V / k) = kap / k).
    { intros k K. replace (2 / 1000 / 50 * V / k) with (kap / k) by (unfold kap; field; lra). apply Rabs_right. left. now apply Rdiv_lt_0_compat. }
    rewrite !X by assumption. fold A0.
    transitivity (re A0 * a * 1 + re (cmul Ap (cexpi ((lam - th) * 1))) * a + re (cmul Am (cexpi (- (lam - th) * 1))) * a + T * cos (lam - th),
                  im A0 + im (cmul Ap (cexpi ((lam - th) * 1))) * 1 + im (cmul Am (cexpi (- (lam - th) * 1))) * 1 + V - T * sin (lam - th)).
    { unfold Ap, Am, ampPlus, ampMinus. reflexivity. }
    clearbody A0 Ap Am. unfold cmul, cexpi, C. cbn [re im]. rewrite !Rmult_1_r, cos_neg, sin_neg. f_equal; ring.
Qed.
Lemma D_neg f x a : derivable_pt_lim f (- x) a -> derivable_pt_lim (fun y => f (- y)) x (- a).
Proof.
  intros H. eapply D_eq; [apply (derivable_pt_lim_comp (fun y => - y) f x (- 1) a); [|exact H]|ring].
  eapply D_eq; [apply (D_opp (fun y => y)); apply D_id|ring].
Qed.
Lemma layer_mirror f V Z r T th u v : r <> 0 -> layer f V Z r T th u v ->
  layer (- f) (- V) (- Z) r T (- th) (fun l z => u (- l) z) (fun l z => - v (- l) z).
Proof.
  intros Hr (uz & vz & D1 & D2 & G & k & M & K & B).
  exists (fun l z => uz (- l) z), (fun l z => - vz (- l) z). split; [|split; [|split]].
  - intros l z. destruct (D1 (- l) z) as [X Y]. split; [exact X|]. now apply (D_opp (v (- l))).
  - intros l z. destruct (D2 (- l) z) as (uzz & vzz & ul & vl & X1 & X2 & X3 & X4 & X5 & X6).
    exists uzz, (- vzz), (- ul), (- - vl). split; [exact X1|]. split; [now apply (D_opp (vz (- l)))|].
    split; [now apply (D_neg (fun l => u l z))|]. split; [apply (D_opp (fun l => v (- l) z)); now apply (D_neg (fun l => v l z))|].
    split.
    + rewrite <- X5. field. exact Hr.
    + replace (50 * - vzz) with (- (50 * vzz)) by ring. rewrite <- X6. field. exact Hr.
  - intros l. destruct (G (- l)) as [X Y]. rewrite Rabs_Ropp. replace (l - - th) with (- (- l - th)) by ring. rewrite cos_neg, sin_neg. split.
    + exact X.
    + transitivity (- (50 * vz (- l) 0)); [ring|]. rewrite Y. ring.
  - exists k, M. split; [exact K|]. intros l z Hz. destruct (B (- l) z Hz) as [X Y]. rewrite Rabs_Ropp. now split.
Qed.

(** * C176 *)
(** In either hemisphere the surface wind of Kepert's field is the wind at the ground of a boundary layer. *)
Theorem c176_layer : forall f rMax Vm V Z r vFm th, 0 < r -> 0 < f * V -> 0 < f * (f + Z) -> (V / r) ^ 2 <> (2 * V / r + f) * (f + Z) ->
  let T := kvt Vm vFm rMax r in
  exists u v, layer f V Z r T th u v /\ forall lam,
    radial (kepert f rMax Vm V Z r lam vFm th) lam = u lam 0 + T * cos (lam - th) /\
    tangential (kepert f rMax Vm V Z r lam vFm th) lam = V + v lam 0 - T * sin (lam - th).
Proof.
  intros f rMax Vm V Z r vFm th Hr HV HZ Hne T. unfold kepert.
  assert (X : forall lam, forall s, radial (cartesian (kepertPolar s f rMax Vm V Z r lam vFm th) lam) lam = fst (kepertPolar s f rMax Vm V Z r lam vFm th) /\
    tangential (cartesian (kepertPolar s f rMax Vm V Z r lam vFm th) lam) lam = snd (kepertPolar s f rMax Vm V Z r lam vFm th)) by (intros; apply cartesian_polar).
  destruct (Rtotal_order f 0) as [F|[F|F]]; [|subst f; lra|].
  - assert (HV' : 0 < - V) by nra. assert (HZ' : 0 < - f + - Z) by nra.
    destruct (kepert_north (- f) rMax Vm (- V) (- Z) r vFm (- th)) as (u & v & L & E); try lra.
    fold T in L, E. exists (fun l z => u (- l) z), (fun l z => - v (- l) z). split.
    + pose proof (layer_mirror _ _ _ _ _ _ _ _ (Rgt_not_eq _ _ Hr) L) as L'. rewrite !Ropp_involutive in L'. exact L'.
    + intros lam. destruct (X lam (rsign f)) as [-> ->]. rewrite rsign_neg by exact F. replace (-1) with (- (1)) by ring.
      pose proof (kepert_mirror_polar 1 (- f) rMax Vm (- V) (- Z) r (- lam) vFm (- th)) as M. rewrite !Ropp_involutive in M.
      rewrite M, E. cbn [fst snd]. replace (- lam - - th) with (- (lam - th)) by ring. rewrite cos_neg, sin_neg. split; ring.
  - assert (HV' : 0 < V) by nra. assert (HZ' : 0 < f + Z) by nra.
    destruct (kepert_north f rMax Vm V Z r vFm th F HV' HZ' Hr Hne) as (u & v & L & E). fold T in L, E. exists u, v. split; [exact L|].
    intros lam. destruct (X lam (rsign f)) as [-> ->]. rewrite rsign_pos, E by exact F. cbn [fst snd]. split; ring.
Qed.
(** The motion of the storm that is added: that of the storm for winds of five times its speed, of a fast storm less, and
    fading with the distance beyond twice the radius of maximum winds. *)
Theorem c176_motion : forall Vm vFm rMax r, 0 < Vm -> 0 < rMax -> 0 <= r ->
  let near := if Rlt_dec Vm (5 * vFm) then 5 / 4 * vFm * Rabs (1 - vFm / Vm) else vFm in
  kvt Vm vFm rMax r = near * (if Rlt_dec (2 * rMax) r then exp (- (r / (2 * rMax) - 1) ^ 2) else 1).
Proof.
  intros Vm vFm rMax r HV Hm Hr near.
  assert (U : umod Vm vFm = near).
  { unfold umod, near. destruct (rlt 0 vFm) eqn:P.
    - apply rlt_true in P. destruct (Rlt_dec Vm (5 * vFm)) as [L|L].
      + rewrite (proj2 (rlt_true (Vm / vFm) 5)); [|apply (Rmult_lt_reg_r vFm); [exact P|]; unfold Rdiv; rewrite Rmult_assoc, Rinv_l; lra].
        cbn [andb]. rewrite Rabs_mult, (Rabs_right (125 / 100)) by lra. lra.
      + rewrite (proj2 (rlt_false (Vm / vFm) 5)); [reflexivity|]. apply (Rmult_le_reg_r vFm); [exact P|]. unfold Rdiv. rewrite Rmult_assoc, Rinv_l; lra.
    - apply rlt_false in P. cbn [andb]. destruct (Rlt_dec Vm (5 * vFm)); [lra|reflexivity]. }
  unfold kvt. rewrite U. destruct (Rlt_dec (2 * rMax) r) as [L|L].
  - rewrite (proj2 (rlt_true _ r) L). reflexivity.
  - rewrite (proj2 (rlt_false _ r)) by lra. ring.
Qed.
(** The assumptions hold for a storm at rest and one in motion. *)
Example c176_example : 0 < (1 / 20000) * 40 /\ 0 < (1 / 20000) * (1 / 20000 + 1 / 1000) /\ (40 / 30000) ^ 2 <> (2 * 40 / 30000 + 1 / 20000) * (1 / 20000 + 1 / 1000).
Proof. repeat split; lra. Qed.
Print Assumptions c176_layer.
Print Assumptions c176_motion.
