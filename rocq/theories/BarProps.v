(** Properties of the scale bar: C177 (what is drawn is as long as its label says) and C178 (it can be drawn). *)
From Coq Require Import Reals ZArith List Bool Lia Lra.
From Verif Require Import Base CircleModel CircleProofs MapModel MapProps BarModel.
Import ListNotations.
Local Open Scope R_scope.

Lemma mid_along p l r d : mid (along p l d) (along p r d) = along p ((l + r) / 2) d.
Proof. unfold mid, along. cbn. f_equal; field. Qed.
Lemma along_0 p d : along p 0 d = p.
Proof. destruct p. unfold along. cbn. f_equal; ring. Qed.
Lemma rle_false a b : rle a b = false <-> b < a.
Proof. unfold rle. destruct (Rle_dec a b); split; intros; try discriminate; lra || reflexivity. Qed.
Lemma nlt_some d L : nlt (Some d) L = true <-> d < L.
Proof. apply rlt_true. Qed.

Lemma expSearch_spec dist start dir L n : forall len e, 0 < len -> expSearch n dist start dir L len = inl e ->
  exists t, 0 < t /\ e = along start t dir /\ nlt (dist start e) L = false.
Proof.
  induction n; intros len e P H; cbn in H; destruct (nlt (dist start (along start len dir)) L) eqn:E; try discriminate.
  - injection H as <-. now exists len.
  - apply IHn in H; [exact H|lra].
  - injection H as <-. now exists len.
Qed.

Lemma bisect_spec dist start dir L tol n : forall l r e, 0 <= l < r -> nlt (dist start (along start r dir)) L = false ->
  bisect n dist start L tol (along start l dir) (along start r dir) = inl e ->
  exists t, 0 < t /\ e = along start t dir /\ nlt (dist start e) L = false /\ isclose (dist start e) L tol = true.
Proof.
  induction n; intros l r e P F H; cbn in H.
  - destruct (isclose _ _ _) eqn:E in H; [|discriminate]. injection H as <-. exists r. repeat split; auto; lra.
  - destruct (isclose _ _ _) eqn:E in H; [injection H as <-; exists r; repeat split; auto; lra|].
    rewrite mid_along in H. destruct (nlt (dist start (along start ((l + r) / 2) dir)) L) eqn:E2.
    + apply IHn in H; auto. lra.
    + apply IHn in H; auto. lra.
Qed.

Lemma pointAlong_spec n dist start L angle tol e : pointAlong n dist start L angle tol = inl e ->
  0 < L /\ 0 < tol /\ exists t d, 0 < t /\ e = along start t (cos angle, sin angle) /\ dist start e = Some d /\
    L <= d <= L + tol * L + 1 / 100000000.
Proof.
  unfold pointAlong, upperBound, distanceAlong. intros H.
  destruct (rle L 0) eqn:PL; [discriminate|]. apply rle_false in PL.
  destruct (rle (_ + _) 0) eqn:PD; [discriminate|].
  destruct (expSearch n dist start _ L (1 / 10)) as [x|] eqn:X; [|discriminate].
  apply expSearch_spec in X; [|lra]. destruct X as (t & T & -> & F). rewrite F in H.
  destruct (rle tol 0) eqn:PT; [discriminate|]. apply rle_false in PT.
  rewrite <- (along_0 start (cos angle, sin angle)) in H at 2.
  apply bisect_spec in H; [|lra|exact F]. destruct H as (u & U & E & F2 & C).
  split; [lra|]. split; [lra|]. destruct (dist start e) as [d|] eqn:D; [|discriminate]. exists u, d.
  split; [exact U|]. split; [exact E|]. split; [reflexivity|].
  apply rle_true in C. rewrite (Rabs_pos_eq L) in C by lra.
  unfold nlt in F2. apply rlt_false in F2. rewrite Rabs_pos_eq in C by lra. lra.
Qed.

(** * C177 *)
(** A bar that is drawn starts at its location, runs in the direction of its angle, and is at least as long as the
    number beside it, in its unit, and longer by no more than the tolerance; the number is the length asked for. *)
Theorem c177_length : forall n dist width loc given unit tol angle offset b,
  scaleBar n dist width loc given unit tol angle offset = inl b ->
  b_from b = loc /\
  (exists t, 0 < t /\ b_to b = (fst loc + t * cos (angle * PI / 180), snd loc + t * sin (angle * PI / 180))) /\
  (exists d, dist loc (b_to b) = Some d /\
     b_number b * unit <= d <= b_number b * unit * (1 + tol) + 1 / 100000000) /\
  (forall l, given = Some l -> l <> 0 -> b_number b = l).
Proof.
  intros n dist width loc given unit tol angle offset b H. unfold scaleBar in H.
  destruct (match given with Some l => _ | None => _ end) as [l|] eqn:G; [|discriminate].
  destruct (pointAlong _ _ _ _ _ _) as [e|] eqn:P; [|discriminate]. injection H as <-. cbn.
  apply pointAlong_spec in P. destruct P as (_ & _ & t & d & T & E & D & B).
  split; [reflexivity|]. split; [exists t; split; [exact T|exact E]|]. split.
  - exists d. split; [exact D|]. lra.
  - intros l' -> N. destruct (Req_EM_T l' 0); [contradiction|]. now injection G.
Qed.

(** The label stands beside the middle of the bar, at the given distance perpendicular to it. *)
Theorem c177_label : forall n dist width loc given unit tol angle offset b,
  scaleBar n dist width loc given unit tol angle offset = inl b ->
  let dx := fst (b_text b) - (fst (b_from b) + fst (b_to b)) / 2 in
  let dy := snd (b_text b) - (snd (b_from b) + snd (b_to b)) / 2 in
  dx * (fst (b_to b) - fst (b_from b)) + dy * (snd (b_to b) - snd (b_from b)) = 0 /\
  dx * dx + dy * dy = offset * offset /\ (angle = 0 -> dy = offset).
Proof.
  intros n dist width loc given unit tol angle offset b H. unfold scaleBar in H.
  destruct (match given with Some l => _ | None => _ end) as [l|] eqn:G; [|discriminate].
  destruct (pointAlong _ _ _ _ _ _) as [e|] eqn:P; [|discriminate]. injection H as <-. cbn.
  apply pointAlong_spec in P. destruct P as (_ & _ & t & d & T & -> & _). cbn.
  split; [field|]. split.
  - set (c := cos _). set (s := sin _). assert (S2 : s * s + c * c = 1) by (apply sin2_cos2).
    transitivity (offset * offset * (s * s + c * c)); [field|]. rewrite S2. ring.
  - intros ->. replace (0 * PI / 180) with 0 by field. rewrite cos_0, sin_0. field.
Qed.

Lemma expSearch_more dist start dir L n : forall m len e, (n <= m)%nat -> expSearch n dist start dir L len = inl e ->
  expSearch m dist start dir L len = inl e.
Proof.
  induction n; intros m len e M H.
  - cbn in H. destruct (nlt _ _) eqn:E in H; [discriminate|]. destruct m; cbn; now rewrite E.
  - destruct m; [lia|]. cbn in H |- *. destruct (nlt _ _); [|exact H]. apply IHn; [lia|exact H].
Qed.
Lemma bisect_more dist start L tol n : forall m l r e, (n <= m)%nat -> bisect n dist start L tol l r = inl e ->
  bisect m dist start L tol l r = inl e.
Proof.
  induction n; intros m l r e M H.
  - cbn in H. destruct (isclose _ _ _) eqn:E in H; [|discriminate]. destruct m; cbn; now rewrite E.
  - destruct m; [lia|]. cbn in H |- *. destruct (isclose _ _ _); [exact H|]. destruct (nlt _ _); apply IHn; auto; lia.
Qed.

Lemma pow2_big : forall T, exists n, T <= 1 / 10 * 2 ^ n.
Proof.
  intros T. destruct (Pow_x_infinity 2 ltac:(rewrite Rabs_pos_eq; lra) (10 * Rabs T)) as [n N].
  exists n. specialize (N n (le_n n)). rewrite (Rabs_pos_eq (2 ^ n)) in N by (apply pow_le; lra).
  pose proof (Rle_abs T). lra.
Qed.

Section Stops.
Variables (dist : pt -> pt -> option R) (start dir : pt) (g : R -> R) (L tol : R).
Hypothesis G : forall t, 0 <= t -> dist start (along start t dir) = Some (g t).
Lemma expSearch_stops n : forall len, 0 < len -> L <= g (len * 2 ^ n) ->
  exists t, 0 < t /\ expSearch n dist start dir L len = inl (along start t dir) /\ L <= g t.
Proof.
  induction n; intros len P B; cbn [expSearch].
  - cbn in B. rewrite Rmult_1_r in B. rewrite G by lra. cbn [nlt].
    replace (rlt (g len) L) with false by (symmetry; apply rlt_false; lra). exists len. auto.
  - rewrite G by lra. cbn [nlt]. destruct (rlt (g len) L) eqn:E.
    + apply IHn; [lra|]. replace (len * 2 * 2 ^ n) with (len * 2 ^ S n) by (cbn; ring). exact B.
    + apply rlt_false in E. exists len. auto.
Qed.
Lemma bisect_stops del : 0 < L -> 0 < tol ->
  forall n l r, 0 <= l -> l < r -> g l < L <= g r -> (r - l) < del * 2 ^ n ->
    (forall x y, l <= x <= r -> l <= y <= r -> Rabs (x - y) < del -> Rabs (g x - g y) < tol * L) ->
  exists t, 0 < t /\ bisect n dist start L tol (along start l dir) (along start r dir) = inl (along start t dir).
Proof.
  intros PL PT. induction n; intros l r P O B W U.
  - cbn in W. assert (C : isclose (dist start (along start r dir)) L tol = true).
    { rewrite G by lra. cbn. apply rle_true. rewrite (Rabs_pos_eq L) by lra.
      assert (X : Rabs (g r - g l) < tol * L) by (apply U; try lra; rewrite Rabs_pos_eq by lra; lra).
      rewrite Rabs_pos_eq in X by lra. rewrite Rabs_pos_eq by lra. lra. }
    cbn. rewrite C. exists r. split; [lra|reflexivity].
  - cbn [bisect]. destruct (isclose _ _ _); [exists r; split; [lra|reflexivity]|].
    rewrite mid_along, G by lra. cbn [nlt]. destruct (rlt (g ((l + r) / 2)) L) eqn:E.
    + apply rlt_true in E. apply IHn; try lra.
      * cbn in W. lra.
      * intros x y X Y. apply U; lra.
    + apply rlt_false in E. apply IHn; try lra.
      * cbn in W. lra.
      * intros x y X Y. apply U; lra.
Qed.
End Stops.

(** The search ends: whenever the distance from the start changes continuously along the line, from zero, and stays
    beyond the length of the bar from some point on, the bar is drawn. *)
Theorem c177_drawn : forall dist width loc l unit tol angle offset g T,
  0 < l -> 0 < unit -> 0 < tol ->
  (forall t, 0 <= t -> continuity_pt g t /\
     dist loc (fst loc + t * cos (angle * PI / 180), snd loc + t * sin (angle * PI / 180)) = Some (g t)) ->
  g 0 = 0 -> (forall t, T <= t -> l * unit <= g t) ->
  exists n0, forall n, (n0 <= n)%nat -> exists b, scaleBar n dist width loc (Some l) unit tol angle offset = inl b.
Proof.
  intros dist width loc l unit tol angle offset g T Pl Pu Pt C G0 B.
  assert (PL : 0 < l * unit) by now apply Rmult_lt_0_compat. set (L := l * unit) in *.
  set (rad := angle * PI / 180) in *. set (dir := (cos rad, sin rad)).
  assert (G : forall t, 0 <= t -> dist loc (along loc t dir) = Some (g t)) by (intros t P; apply C; exact P).
  destruct (pow2_big T) as [n1 N1].
  destruct (expSearch_stops dist loc dir g L G n1 (1 / 10)) as (e & Pe & X & Be); [lra|apply B; exact N1|].
  assert (Peps : 0 < tol * L) by now apply Rmult_lt_0_compat.
  destruct (@Heine_cor2 g 0 e (fun t H => proj1 (C t (proj1 H))) (mkposreal _ Peps)) as [[del Pd] U]. cbn in U.
  destruct (pow2_big (e / del)) as [n2 N2].
  destruct (bisect_stops dist loc dir g L tol G del PL Pt n2 0 e) as (t & Pt' & Y); try lra.
  - assert (Z2 : 0 < 2 ^ n2) by (apply pow_lt; lra).
    apply Rmult_le_compat_r with (r := del) in N2; [|lra]. replace (e / del * del) with e in N2 by (field; lra).
    assert (0 < del * 2 ^ n2) by now apply Rmult_lt_0_compat. lra.
  - exact U.
  - exists (max n1 n2). intros n N. unfold scaleBar. destruct (Req_EM_T l 0); [lra|].
    fold L rad. unfold pointAlong, upperBound, distanceAlong.
    replace (rle L 0) with false by (symmetry; apply rle_false; lra).
    fold dir. replace (rle (fst dir * fst dir + snd dir * snd dir) 0) with false.
    2:{ symmetry. apply rle_false. unfold dir. cbn. pose proof (sin2_cos2 rad) as S2. unfold Rsqr in S2. lra. }
    rewrite (expSearch_more _ _ _ _ n1 n _ _ ltac:(lia) X). rewrite G by lra. cbn [nlt].
    replace (rlt (g e) L) with false by (symmetry; apply rlt_false; lra).
    replace (rle tol 0) with false by (symmetry; apply rle_false; lra).
    rewrite along_0 in Y. rewrite (bisect_more _ _ _ _ n2 n _ _ _ ltac:(lia) Y). eexists. reflexivity.
Qed.
(** A map on which a unit of the axes is a metre *)
Definition flat (a b : pt) : option R := Some (sqrt (Rsqr (fst b - fst a) + Rsqr (snd b - snd a))).
Example c177_drawn_example : exists n b, scaleBar n flat 100000 (0, 0) (Some 20) 1000 (1 / 100) 0 (1 / 200) = inl b.
Proof.
  destruct (c177_drawn flat 100000 (0, 0) 20 1000 (1 / 100) 0 (1 / 200) (fun t => Rabs t) 20000) as [n0 H]; try lra.
  - intros t P. split; [apply Rcontinuity_abs|]. unfold flat. cbn. f_equal.
    replace (0 * PI / 180) with 0 by field. rewrite cos_0, sin_0.
    rewrite <- sqrt_Rsqr_abs. f_equal. unfold Rsqr. ring.
  - apply Rabs_R0.
  - intros t Q. pose proof (Rle_abs t). lra.
  - exists n0. apply H. apply le_n.
Qed.

(** Lengths and tolerances that make no sense are refused. *)
Theorem c177_refused : forall n dist width loc l unit tol angle offset, 0 < unit ->
  (l < 0 -> scaleBar n dist width loc (Some l) unit tol angle offset = inr NotPositive) /\
  (tol <= 0 -> forall b, scaleBar n dist width loc (Some l) unit tol angle offset <> inl b).
Proof.
  intros n dist width loc l unit tol angle offset U. split.
  - intros N. unfold scaleBar. destruct (Req_EM_T l 0); [lra|]. unfold pointAlong, upperBound.
    assert (X : l * unit <= 0) by (assert (0 <= - l * unit) by (apply Rmult_le_pos; lra); lra).
    apply rle_true in X. now rewrite X.
  - intros T b H. unfold scaleBar in H. destruct (if Req_EM_T l 0 then _ else _) as [l'|]; [|discriminate].
    destruct (pointAlong _ _ _ _ _ _) as [e|] eqn:P; [|discriminate].
    apply pointAlong_spec in P. lra.
Qed.

Lemma nearest_spec x : Rabs (IZR (nearest x) - x) <= 1 / 2.
Proof.
  unfold nearest. pose proof (base_Int_part x) as [A B].
  destruct (rlt (x - IZR (Int_part x)) (1 / 2)) eqn:E1.
  - apply rlt_true in E1. apply Rabs_le. lra.
  - apply rlt_false in E1. destruct (rlt (1 / 2) (x - IZR (Int_part x))) eqn:E2.
    + rewrite plus_IZR. apply rlt_true in E2. apply Rabs_le. lra.
    + apply rlt_false in E2. destruct (Z.even (Int_part x)); [|rewrite plus_IZR]; apply Rabs_le; lra.
Qed.
Lemma pow10_nat k : pow10 (Z.of_nat k) = 10 ^ k.
Proof. unfold pow10. rewrite <- INR_IZR_INZ. apply Rpower_pow. lra. Qed.

(** Without a length, a map at least five kilometres wide gets a bar of 1, 2 or 5 times a power of ten kilometres,
    between 4/45 and 4/15 of the width of the map. *)
Theorem c177_default : forall width, 5000 <= width -> exists l d k, setLength width = Some l /\
  In d [1; 2; 5]%nat /\ l = INR d * 10 ^ k /\ 4 / 45 * width <= l * 1000 <= 4 / 15 * width.
Proof.
  intros width W. unfold setLength. set (len := width / 5000).
  assert (P : 1 <= len) by (unfold len; lra). pose proof (exponent_spec len ltac:(lra)) as [E1 E2].
  rewrite pow10_S in E2. set (k := exponent10 len) in *. pose proof (pow10_pos k) as Pk. pose proof (pow10_neg k) as Nk.
  pose proof (pow10_pos (- k)) as Pnk.
  assert (K : (0 <= k)%Z).
  { destruct (Z_le_gt_dec 0 k) as [|C]; [assumption|]. exfalso.
    assert (M : pow10 (k + 1) <= pow10 0).
    { unfold pow10. apply Rle_Rpower; [lra|]. apply IZR_le. lia. }
    rewrite pow10_S in M. unfold pow10 at 2 in M. rewrite Rpower_O in M by lra. lra. }
  set (m := len * pow10 (- k)). assert (M : m * pow10 k = len) by (unfold m; rewrite Rmult_assoc, Nk; ring).
  assert (M1 : 1 <= m).
  { apply Rmult_le_reg_r with (pow10 k); [exact Pk|]. lra. }
  assert (M2 : m < 10).
  { apply Rmult_lt_reg_r with (pow10 k); [exact Pk|]. lra. }
  assert (NN : IZR (nearest m) - 1 / 2 <= m <= IZR (nearest m) + 1 / 2).
  { pose proof (nearest_spec m) as Q. pose proof (Rle_abs (IZR (nearest m) - m)) as Q1.
    pose proof (Rle_abs (- (IZR (nearest m) - m))) as Q2. rewrite Rabs_Ropp in Q2. lra. }
  assert (R1 : (1 <= nearest m <= 10)%Z).
  { split.
    - apply Z.lt_pred_le. apply lt_IZR. cbn. lra.
    - apply Z.lt_succ_r. apply lt_IZR. rewrite succ_IZR. lra. }
  set (z := nearest m) in *. clearbody z.
  assert (L5 : forall c, c * width = c * 5000 * (m * pow10 k)).
  { intros c. rewrite M. unfold len. field. }
  destruct (Z_of_nat_complete k K) as [kn ->]. rewrite pow10_nat in *.
  assert (Fin : forall d d' j l, scaleDigit (Z.to_nat z) = Some d' -> In d [1; 2; 5]%nat -> INR d' * 10 ^ kn = l -> l = INR d * 10 ^ j ->
     4 / 9 * m <= INR d' <= 4 / 3 * m ->
     exists l d k, match scaleLength (Z.to_nat z) (Z.of_nat kn) with Some (d, k') => Some (INR d * pow10 k') | None => None end = Some l /\
       In d [1; 2; 5]%nat /\ l = INR d * 10 ^ k /\ 4 / 45 * width <= l * 1000 <= 4 / 15 * width).
  { intros d d' j l S I E1' E2' [B1 B2]. exists l, d, j. unfold scaleLength.
    destruct (Z.ltb_spec (Z.of_nat kn) 0) as [Y|_]; [lia|]. rewrite S. cbn [option_map].
    rewrite pow10_nat. split; [now rewrite E1'|]. split; [exact I|]. split; [exact E2'|].
    rewrite !L5, <- E1'. split.
    - apply Rmult_le_compat_r with (r := 10 ^ kn) in B1; lra.
    - apply Rmult_le_compat_r with (r := 10 ^ kn) in B2; lra. }
  assert (Zs : (z = 1 \/ z = 2 \/ z = 3 \/ z = 4 \/ z = 5 \/ z = 6 \/ z = 7 \/ z = 8 \/ z = 9 \/ z = 10)%Z) by lia.
  repeat destruct Zs as [->|Zs]; [..|subst z].
  - apply (Fin 1%nat 1%nat kn (INR 1 * 10 ^ kn)); auto; cbn; auto; lra.
  - apply (Fin 2%nat 2%nat kn (INR 2 * 10 ^ kn)); auto; cbn; auto; lra.
  - apply (Fin 2%nat 2%nat kn (INR 2 * 10 ^ kn)); auto; cbn; auto; lra.
  - apply (Fin 2%nat 2%nat kn (INR 2 * 10 ^ kn)); auto; cbn; auto; lra.
  - apply (Fin 5%nat 5%nat kn (INR 5 * 10 ^ kn)); auto; cbn; auto; lra.
  - apply (Fin 5%nat 5%nat kn (INR 5 * 10 ^ kn)); auto; cbn; auto; lra.
  - apply (Fin 5%nat 5%nat kn (INR 5 * 10 ^ kn)); auto; cbn; auto; lra.
  - apply (Fin 5%nat 5%nat kn (INR 5 * 10 ^ kn)); auto; cbn; auto; lra.
  - apply (Fin 5%nat 5%nat kn (INR 5 * 10 ^ kn)); auto; cbn; auto; lra.
  - apply (Fin 1%nat 10%nat (S kn) (INR 10 * 10 ^ kn)); auto; cbn; try lra; auto.
Qed.

(** * C178 *)
(** Every bar of positive length can be drawn: false, a bar longer than every distance on the map searches for ever. *)
Theorem c178_far_refuted : forall dist width loc l unit tol angle offset, 0 < l -> 0 < unit ->
  (forall p, exists d, dist loc p = Some d /\ d < l * unit) ->
  forall n, scaleBar n dist width loc (Some l) unit tol angle offset = inr Running.
Proof.
  intros dist width loc l unit tol angle offset Pl Pu B n. unfold scaleBar. destruct (Req_EM_T l 0); [lra|].
  unfold pointAlong, upperBound. assert (PL : 0 < l * unit) by now apply Rmult_lt_0_compat.
  replace (rle (l * unit) 0) with false by (symmetry; apply rle_false; lra).
  set (rad := angle * PI / 180). replace (rle _ 0) with false.
  2:{ symmetry. apply rle_false. cbn. pose proof (sin2_cos2 rad) as S2. unfold Rsqr in S2. lra. }
  enough (X : forall m len, expSearch m dist loc (cos rad, sin rad) (l * unit) len = inr Running) by now rewrite X.
  induction m; intros len; cbn [expSearch]; destruct (B (along loc len (cos rad, sin rad))) as (d & -> & D);
    apply nlt_some in D; rewrite D; auto.
Qed.
(** On an Earth where no two places are more than 20,004 km apart, a bar of 25,000 km *)
Example c178_earth : forall dist, (forall p, exists d, dist (0, 0) p = Some d /\ d <= 20004000) ->
  forall n, scaleBar n dist 40000000 (0, 0) (Some 25000) 1000 (1 / 100) 0 (1 / 200) = inr Running.
Proof.
  intros dist H n. apply c178_far_refuted; try lra. intros p. destruct (H p) as (d & E & D). exists d. split; [exact E|lra].
Qed.

(** Nor does the search end where the distance jumps over the length, though longer and shorter distances exist. *)
Definition jump (a b : pt) : option R := Some (if Req_EM_T (fst a) (fst b) then 0 else 10000).
Theorem c178_jump_refuted : exists dist, forall n, scaleBar n dist 100000 (0, 0) (Some 1) 1000 (1 / 100) 0 (1 / 200) = inr Running.
Proof.
  exists jump. intros n. unfold scaleBar. destruct (Req_EM_T 1 0); [lra|].
  replace (0 * PI / 180) with 0 by field. unfold pointAlong, upperBound. rewrite cos_0, sin_0.
  replace (rle (1 * 1000) 0) with false by (symmetry; apply rle_false; lra).
  replace (rle _ 0) with false by (symmetry; apply rle_false; cbn; lra).
  assert (J : forall t, 0 < t -> jump (0, 0) (along (0, 0) t (1, 0)) = Some 10000).
  { intros t P. unfold jump, along. cbn. destruct (Req_EM_T 0 (0 + t * 1)); [lra|reflexivity]. }
  replace (expSearch n jump (0, 0) (1, 0) (1 * 1000) (1 / 10)) with (@inl pt bar_error (along (0, 0) (1 / 10) (1, 0))).
  2:{ destruct n; cbn [expSearch]; rewrite J by lra; cbn [nlt];
      (replace (rlt 10000 (1 * 1000)) with false by (symmetry; apply rlt_false; lra)); reflexivity. }
  unfold distanceAlong. rewrite J by lra. cbn [nlt].
  replace (rlt 10000 (1 * 1000)) with false by (symmetry; apply rlt_false; lra).
  replace (rle (1 / 100) 0) with false by (symmetry; apply rle_false; lra).
  enough (X : forall m r, 0 < r -> bisect m jump (0, 0) (1 * 1000) (1 / 100) (0, 0) (along (0, 0) r (1, 0)) = inr Running).
  { rewrite X by lra. reflexivity. }
  assert (F : isclose (Some 10000) (1 * 1000) (1 / 100) = false).
  { cbn. apply rle_false. rewrite !Rabs_pos_eq by lra. lra. }
  assert (M : forall r, mid (0, 0) (along (0, 0) r (1, 0)) = along (0, 0) (r / 2) (1, 0)).
  { intros r. unfold mid, along. cbn. f_equal; field. }
  induction m; intros r P; cbn [bisect]; rewrite J, F by assumption; [reflexivity|].
  rewrite M, J by lra. cbn [nlt]. replace (rlt 10000 (1 * 1000)) with false by (symmetry; apply rlt_false; lra).
  apply IHm. lra.
Qed.

(** Without a length, no bar is drawn on maps less than five kilometres wide. *)
Theorem c178_small_map_refuted : forall n dist width loc unit tol angle offset, 0 < width < 5000 ->
  scaleBar n dist width loc None unit tol angle offset = inr Running.
Proof.
  intros n dist width loc unit tol angle offset W. unfold scaleBar, setLength. set (len := width / 5000).
  assert (P : 0 < len < 1) by (unfold len; lra).
  pose proof (exponent_spec len (proj1 P)) as [E1 E2]. set (k := exponent10 len) in *.
  assert (K : (k < 0)%Z).
  { destruct (Z_lt_le_dec k 0) as [|C]; [assumption|]. exfalso.
    assert (M : pow10 0 <= pow10 k) by (unfold pow10; apply Rle_Rpower; [lra|apply IZR_le; lia]).
    unfold pow10 at 1 in M. rewrite Rpower_O in M by lra. lra. }
  unfold scaleLength. destruct (Z.ltb_spec k 0); [reflexivity|lia].
Qed.

(** A length of zero, unlike other lengths that are not positive, is not refused: it stands for no length. *)
Theorem c178_zero_refuted : forall n dist width loc unit tol angle offset,
  scaleBar n dist width loc (Some 0) unit tol angle offset = scaleBar n dist width loc None unit tol angle offset.
Proof. intros. unfold scaleBar. destruct (Req_EM_T 0 0); [reflexivity|contradiction]. Qed.

(** The length chosen is in kilometres whatever the unit: in another unit the bar has the wrong share of the map. *)
Theorem c178_unit_refuted : forall n dist width loc unit tol angle offset b d,
  scaleBar n dist width loc None unit tol angle offset = inl b -> 5000 <= width -> 0 < unit -> 0 < tol <= 1 / 10 ->
  dist loc (b_to b) = Some d -> d <= 11 / 10 * (4 / 15 * width) * (unit / 1000) + 1 / 100000000.
Proof.
  intros n dist width loc unit tol angle offset b d H W U T D.
  pose proof (c177_length _ _ _ _ _ _ _ _ _ _ H) as (_ & _ & (d' & D' & B) & _). rewrite D in D'. injection D' as <-.
  assert (N : b_number b * 1000 <= 4 / 15 * width /\ 0 <= b_number b).
  { destruct (c177_default width W) as (l & dd & k & S & I & El & L). unfold scaleBar in H. rewrite S in H.
    destruct (pointAlong _ _ _ _ _ _); [|discriminate]. injection H as <-. cbn. split; [apply L|].
    rewrite El. apply Rmult_le_pos; [apply pos_INR|apply pow_le; lra]. }
  destruct N as [N N0]. assert (X : b_number b * unit <= 4 / 15 * width * (unit / 1000)).
  { apply Rmult_le_compat_r with (r := unit / 1000) in N; [|lra]. lra. }
  assert (Y : b_number b * unit * (1 + tol) <= b_number b * unit * (11 / 10)).
  { apply Rmult_le_compat_l; [apply Rmult_le_pos; lra|lra]. }
  lra.
Qed.
(** Such bars exist: on the flat map the bar without a length is drawn in metres. *)
Lemma scaleBar_default n dist width loc unit tol angle offset l : setLength width = Some l -> l <> 0 ->
  scaleBar n dist width loc None unit tol angle offset = scaleBar n dist width loc (Some l) unit tol angle offset.
Proof. intros S N. unfold scaleBar. destruct (Req_EM_T l 0); [contradiction|]. now rewrite S. Qed.
Example c178_unit_example : exists n b, scaleBar n flat 100000 (0, 0) None 1 (1 / 100) 0 (1 / 200) = inl b.
Proof.
  destruct (c177_default 100000 ltac:(lra)) as (l & d & k & S & _ & _ & B).
  destruct (c177_drawn flat 100000 (0, 0) l 1 (1 / 100) 0 (1 / 200) (fun t => Rabs t) (l * 1)) as [n0 H]; try lra.
  - intros t P. split; [apply Rcontinuity_abs|]. unfold flat. cbn. f_equal.
    replace (0 * PI / 180) with 0 by field. rewrite cos_0, sin_0.
    rewrite <- sqrt_Rsqr_abs. f_equal. unfold Rsqr. ring.
  - apply Rabs_R0.
  - intros t Q. pose proof (Rle_abs t). lra.
  - exists n0. rewrite (scaleBar_default _ _ _ _ _ _ _ _ l S) by lra. apply H. apply le_n.
Qed.
Print Assumptions c177_length.
Print Assumptions c177_label.
Print Assumptions c177_drawn.
Print Assumptions c177_refused.
Print Assumptions c177_default.
Print Assumptions c178_far_refuted.
Print Assumptions c178_jump_refuted.
Print Assumptions c178_small_map_refuted.
Print Assumptions c178_zero_refuted.
Print Assumptions c178_unit_refuted.
