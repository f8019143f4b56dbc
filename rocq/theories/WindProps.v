(** C52-C54, C90-C99: wind and pressure profiles and surface winds. *)
From Coq Require Import Reals Lra Psatz List String.
From Verif Require Import CircleModel CircleProofs FitRProofs DerivTac WindModel WindProofs WindProofs2 WindProofs3
  WindProofs4 WindProofs5 WindProofs6 WindProofs7 RegModel.
Import ListNotations.
Open Scope R_scope.

(** ** C52 *)
(** Between central and environmental pressure, for every single vortex (also [schloemer], [powell])
    and for the double vortex. *)
Theorem c52_range : forall pc pe rMax beta lat r, pc < pe ->
  pc < prsHolland pc (pe - pc) rMax beta r < pe /\
  pc < prsPowell pc (pe - pc) rMax lat r < pe /\
  pc < prsSchloemer pc (pe - pc) rMax r < pe.
Proof.
  intros pc pe rMax beta lat r H.
  pose proof (fun b => holland_range pc (pe - pc) rMax b r ltac:(lra)) as K.
  pose proof (K beta). pose proof (K 1). pose proof (K (prsPowellBeta lat rMax)).
  unfold prsPowell, prsSchloemer. repeat split; lra.
Qed.
Theorem c52_double_range : forall pc pe rMax rMax2 b1 b2 r, pc < pe ->
  pc < prsDouble pc (pe - pc) rMax rMax2 b1 b2 r < pe.
Proof.
  intros. pose proof (double_range pc (pe - pc) rMax rMax2 b1 b2 r ltac:(lra)). lra.
Qed.
(** Non-decreasing with distance for a positive shape parameter. *)
Theorem c52_monotone : forall pc pe rMax beta lat r r', pc < pe -> 0 < rMax -> 0 < beta -> 0 < r -> r <= r' ->
  prsHolland pc (pe - pc) rMax beta r <= prsHolland pc (pe - pc) rMax beta r' /\
  prsPowell pc (pe - pc) rMax lat r <= prsPowell pc (pe - pc) rMax lat r' /\
  prsSchloemer pc (pe - pc) rMax r <= prsSchloemer pc (pe - pc) rMax r'.
Proof.
  intros pc pe rMax beta lat r r' H Hm Hb Hr L.
  pose proof (clamp_range (1881093 / 1000000 - 10917 / 1000000 * Rabs lat - 5567 / 1000000 * rMax)) as C.
  unfold prsPowell, prsSchloemer, prsPowellBeta. repeat split; apply holland_mono; lra.
Qed.
Theorem c52_double_monotone : forall pc pe rMax rMax2 b1 b2 r r', pc < pe -> 0 < rMax -> 0 < rMax2 ->
  0 < orElse b1 (73 / 10 - pc / 16000) -> 0 < orElse b2 (72 / 10 - pc / 16000) -> 0 < r -> r <= r' ->
  prsDouble pc (pe - pc) rMax rMax2 b1 b2 r <= prsDouble pc (pe - pc) rMax rMax2 b1 b2 r'.
Proof. intros. apply double_mono; lra. Qed.
(** The default shape parameters of the double vortex are positive below 1152 hPa. *)
Example c52_defaults : forall pc, pc < 115200 -> 0 < orElse None (73 / 10 - pc / 16000) /\ 0 < orElse None (72 / 10 - pc / 16000).
Proof. intros pc H. cbn [orElse]. lra. Qed.
(** The Willoughby profile can fall with distance: its shape parameter can be negative. *)
Theorem c52_willoughby_refuted : ~ forall pc pe rMax lat r r' p p', pc < pe -> 0 < rMax -> 0 < r -> r <= r' ->
  prsWilloughby pc pe rMax lat r = WOk p -> prsWilloughby pc pe rMax lat r' = WOk p' -> p <= p'.
Proof.
  intros H. destruct wil_falls as (p & p' & E & E' & L).
  specialize (H 100000 100100 (exp 4) (-10) (exp 4) (exp 5) p p' ltac:(lra) (exp_pos 4) (exp_pos 4)
                ltac:(left; apply exp_increasing; lra) E E'). lra.
Qed.

(** ** C53 *)
Theorem c53_core : forall d2 d1 vMax rMax, rMax <> 0 ->
  core d2 d1 vMax rMax 0 = 0 /\ core d2 d1 vMax rMax rMax = vMax /\
  exists V', (forall r, derivable_pt_lim (core d2 d1 vMax rMax) r (V' r)) /\
             V' rMax = d1 /\ derivable_pt_lim V' rMax d2.
Proof.
  intros d2 d1 vMax rMax H. split; [apply core_0|]. split; [now apply core_rMax|].
  exists (coreD1 d2 d1 vMax rMax). split; [intros r; apply core_deriv|].
  split; [apply coreD1_rMax|]. eapply D_eq; [apply coreD1_deriv | now apply coreD2_rMax].
Qed.
(** and the prescribed derivatives are those of the profile outside *)
Theorem c53_prescribed : forall p, storm p ->
  exists V', (forall r, 0 < r -> derivable_pt_lim (outer p) r (V' r)) /\
             V' (prMax p) = firstDerivative p /\ derivable_pt_lim V' (prMax p) (rawSecond p).
Proof.
  intros p S. exists (outerD1 p). split; [intros r Hr; now apply outer_deriv|].
  split; [|now apply outer_second].
  eapply uniqueness_limite; [apply outer_deriv; [exact S | apply S] | now apply outer_first].
Qed.
Example c53_storm : storm (mkHolland 30 101300 96300 50000 (13 / 10)).
Proof. unfold storm, mkHolland. cbn [pf pdP prMax pbeta]. rewrite !toPa_hi by lra. repeat split; lra. Qed.

(** ** C54 *)
Theorem c54_reject : forall pC pE t beta r, toPa pE < toPa pC -> vmax pC pE t beta r = WValueError.
Proof. exact reject. Qed.
Theorem c54_inverse : forall v pE pC t beta r, t = Willoughby \/ t = Holland -> 0 <= v -> 0 < beta -> 0 < r ->
  pDiff v pE t beta r = WOk pC -> 10000 <= pC -> vmax pC pE t beta r = WOk v.
Proof. intros v pE pC t beta r [-> | ->] Hv Hb Hr; [now apply vmax_wil | now apply vmax_hol]. Qed.
Theorem c54_inverse_back : forall v pE pC t beta r, t = Willoughby \/ t = Holland -> 0 < beta -> 0 < r ->
  vmax pC pE t beta r = WOk v -> pDiff v pE t beta r = WOk (toPa pC).
Proof. intros v pE pC t beta r [-> | ->] Hb Hr; [apply pDiff_wil | now apply pDiff_hol]. Qed.
(** The Atkinson relation is inverted for an environmental pressure of 1010 hPa only. *)
Theorem c54_atkinson_partial : forall v pE pC beta r, 0 <= v -> toPa pE = 101000 ->
  pDiff v pE Atkinson beta r = WOk pC -> 10000 <= pC -> vmax pC pE Atkinson beta r = WOk v.
Proof. exact vmax_atk. Qed.
Theorem c54_atkinson_refuted : ~ forall v pE pC beta r, 0 <= v ->
  pDiff v pE Atkinson beta r = WOk pC -> 10000 <= pC -> vmax pC pE Atkinson beta r = WOk v.
Proof.
  intros H. assert (P : pDiff 0 100500 Atkinson 1 1 = WOk 100500).
  { unfold pDiff. cbv zeta. replace (0 / (304 / 100)) with 0 by lra. rewrite npow_0, toPa_hi by lra. f_equal. lra. }
  specialize (H 0 100500 100500 1 1 ltac:(lra) P ltac:(lra)).
  unfold vmax in H. cbv zeta in H. rewrite toPa_hi in H by lra. rewrite (proj2 (rlt_false 100500 100500)) in H by lra.
  rewrite npow_ok in H by lra. cbn [ofPow] in H. injection H as H.
  pose proof (Rpower_pos (1010 - 100500 * (1 / 100)) (644 / 1000)). lra.
Qed.
Example c54_example : pDiff 50 101000 Willoughby 1 1 = WOk (101000 - (50 / (6252 / 10000)) ^ 2) /\
  10000 <= 101000 - (50 / (6252 / 10000)) ^ 2.
Proof. unfold pDiff. cbv zeta. rewrite toPa_hi by lra. split; [reflexivity | lra]. Qed.

(** ** C90 *)
Theorem c90_documented_refuted : ~ forall p f, In p documentedProfiles -> In f documentedFields ->
  localWindField p f = Computed.
Proof.
  intros H. specialize (H "jelesnianski"%string "kepert"%string).
  assert (E : localWindField "jelesnianski" "kepert" = UnboundLocalError) by reflexivity.
  rewrite E in H. discriminate (H ltac:(cbn; tauto) ltac:(cbn; tauto)).
Qed.
(** Exactly the four single vortex profiles can be run, whatever name is configured. *)
Theorem c90_usable : forall p f, localWindField p f = Computed <->
  In p ["holland"; "powell"; "schloemer"; "willoughby"]%string /\ In f documentedFields.
Proof.
  intros p f. unfold localWindField.
  assert (M : forall l k, has l k = true <-> In k l).
  { intros l k. unfold has. rewrite existsb_exists. split.
    - intros (x & I & E). apply String.eqb_eq in E. now subst.
    - intros I. exists k. split; [exact I | apply String.eqb_refl]. }
  destruct (has profileKeys p) eqn:A; cbn [negb].
  2:{ split; [discriminate|]. intros [I _]. exfalso.
      assert (T : In p profileKeys) by (cbn in I |- *; intuition). apply M in T. congruence. }
  destruct (has pressureMethods p) eqn:B; cbn [negb].
  2:{ split; [discriminate|]. intros [I _]. exfalso.
      assert (T : In p pressureMethods) by (cbn in I |- *; intuition). apply M in T. congruence. }
  apply M in A. apply M in B.
  destruct (has fieldKeys f) eqn:F; cbn [negb].
  - apply M in F. split; [intros _ | reflexivity]. split; [|cbn in F |- *; intuition].
    cbn in A, B |- *. intuition; subst; try discriminate.
  - split; [discriminate|]. intros [_ I]. exfalso.
    assert (T : In f fieldKeys) by (cbn in I |- *; intuition). apply M in T. congruence.
Qed.
Example c90_double : localWindField "doubleHolland" "kepert" = KeyError /\
  localWindField "doubleholland" "kepert" = UnboundLocalError.
Proof. split; reflexivity. Qed.

(** ** C91 *)
Inductive single := SHolland (beta : R) | SSchloemer | SPowell | SWilloughby.
(** the shape parameter of the wind profile and of the pressure profile of one storm; the radius is in km
    in the track and is multiplied by 1000 for the wind profile (wind/__init__.py:182) *)
Definition windShape (s : single) (lat dP rMaxKm : R) : R :=
  match s with
  | SHolland b => b | SSchloemer => 1
  | SPowell => windPowellBeta lat (rMaxKm * 1000)
  | SWilloughby => windWilloughbyBeta (willoughbySpeed dP) (rMaxKm * 1000) lat
  end.
Definition pressureShape (s : single) (lat dP rMaxKm : R) : R :=
  match s with
  | SHolland b => b | SSchloemer => 1
  | SPowell => prsPowellBeta lat rMaxKm
  | SWilloughby => prsWilloughbyBeta (willoughbySpeed dP) rMaxKm lat
  end.
Theorem c91_given_partial : forall b lat dP rMaxKm,
  windShape (SHolland b) lat dP rMaxKm = pressureShape (SHolland b) lat dP rMaxKm /\
  windShape SSchloemer lat dP rMaxKm = pressureShape SSchloemer lat dP rMaxKm.
Proof. intros. split; reflexivity. Qed.
Theorem c91_powell_refuted : ~ forall lat dP rMaxKm, 0 < dP -> 0 < rMaxKm ->
  windShape SPowell lat dP rMaxKm = pressureShape SPowell lat dP rMaxKm.
Proof.
  intros H. specialize (H 0 1000 50 ltac:(lra) ltac:(lra)). cbn [windShape pressureShape] in H.
  unfold windPowellBeta, prsPowellBeta, clamp in H. rewrite Rabs_R0 in H.
  rewrite !(proj2 (rlt_false _ _)) in H by lra. lra.
Qed.
(** The Willoughby shape parameters agree for a radius of one kilometre only. *)
Theorem c91_willoughby_refuted : forall lat dP rMaxKm, 0 < rMaxKm -> rMaxKm <> 1 ->
  windShape SWilloughby lat dP rMaxKm <> pressureShape SWilloughby lat dP rMaxKm.
Proof.
  intros lat dP r Hr N. cbn [windShape pressureShape]. unfold windWilloughbyBeta, prsWilloughbyBeta.
  replace (r * 1000 / 1000) with r by field. intros E.
  assert (L : ln r = 0) by lra. apply N. rewrite <- (exp_ln r Hr), L. apply exp_0.
Qed.

(** ** C92 *)
Theorem c92_holland_refuted : forall p V, hstorm p -> pf p <> 0 ->
  (forall r, hollandVelocity p r = Some (V r)) -> ~ continuity_pt V (prMax p).
Proof.
  intros p V H Hf E C. unfold hollandVelocity in E.
  destruct (secondDerivative p) as [d2|] eqn:S; [|discriminate (E 0)].
  apply (not_cont p d2 H Hf).
  assert (SG : rsign (pf p) * rsign (pf p) = 1).
  { destruct (Rtotal_order (pf p) 0) as [L | [L | L]]; [| now contradiction |].
    - rewrite rsign_neg by lra. lra.
    - rewrite rsign_pos by lra. lra. }
  assert (VE : forall r, hollandAbs p d2 r = rsign (pf p) * V r).
  { intros r. specialize (E r). injection E as E. rewrite <- E, <- Rmult_assoc, SG. ring. }
  apply eps_cont. intros e He.
  destruct (cont_eps _ _ C e He) as (d & Hd & K). exists d. split; [exact Hd|]. intros y Hy.
  rewrite !VE. specialize (K y Hy).
  replace (rsign (pf p) * V y - rsign (pf p) * V (prMax p)) with (rsign (pf p) * (V y - V (prMax p))) by ring.
  rewrite Rabs_mult. pose proof (rsign_abs (pf p)). pose proof (Rabs_pos (V y - V (prMax p))).
  pose proof (Rabs_pos (rsign (pf p))). nra.
Qed.
(** The value just outside is below the value at the radius of maximum wind. *)
Theorem c92_gap : forall p, hstorm p -> pf p <> 0 ->
  outer p (prMax p) < pvMax p /\ forall d2, hollandAbs p d2 (prMax p) = pvMax p.
Proof.
  intros p H Hf. split; [now apply outer_gap|]. intros d2. unfold hollandAbs.
  rewrite (proj2 (rle_true _ _)) by lra. apply core_rMax. destruct H as [(_ & _ & ?) _]. lra.
Qed.
Theorem c92_others_partial : forall p r, 0 < prMax p -> 0 < r ->
  continuity_pt (jelVelocity p) r /\ continuity_pt (rankVelocity p) r.
Proof. intros p r Hm Hr. split; [apply jel_cont; lra | now apply rank_cont]. Qed.

(** ** C93 *)
Theorem c93_runs_partial : forall p r, hstorm p ->
  (2 - pbeta p ^ 2) * (prMax p * pf p) ^ 2 < 4 * pbeta p ^ 2 * pvMax p ^ 2 ->
  hollandVelocity p r <> None /\ hollandVorticity p r <> None.
Proof.
  intros p r H L. unfold hollandVelocity, hollandVorticity.
  destruct (proj1 (second_sign p H)) as [_ N]. specialize (N L).
  assert (E : secondDerivative p = Some (rawSecond p)).
  { unfold secondDerivative. cbv zeta. rewrite (proj2 (rlt_false 0 (rawSecond p))) by lra. cbn [andb].
    rewrite (proj2 (rlt_true (rawSecond p) 0)) by lra. reflexivity. }
  rewrite E. split; discriminate.
Qed.
(** For deficits of at least 0.5 Pa that condition is necessary. *)
Theorem c93_exact : forall p r, hstorm p -> 1 / 2 <= pdP p ->
  (hollandVelocity p r = None <-> 4 * pbeta p ^ 2 * pvMax p ^ 2 <= (2 - pbeta p ^ 2) * (prMax p * pf p) ^ 2).
Proof.
  intros p r H Hd. rewrite <- (proj1 (second_none p H Hd)). unfold hollandVelocity.
  destruct (secondDerivative p); split; congruence.
Qed.
Theorem c93_refuted : ~ forall lat eP cP rMax r, cP < eP -> 0 < rMax -> 0 < r ->
  hollandVelocity (mkSchloemer lat eP cP rMax) r <> None.
Proof.
  intros H. apply (H 30 101301 101300 50000 1); try lra.
  unfold hollandVelocity. pose proof weak_none as N. unfold weak in N. rewrite N. reflexivity.
Qed.

(** ** C94 *)
Theorem c94_core_partial : forall p d2 r, 0 < r -> r <= prMax p -> exists V',
  derivable_pt_lim (core d2 (firstDerivative p) (pvMax p) (prMax p)) r V' /\
  hollandVortAbs p d2 r = V' + hollandAbs p d2 r / r.
Proof.
  intros p d2 r Hr L. eexists. split; [apply core_deriv|].
  unfold hollandVortAbs, hollandAbs. rewrite (proj2 (rle_true r (prMax p)) L). apply core_vort. lra.
Qed.
(** Outside, the value is too large by twice the Coriolis parameter. *)
Theorem c94_outer_refuted : forall p d2 r, storm p -> prMax p < r -> exists V',
  derivable_pt_lim (hollandAbs p d2) r V' /\
  hollandVortAbs p d2 r = V' + hollandAbs p d2 r / r + 2 * Rabs (pf p).
Proof.
  intros p d2 r S L. pose proof S as (_ & _ & Hm). exists (outerD1 p r). split.
  - apply D_ext with (f := outer p); [|apply outer_deriv; [exact S | lra]].
    exists (r - prMax p). split; [lra|]. intros y Hy. apply Rabs_def2 in Hy.
    unfold hollandAbs. rewrite (proj2 (rle_false y (prMax p))) by lra. reflexivity.
  - unfold hollandVortAbs, hollandAbs. rewrite (proj2 (rle_false r (prMax p))) by lra.
    apply outer_vort; [exact S | lra].
Qed.
Theorem c94_jelesnianski_refuted : ~ forall p r V', 0 < pvMax p -> 0 < prMax p -> 0 < r ->
  derivable_pt_lim (jelVelocity p) r V' -> jelVorticity p r = V' + jelVelocity p r / r.
Proof.
  intros H. set (p := {| pf := 1; pdP := 1; prMax := 1; pbeta := 1; pvMax := 1 |}).
  pose proof (H p 1 _ ltac:(cbn; lra) ltac:(cbn; lra) ltac:(lra) (jel_deriv p 1 ltac:(cbn; lra))) as E.
  unfold jelVorticity, jelVelocity, p in E. cbn [pf pvMax prMax] in E. rewrite rsign_pos in E by lra. lra.
Qed.
Theorem c94_rankine_refuted : ~ forall p r V', 0 < pvMax p -> 0 < prMax p -> 0 < r -> r < prMax p ->
  derivable_pt_lim (rankVelocity p) r V' -> rankVorticity p r = V' + rankVelocity p r / r.
Proof.
  intros H. set (p := {| pf := 1; pdP := 1; prMax := 4; pbeta := 1; pvMax := 4 |}).
  assert (D : derivable_pt_lim (rankVelocity p) 2 1).
  { apply D_ext with (f := fun y => y).
    - exists 1. split; [lra|]. intros y Hy. apply Rabs_def2 in Hy. unfold rankVelocity, p. cbn [pf prMax pvMax].
      rewrite (proj2 (rle_true y 4)) by lra. rewrite rsign_pos by lra. field.
    - apply D_id. }
  pose proof (H p 2 1 ltac:(cbn; lra) ltac:(cbn; lra) ltac:(lra) ltac:(cbn; lra) D) as E.
  unfold rankVorticity, rankVelocity, p in E. cbn [pf pvMax prMax] in E.
  rewrite (proj2 (rle_true 2 4)) in E by lra. rewrite rsign_pos in E by lra. lra.
Qed.

(** ** C95 *)
Theorem c95_profiles : forall p r,
  hollandVelocity (mirror p) r = option_map Ropp (hollandVelocity p r) /\
  hollandVorticity (mirror p) r = option_map Ropp (hollandVorticity p r) /\
  jelVelocity (mirror p) r = - jelVelocity p r /\ rankVelocity (mirror p) r = - rankVelocity p r.
Proof.
  intros. split; [apply mirror_velocity|]. split; [apply mirror_vorticity|]. split; [apply mirror_jel | apply mirror_rank].
Qed.
(** reflected in the equator: directions change sign, the north component changes sign *)
Theorem c95_fields_partial : forall f rMax Vm Vabs V Z r lam vFm th tm,
  kepert (- f) rMax Vm (- V) (- Z) r (- lam) vFm (- th) = flipY (kepert f rMax Vm V Z r lam vFm th) /\
  mcconochie (- f) rMax Vabs (- V) r (- lam) vFm (- th) (- tm) = flipY (mcconochie f rMax Vabs V r lam vFm th tm).
Proof. intros. split; [apply kepert_mirror | apply mc_mirror]. Qed.
Theorem c95_hubbert_refuted : ~ forall f rMax V r lam vFm th tm,
  hubbert (- f) rMax (- V) r (- lam) vFm (- th) (- tm) = flipY (hubbert f rMax V r lam vFm th tm).
Proof. intros H. exact (hubbert_mirror_fails (H _ _ _ _ _ _ _ _)). Qed.
Theorem c95_double_refuted : forall p b1 b2 m2 r, 0 < pf p -> 0 < r ->
  doubleOuter (mirror p) b1 b2 m2 r <> - doubleOuter p b1 b2 m2 r.
Proof.
  intros p b1 b2 m2 r Hf Hr E. rewrite double_asym in E by assumption.
  assert (0 < r * pf p) by now apply Rmult_lt_0_compat. lra.
Qed.
(** the mirrored profile is the profile of the mirrored latitude *)
Example c95_latitude : forall lat eP cP rMax beta, mkHolland (- lat) eP cP rMax beta = mirror (mkHolland lat eP cP rMax beta).
Proof.
  intros. unfold mkHolland, mirror. cbn [pf pdP prMax pbeta pvMax]. f_equal.
  unfold coriolis. replace (- lat * PI / 180) with (- (lat * PI / 180)) by field. rewrite sin_neg. ring.
Qed.

(** ** C96 *)
Theorem c96_velocity_partial : forall p r, hstorm p -> 1 / 2 <= pdP p -> pbeta p ^ 2 <= 12 -> pf p <> 0 -> 0 < r ->
  fhollandVelocity p r = hollandVelocity p r.
Proof. exact compiled_velocity. Qed.
Theorem c96_field_partial : forall p d2 V Z r lam vFm th, hstorm p -> 1 / 2 <= pdP p -> pbeta p <= 2 -> pf p <> 0 -> 0 < r ->
  secondDerivative p = Some d2 -> hollandVelocity p r = Some V -> hollandVorticity p r = Some Z ->
  fhollandVorticity p r = Some Z /\
  fkepert p d2 r lam vFm th = kepert (pf p) (prMax p) (pvMax p) V Z r lam vFm th.
Proof.
  intros p d2 V Z r lam vFm th H Hd Hb Hf Hr S HV HZ. split; [|now apply compiled_kepert].
  rewrite compiled_vort by assumption. exact HZ.
Qed.
(** the Powell profile always satisfies the condition on the shape parameter *)
Example c96_powell : forall lat eP cP rMax, 0 < rMax -> 0 < pbeta (mkPowell lat eP cP rMax) <= 2.
Proof.
  intros. unfold mkPowell, mkHolland. cbn [pbeta]. unfold windPowellBeta, clamp.
  pose proof (Rabs_pos lat).
  destruct (rlt _ (8 / 10)) eqn:E; [lra|]. apply rlt_false in E.
  rewrite (proj2 (rlt_false (22 / 10) _)) by lra. lra.
Qed.
Theorem c96_reversed_refuted : ~ forall lat eP cP rMax beta r, cP < eP -> 0 < rMax -> 0 < beta -> 0 < r ->
  coriolis lat <> 0 ->
  fhollandVelocity (mkHolland lat eP cP rMax beta) r = hollandVelocity (mkHolland lat eP cP rMax beta) r.
Proof.
  intros H. apply sharp_disagree. unfold sharp. apply H; try lra.
  rewrite coriolis_30. pose proof PI_range. lra.
Qed.
Theorem c96_equator_refuted : exists eP cP rMax beta r w, cP < eP /\ 0 < w /\
  hollandVelocity (mkHolland 0 eP cP rMax beta) r = Some 0 /\
  fhollandVelocity (mkHolland 0 eP cP rMax beta) r = Some w.
Proof.
  destruct equator_winds as (A & B & C).
  exists 101300, 96300, 50000, 2, 50000, (pvMax equator). repeat split; try assumption; lra.
Qed.

(** ** C97 *)
Theorem c97_still : forall f rMax Vabs Vm w Z r lam th tm, 0 <= w -> 0 < rMax -> 0 < r ->
  let V := rsign f * w in
  radial (hubbert f rMax V r lam 0 th tm) lam <= 0 /\ 0 <= rsign f * tangential (hubbert f rMax V r lam 0 th tm) lam /\
  radial (mcconochie f rMax Vabs V r lam 0 th tm) lam <= 0 /\
  0 <= rsign f * tangential (mcconochie f rMax Vabs V r lam 0 th tm) lam /\
  radial (kepert f rMax Vm V Z r lam 0 th) lam <= 0 /\
  exists k, 1 / 2 <= k <= 1 /\ tangential (kepert f rMax Vm V Z r lam 0 th) lam = k * V.
Proof.
  intros f rMax Vabs Vm w Z r lam th tm Hw Hm Hr V. unfold V.
  destruct (hubbert_still f rMax w r lam th tm Hw) as [A1 A2].
  destruct (mc_still f rMax Vabs w r lam th tm Hw Hm Hr) as [B1 B2].
  destruct (kepert_still f rMax Vm w Z r lam th Hw) as [K1 K2].
  repeat split; assumption.
Qed.

(** ** C98 *)
Theorem c98_bounds_partial : forall p r, 0 < pvMax p -> 0 < prMax p -> 0 < r ->
  Rabs (jelVelocity p r) <= pvMax p /\ Rabs (rankVelocity p r) <= pvMax p /\
  (hstorm p -> 0 <= outer p r <= pvMax p).
Proof.
  intros p r Hv Hm Hr. split; [now apply jel_bound|]. split; [now apply rank_bound|].
  intros H. now apply outer_bounds.
Qed.
(** Inside, the Holland profile exceeds the maximum wind away from the equator. *)
Theorem c98_core_refuted : forall p d2, storm p -> pf p <> 0 ->
  exists r, 0 < r < prMax p /\ pvMax p < hollandAbs p d2 r.
Proof.
  intros p d2 S Hf. destruct (core_exceeds p d2 S Hf) as (r & Hr & L). exists r. split; [exact Hr|].
  unfold hollandAbs. rewrite (proj2 (rle_true r (prMax p))) by lra. exact L.
Qed.
(** The wind turns with the storm for shape parameters up to 2 sqrt 3. *)
Theorem c98_cyclonic_partial : forall p r V, hstorm p -> 1 / 2 <= pdP p -> pbeta p ^ 2 <= 12 -> 0 < r ->
  hollandVelocity p r = Some V -> 0 <= rsign (pf p) * V.
Proof.
  intros p r V H Hd Hb Hr E. unfold hollandVelocity in E. destruct (secondDerivative p) as [d2|] eqn:S; [|discriminate].
  injection E as <-. pose proof (holland_cyclonic p d2 r H Hd Hb Hr S).
  assert (0 <= rsign (pf p) * rsign (pf p)) by apply Rle_0_sqr. rewrite <- Rmult_assoc. now apply Rmult_le_pos.
Qed.
Theorem c98_reversed_refuted : ~ forall lat eP cP rMax beta r V, cP < eP -> 0 < rMax -> 0 < beta -> 0 < r ->
  hollandVelocity (mkHolland lat eP cP rMax beta) r = Some V -> 0 <= rsign (coriolis lat) * V.
Proof.
  intros H. destruct sharp_reversed as (d2 & S & N).
  assert (F : 0 < pf sharp) by (destruct sharp_facts as (_ & _ & -> & _); pose proof PI_range; lra).
  assert (E : hollandVelocity sharp 10 = Some (rsign (pf sharp) * hollandAbs sharp d2 10)) by (unfold hollandVelocity; rewrite S; reflexivity).
  specialize (H 30 101300 96300 1000 4 10 _ ltac:(lra) ltac:(lra) ltac:(lra) ltac:(lra) E).
  change (coriolis 30) with (pf sharp) in H. rewrite rsign_pos in H by exact F. lra.
Qed.

(** ** C99 *)
Theorem c99_order_refuted : ~ forall f rMax Vabs V V' r lam th tm, Rabs V <= Rabs V' ->
  speed (mcconochie f rMax Vabs V r lam 0 th tm) <= speed (mcconochie f rMax Vabs V' r lam 0 th tm).
Proof.
  intros H. destruct sfc_drop as [D L].
  specialize (H 1 1 1 (194999 / 10000) (195 / 10) 1 0 0 0). rewrite !mc_speed in H. rewrite !Rabs_right in H by lra.
  specialize (H ltac:(lra)). lra.
Qed.
Theorem c99_order_partial : forall f rMax Vabs V V' r lam th tm, Rabs V <= Rabs V' ->
  speed (mcconochie f rMax Vabs V r lam 0 th tm) <= speed (mcconochie f rMax Vabs V' r lam 0 th tm) + 1 / 100.
Proof.
  intros f rMax Vabs V V' r lam th tm L. rewrite !mc_speed.
  pose proof (Rabs_pos V). pose proof (sfc_tol (Rabs V) (Rabs V') ltac:(lra)). lra.
Qed.
Theorem c99_weaker : forall f rMax Vabs V r lam th tm,
  speed (mcconochie f rMax Vabs V r lam 0 th tm) <= Rabs V.
Proof.
  intros. rewrite mc_speed. unfold sfc. pose proof (swrf_range (Rabs V)). pose proof (Rabs_pos V). nra.
Qed.

(** ** C111 *)
(** A storm that moves in another direction has the same wind field, turned. *)
Theorem c111_turns : forall f rMax Vabs Vm V Z r lam vFm th tm d,
  let turned (w w' : R * R) := fst w' = fst w * cos d - snd w * sin d /\ snd w' = fst w * sin d + snd w * cos d in
  turned (hubbert f rMax V r lam vFm th tm) (hubbert f rMax V r (lam + d) vFm (th + d) tm) /\
  turned (mcconochie f rMax Vabs V r lam vFm th tm) (mcconochie f rMax Vabs V r (lam + d) vFm (th + d) tm) /\
  turned (kepert f rMax Vm V Z r lam vFm th) (kepert f rMax Vm V Z r (lam + d) vFm (th + d)).
Proof.
  intros. unfold turned. rewrite hubbert_turn, mc_turn, kepert_turn. unfold turn. cbn [fst snd]. auto.
Qed.
(** Where the gradient wind vanishes, the third field is the motion of the storm, in its direction. *)
Theorem c111_calm : forall f rMax Vm Z r lam vFm th, 0 < Vm -> 0 <= vFm <= Vm -> exists k,
  kepert f rMax Vm 0 Z r lam vFm th = (k * cos th, k * sin th) /\ 0 <= k <= 5 / 4 * vFm /\
  (5 * vFm <= Vm -> r <= 2 * rMax -> k = vFm).
Proof.
  intros f rMax Vm Z r lam vFm th Hv Hf. exists (kvt Vm vFm rMax r).
  split; [apply kepert_calm|]. split; [now apply kvt_bound|]. intros H5 Hr.
  unfold kvt. rewrite (proj2 (rlt_false _ r)) by lra. unfold umod.
  destruct (rlt 0 vFm) eqn:E; [|reflexivity]. apply rlt_true in E.
  rewrite (proj2 (rlt_false (Vm / vFm) 5)); [reflexivity|]. apply (Rmult_le_reg_r vFm); [exact E|].
  unfold Rdiv. rewrite Rmult_assoc, Rinv_l; lra.
Qed.
(** On opposite sides of the storm the effects of the motion are opposite. *)
Theorem c111_opposite : forall f rMax Vm V Z r lam vFm th, f <> 0 ->
  radial (kepert f rMax Vm V Z r lam vFm th) lam + radial (kepert f rMax Vm V Z r (lam + PI) vFm th) (lam + PI) =
  2 * radial (kepert f rMax Vm V Z r lam 0 th) lam /\
  tangential (kepert f rMax Vm V Z r lam vFm th) lam + tangential (kepert f rMax Vm V Z r (lam + PI) vFm th) (lam + PI) =
  2 * tangential (kepert f rMax Vm V Z r lam 0 th) lam.
Proof.
  intros f rMax Vm V Z r lam vFm th Hf. unfold kepert.
  destruct (cartesian_polar (kepertPolar (rsign f) f rMax Vm V Z r lam vFm th) lam) as [-> ->].
  destruct (cartesian_polar (kepertPolar (rsign f) f rMax Vm V Z r (lam + PI) vFm th) (lam + PI)) as [-> ->].
  destruct (cartesian_polar (kepertPolar (rsign f) f rMax Vm V Z r lam 0 th) lam) as [-> ->].
  assert (S : rsign f * rsign f = 1).
  { destruct (Rlt_le_dec f 0); [rewrite rsign_neg by lra|rewrite rsign_pos by lra]; ring. }
  apply kepertPolar_opposite; [|exact S]. intros E. rewrite E in S. lra.
Qed.
(** A storm moving north at 5 m/s blows northward where there is no gradient wind. *)
Example c111_example : kepert 1 1 50 0 0 1 0 5 (PI / 2) = (0, 5).
Proof.
  destruct (c111_calm 1 1 50 0 1 0 5 (PI / 2) ltac:(lra) ltac:(lra)) as (k & E & _ & K).
  rewrite E, (K ltac:(lra) ltac:(lra)), cos_PI2, sin_PI2. f_equal; ring.
Qed.

(** the hypotheses on storms are met by the storms of any latitude *)
Example hstorm_example : forall lat eP cP rMax beta, 10000 <= cP -> cP < eP -> 0 < rMax -> 0 < beta ->
  hstorm (mkHolland lat eP cP rMax beta).
Proof.
  intros. unfold hstorm, storm, mkHolland. cbn [pf pdP prMax pbeta pvMax]. rewrite !toPa_hi by lra. repeat split; lra.
Qed.

Print Assumptions c52_range.
Print Assumptions c52_double_range.
Print Assumptions c52_monotone.
Print Assumptions c52_double_monotone.
Print Assumptions c52_willoughby_refuted.
Print Assumptions c53_core.
Print Assumptions c53_prescribed.
Print Assumptions c54_reject.
Print Assumptions c54_inverse.
Print Assumptions c54_inverse_back.
Print Assumptions c54_atkinson_partial.
Print Assumptions c54_atkinson_refuted.
Print Assumptions c90_documented_refuted.
Print Assumptions c90_usable.
Print Assumptions c91_given_partial.
Print Assumptions c91_powell_refuted.
Print Assumptions c91_willoughby_refuted.
Print Assumptions c92_holland_refuted.
Print Assumptions c92_gap.
Print Assumptions c92_others_partial.
Print Assumptions c93_runs_partial.
Print Assumptions c93_exact.
Print Assumptions c93_refuted.
Print Assumptions c94_core_partial.
Print Assumptions c94_outer_refuted.
Print Assumptions c94_jelesnianski_refuted.
Print Assumptions c94_rankine_refuted.
Print Assumptions c95_profiles.
Print Assumptions c95_fields_partial.
Print Assumptions c95_hubbert_refuted.
Print Assumptions c95_double_refuted.
Print Assumptions c96_velocity_partial.
Print Assumptions c96_field_partial.
Print Assumptions c96_reversed_refuted.
Print Assumptions c96_equator_refuted.
Print Assumptions c97_still.
Print Assumptions c98_bounds_partial.
Print Assumptions c98_core_refuted.
Print Assumptions c98_cyclonic_partial.
Print Assumptions c98_reversed_refuted.
Print Assumptions c99_order_refuted.
Print Assumptions c99_order_partial.
Print Assumptions c99_weaker.
Print Assumptions c111_turns.
Print Assumptions c111_calm.
Print Assumptions c111_opposite.
