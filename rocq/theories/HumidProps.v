(** C154, C155: humidity conversions. *)
From Coq Require Import Reals ZArith Bool Lia Lra Psatz.
From Verif Require Import CircleModel CircleProofs HumidModel HumidProofs.
Open Scope R_scope.

Definition metric (u : punit) : Prop := u = KPa \/ u = HPa \/ u = PaU \/ u = Pascals.
Lemma metric_round u v : metric u -> toKPa u (fromKPa u v) = v /\ fromKPa u (toKPa u v) = v.
Proof. intros [-> | [-> | [-> | ->]]]; cbn; split; field. Qed.

(** C154: dew point and vapour pressure are inverse to each other. *)
Theorem c154_round_trip : forall u, metric u ->
  (forall t, - (2373 / 10) < t -> vapPrToDewPoint (dewPointToVapPr t u) u = Some t) /\
  (forall vp, 0 < toKPa u vp -> ln (toKPa u vp) < 1678 / 100 ->
     exists t, vapPrToDewPoint vp u = Some t /\ - (2373 / 10) < t /\ dewPointToVapPr t u = vp).
Proof.
  intros u M. split.
  - intros t H. unfold vapPrToDewPoint, dewPointToVapPr. destruct (metric_round u (exp ((1678 / 100 * t - 1169 / 10) / (t + 2373 / 10))) M) as [E _].
    rewrite E, ln_exp. pose proof (expo_top t H) as P.
    replace (rlt 0 (exp ((1678 / 100 * t - 1169 / 10) / (t + 2373 / 10)))) with true by (symmetry; apply rlt_true, exp_pos).
    destruct (Req_EM_T _ _) as [X|X]; [lra|]. f_equal. apply (dew_expo t H).
  - intros vp P L. unfold vapPrToDewPoint. replace (rlt 0 (toKPa u vp)) with true by (symmetry; apply rlt_true; exact P).
    destruct (Req_EM_T _ _) as [X|X]; [lra|]. eexists. split; [reflexivity|].
    change ((1169 / 10 + 2373 / 10 * ln (toKPa u vp)) / (1678 / 100 - ln (toKPa u vp))) with (dewOf (ln (toKPa u vp))).
    split; [apply dew_dom; exact L|]. unfold dewPointToVapPr. rewrite expo_dew by exact X. rewrite exp_ln by exact P.
    apply (metric_round u vp M).
Qed.
Print Assumptions c154_round_trip.
Example c154_round_trip_example : metric HPa /\ - (2373 / 10) < 20 /\ 0 < toKPa HPa 10 /\ ln (toKPa HPa 10) < 1678 / 100.
Proof. unfold metric. cbn. replace (10 * (1 / 10)) with 1 by field. rewrite ln_1. repeat split; try lra. auto. Qed.

(** Saturation pressures are positive and increase with the temperature, in every unit. *)
Theorem c154_saturation : forall u a b, - (2373 / 10) < a -> - (2373 / 10) < b ->
  0 < satVapPr a u /\ (satVapPr a u < satVapPr b u <-> a < b) /\ satVapPr a u = dewPointToVapPr a u.
Proof.
  intros u a b A B. split; [apply sat_pos|]. split; [|reflexivity].
  split; [|apply sat_lt; exact A]. intros L. destruct (Rtotal_order a b) as [C|[C|C]]; [exact C | subst; lra |].
  pose proof (sat_lt u b a B C). lra.
Qed.
Print Assumptions c154_saturation.

(** Relative humidity from the dew point is a percentage, exactly when the dew point does not exceed the
    temperature, 100 only at saturation, and increases with the dew point. *)
Definition ten (t : R) : R := Rpower 10 ((75 / 10 * t) / (2373 / 10 + t)).
Lemma ten_lt a b : - (2373 / 10) < a -> a < b -> ten a < ten b.
Proof.
  intros A L. unfold ten. apply Rpower_lt; [lra|].
  assert (E : forall t, - (2373 / 10) < t -> (75 / 10 * t) / (2373 / 10 + t) = 75 / 10 - (75 / 10 * (2373 / 10)) / (2373 / 10 + t)) by (intros; field; lra).
  rewrite !E by lra.
  assert (I : / (2373 / 10 + b) < / (2373 / 10 + a)) by (apply Rinv_lt_contravar; [apply Rmult_lt_0_compat; lra | lra]).
  unfold Rdiv at 3 7. pose proof (Rmult_lt_compat_l (75 / 10 * (2373 / 10)) _ _ ltac:(lra) I). lra.
Qed.
Lemma ten_pos t : 0 < ten t. Proof. apply exp_pos. Qed.
Lemma ratio a b : 0 < a -> 0 < b -> 611 / 100 * a / (611 / 100 * b) * 100 = 100 * (a / b).
Proof. intros. field. lra. Qed.
Lemma dew_rh dry dew : dewPointToRH dry dew =
  if rlt 100 (100 * (ten dew / ten dry)) || rlt (100 * (ten dew / ten dry)) 0 then None else Some (100 * (ten dew / ten dry)).
Proof. unfold dewPointToRH. fold (ten dry) (ten dew). now rewrite (ratio (ten dew) (ten dry) (ten_pos _) (ten_pos _)). Qed.
Lemma over a b c : 0 < c -> a < b -> a / c < b / c.
Proof. intros C L. unfold Rdiv. apply Rmult_lt_compat_r; [now apply Rinv_0_lt_compat | exact L]. Qed.
Theorem c154_dew_point_humidity : forall dry dew, - (2373 / 10) < dry -> - (2373 / 10) < dew ->
  (dry < dew -> dewPointToRH dry dew = None) /\
  (dew < dry -> exists rh, dewPointToRH dry dew = Some rh /\ 0 < rh < 100) /\
  (dewPointToRH dry dry = Some 100) /\
  (forall dew', dew < dew' -> dew' <= dry -> exists rh rh', dewPointToRH dry dew = Some rh /\ dewPointToRH dry dew' = Some rh' /\ rh < rh').
Proof.
  intros dry dew A B.
  assert (One : ten dry / ten dry = 1) by (pose proof (ten_pos dry); field; lra).
  assert (Low : forall d, - (2373 / 10) < d -> d <= dry -> dewPointToRH dry d = Some (100 * (ten d / ten dry)) /\ 0 < ten d / ten dry /\ (d < dry -> ten d / ten dry < 1)).
  { intros d D L. assert (Z : 0 < ten d / ten dry) by (apply Rdiv_lt_0_compat; apply ten_pos).
    assert (U : d < dry -> ten d / ten dry < 1).
    { intros C. rewrite <- One. apply over; [apply ten_pos | now apply ten_lt]. }
    assert (U' : ten d / ten dry <= 1) by (destruct L as [L|L]; [apply U in L; lra | subst d; lra]).
    split; [|split; assumption]. rewrite dew_rh.
    replace (rlt 100 (100 * (ten d / ten dry))) with false by (symmetry; apply rlt_false; lra).
    replace (rlt (100 * (ten d / ten dry)) 0) with false by (symmetry; apply rlt_false; lra). reflexivity. }
  split; [|split; [|split]].
  - intros L. rewrite dew_rh. replace (rlt 100 (100 * (ten dew / ten dry))) with true; [reflexivity|].
    symmetry. apply rlt_true. pose proof (over (ten dry) (ten dew) (ten dry) (ten_pos _) (ten_lt _ _ A L)). lra.
  - intros L. destruct (Low dew B ltac:(lra)) as (E & Z & U). specialize (U L). exists (100 * (ten dew / ten dry)). split; [exact E | lra].
  - destruct (Low dry A ltac:(lra)) as (E & _). rewrite E, One. f_equal. ring.
  - intros d' L1 L2. destruct (Low dew B ltac:(lra)) as (E & _). destruct (Low d' ltac:(lra) L2) as (E' & _).
    exists (100 * (ten dew / ten dry)), (100 * (ten d' / ten dry)). split; [exact E|]. split; [exact E'|].
    pose proof (over (ten dew) (ten d') (ten dry) (ten_pos _) (ten_lt _ _ B L1)). lra.
Qed.
Print Assumptions c154_dew_point_humidity.

(** The dew point of a relative humidity gives that humidity back. *)
Theorem c154_humidity_dew_point : forall u rh t, metric u -> - (2373 / 10) < t -> 0 < rh <= 100 ->
  exists td, rHToDewPoint rh t = Dew td /\ - (2373 / 10) < td <= t /\
    vapPrToRH (dewPointToVapPr td u) (satVapPr t u) = rh.
Proof.
  intros u rh t M H [P L]. unfold rHToDewPoint. set (x := (1678 / 100 * t - 1169 / 10) / (t + 2373 / 10)).
  assert (Sx : satVapPr t KPa = exp x) by reflexivity. rewrite Sx. pose proof (expo_top t H) as TT. fold x in TT.
  pose proof (exp_pos x) as EP. assert (V : 0 < rh / 100 * exp x) by (apply Rmult_lt_0_compat; lra).
  replace (rlt 0 (rh / 100 * exp x)) with true by (symmetry; apply rlt_true; exact V).
  assert (LE : ln (rh / 100 * exp x) <= x).
  { pose proof (ln_exp x) as LX. destruct (Req_dec (rh / 100 * exp x) (exp x)) as [->|N]; [lra|].
    assert (ln (rh / 100 * exp x) < ln (exp x)) by (apply ln_increasing; [exact V | nra]). lra. }
  unfold vapPrToDewPoint, toKPa. replace (rlt 0 (rh / 100 * exp x)) with true by (symmetry; apply rlt_true; exact V).
  destruct (Req_EM_T _ _) as [X|X]; [lra|].
  change ((1169 / 10 + 2373 / 10 * ln (rh / 100 * exp x)) / (1678 / 100 - ln (rh / 100 * exp x))) with (dewOf (ln (rh / 100 * exp x))).
  assert (D : dewOf (ln (rh / 100 * exp x)) <= t).
  { pose proof (dew_expo t H) as DE. fold x in DE. destruct LE as [LE|LE]; [pose proof (dew_mono _ _ LE TT); lra | rewrite LE; lra]. }
  replace (rlt t (dewOf (ln (rh / 100 * exp x)))) with false by (symmetry; apply rlt_false; exact D).
  exists (dewOf (ln (rh / 100 * exp x))). split; [reflexivity|]. split; [split; [apply dew_dom; lra | exact D]|].
  unfold dewPointToVapPr. rewrite expo_dew by exact X. rewrite exp_ln by exact V.
  unfold vapPrToRH, satVapPr. fold x.
  assert (F : exists c, 0 < c /\ forall v, fromKPa u v = c * v).
  { destruct M as [-> | [-> | [-> | ->]]]; [exists 1 | exists 10 | exists 1000 | exists 1000]; (split; [lra | intros; cbn; ring]). }
  destruct F as (c & C & F). rewrite !F. assert (0 < c * exp x) by (apply Rmult_lt_0_compat; lra).
  destruct (Req_EM_T (c * exp x) 0) as [Y|Y]; [lra|].
  replace (c * (rh / 100 * exp x) / (c * exp x) * 100) with rh by (field; split; lra).
  replace (rlt 100 rh) with false by (symmetry; apply rlt_false; exact L).
  replace (rlt rh 0) with false by (symmetry; apply rlt_false; lra). reflexivity.
Qed.
Print Assumptions c154_humidity_dew_point.
Example c154_humidity_example : metric HPa /\ - (2373 / 10) < 25 /\ 0 < 60 <= 100.
Proof. unfold metric. repeat split; try lra. auto. Qed.

Lemma air_pos elev : 0 < elevToAirPr elev KPa <= 101325 / 1000.
Proof.
  unfold elevToAirPr. cbn [fromKPa]. destruct (rlt 0 elev) eqn:E; [|lra]. apply rlt_true in E.
  pose proof (exp_pos (- (1184 / 10000000) * elev)). pose proof exp_0. pose proof (exp_increasing (- (1184 / 10000000) * elev) 0 ltac:(lra)). lra.
Qed.
(** Air pressure falls with the elevation; at and below sea level it is 101.325 kPa. *)
Theorem c154_elevation : forall u a b,
  (a <= 0 -> elevToAirPr a u = fromKPa u (101325 / 1000)) /\
  (0 <= a -> a < b -> elevToAirPr b u < elevToAirPr a u) /\ 0 < elevToAirPr a u.
Proof.
  intros u a b. split; [|split].
  - intros A. unfold elevToAirPr. now replace (rlt 0 a) with false by (symmetry; apply rlt_false; exact A).
  - intros A L. unfold elevToAirPr. replace (rlt 0 b) with true by (symmetry; apply rlt_true; lra).
    apply fromKPa_lt. destruct (rlt 0 a) eqn:E.
    + apply Rmult_lt_compat_l; [lra|]. apply exp_increasing. lra.
    + pose proof exp_0. pose proof (exp_increasing (- (1184 / 10000000) * b) 0 ltac:(lra)). lra.
  - unfold elevToAirPr. apply fromKPa_pos. destruct (rlt 0 a); [|lra]. apply Rmult_lt_0_compat; [lra | apply exp_pos].
Qed.
Print Assumptions c154_elevation.

(** A wet bulb at (or above) the dry bulb means saturation; below, the vapour pressure is that of the psychrometer
    equation and stays below the saturation pressure at the wet bulb; a higher wet bulb means more vapour. *)
Lemma vap_le db wb elev u : wb <= db -> wetBulbToVapPr db wb elev u =
  fromKPa u (satVapPr wb KPa - 66 / 100000 * (1 + 115 / 100000 * wb) * elevToAirPr elev KPa * (db - wb)).
Proof. intros H. unfold wetBulbToVapPr. now replace (rlt db wb) with false by (symmetry; apply rlt_false; exact H). Qed.
Lemma vap_ge db wb elev u : db <= wb -> wetBulbToVapPr db wb elev u = satVapPr db u.
Proof.
  intros H. unfold wetBulbToVapPr. destruct (rlt db wb) eqn:E.
  - unfold satVapPr. cbn [fromKPa]. f_equal. ring.
  - apply rlt_false in E. replace wb with db by lra. unfold satVapPr. cbn [fromKPa]. f_equal. ring.
Qed.
Theorem c154_wet_bulb : forall db wb elev u, - (2373 / 10) < wb -> - (2373 / 10) < db -> db < 390 ->
  (db <= wb -> wetBulbToVapPr db wb elev u = satVapPr db u /\ wetBulbToDewPoint db wb elev = Some db) /\
  (wb < db -> wetBulbToVapPr db wb elev u < satVapPr wb u /\
     (0 < wetBulbToVapPr db wb elev KPa -> exists td, wetBulbToDewPoint db wb elev = Some td /\ - (2373 / 10) < td < wb)) /\
  (forall wb', wb < wb' <= db -> wetBulbToVapPr db wb elev u < wetBulbToVapPr db wb' elev u).
Proof.
  intros db wb elev u W D D2. pose proof (air_pos elev) as [AP AL].
  assert (Lw : wb < db -> wetBulbToVapPr db wb elev KPa < satVapPr wb KPa).
  { intros L. rewrite vap_le by lra. cbn [fromKPa].
    assert (0 < 66 / 100000 * (1 + 115 / 100000 * wb) * elevToAirPr elev KPa * (db - wb)) by (repeat apply Rmult_lt_0_compat; lra). lra. }
  split; [|split].
  - intros L. split; [now apply vap_ge|]. unfold wetBulbToDewPoint. rewrite vap_ge by exact L.
    apply (proj1 (c154_round_trip KPa (or_introl eq_refl)) db D).
  - intros L. specialize (Lw L). split.
    + rewrite vap_le in * by lra. change (satVapPr wb u) with (fromKPa u (satVapPr wb KPa)). apply fromKPa_lt. exact Lw.
    + intros P. unfold wetBulbToDewPoint, vapPrToDewPoint. cbn [toKPa].
      replace (rlt 0 (wetBulbToVapPr db wb elev KPa)) with true by (symmetry; apply rlt_true; exact P).
      assert (LL : ln (wetBulbToVapPr db wb elev KPa) < (1678 / 100 * wb - 1169 / 10) / (wb + 2373 / 10)).
      { rewrite <- (ln_exp ((1678 / 100 * wb - 1169 / 10) / (wb + 2373 / 10))). apply ln_increasing; [exact P | exact Lw]. }
      pose proof (expo_top wb W). destruct (Req_EM_T _ _) as [X|X]; [lra|]. eexists. split; [reflexivity|].
      change ((1169 / 10 + 2373 / 10 * ln (wetBulbToVapPr db wb elev KPa)) / (1678 / 100 - ln (wetBulbToVapPr db wb elev KPa)))
        with (dewOf (ln (wetBulbToVapPr db wb elev KPa))).
      split; [apply dew_dom; lra|]. pose proof (dew_expo wb W) as DE. pose proof (dew_mono _ _ LL H). lra.
  - intros wb' [L1 L2]. rewrite !vap_le by lra. apply fromKPa_lt.
    pose proof (sat_lt KPa wb wb' W L1). set (A := elevToAirPr elev KPa) in *.
    assert (Q : 0 < A * ((wb' - wb) * (1 + 115 / 100000 * (wb + wb' - db)))) by (repeat apply Rmult_lt_0_compat; lra).
    assert (E : 66 / 100000 * (1 + 115 / 100000 * wb) * A * (db - wb) - 66 / 100000 * (1 + 115 / 100000 * wb') * A * (db - wb')
      = 66 / 100000 * (A * ((wb' - wb) * (1 + 115 / 100000 * (wb + wb' - db))))) by ring.
    lra.
Qed.
Print Assumptions c154_wet_bulb.

(** The search for the wet bulb temperature ends for every temperature, dew point and pressure, within 0.0005
    degrees (the rounding) of a temperature that satisfies the psychrometer equation to 0.05 hPa; dew points above
    the temperature are refused. *)
Theorem c154_wet_bulb_search : forall T Td p, 0 < p -> - (2363 / 10) < Td -> T < 390 ->
  (T < Td -> forall n, dewPointToWetBulb T Td p n = None) /\
  (Td <= T -> exists n tw raw, dewPointToWetBulb T Td p n = Some (Some tw) /\ Rabs (tw - raw) <= 1 / 2000 /\
     Rabs (satVapPr raw HPa - p * (T - raw) * (66 / 100000) * (1 + 115 / 100000 * raw) - dewPointToVapPr Td HPa) <= 5 / 100).
Proof.
  intros T Td p P H HT. split.
  - intros L n. unfold dewPointToWetBulb. now replace (rlt T Td) with true by (symmetry; apply rlt_true; exact L).
  - intros L. unfold dewPointToWetBulb. replace (rlt T Td) with false by (symmetry; apply rlt_false; exact L).
    assert (E : ends T Td p (Td, 10, true)).
    { destruct L as [L|L].
      - destruct (root T Td p P ltac:(lra) L HT) as (r & [B1 B2] & R0).
        destruct B1 as [B1|B1].
        + apply (search_all T Td p r); try lra.
        + subst r. apply ends_now. rewrite R0, Rabs_R0. lra.
      - subst Td. apply ends_now. replace (diff T T p T) with 0 by (unfold diff, trial; ring). rewrite Rabs_R0. lra. }
    destruct E as (n & t & R & B). exists n, (round3 t), t. rewrite R. split; [reflexivity|]. split; [apply round3_near|].
    unfold diff, trial in B. rewrite Rabs_minus_sym in B. exact B.
Qed.
Print Assumptions c154_wet_bulb_search.
(** Going back with the other function of the module: the vapour pressure of the wet bulb found is that of the dew
    point, to 0.05 hPa. *)
Theorem c154_wet_bulb_back : forall T Td elev, - (2363 / 10) < Td <= T -> T < 390 ->
  exists n tw raw, dewPointToWetBulb T Td (elevToAirPr elev HPa) n = Some (Some tw) /\ Rabs (tw - raw) <= 1 / 2000 /\
    Rabs (wetBulbToVapPr T raw elev HPa - dewPointToVapPr Td HPa) <= 5 / 100.
Proof.
  intros T Td elev [H L] HT.
  assert (P : 0 < elevToAirPr elev HPa) by apply (c154_elevation HPa elev elev).
  destruct (c154_wet_bulb_search T Td (elevToAirPr elev HPa) P H HT) as [_ S]. destruct (S L) as (n & tw & raw & E & N & B).
  exists n, tw, raw. split; [exact E|]. split; [exact N|].
  assert (EA : elevToAirPr elev HPa = elevToAirPr elev KPa * 10) by reflexivity.
  destruct (Rle_lt_dec raw T) as [G|G].
  - rewrite vap_le by exact G. rewrite EA in B. unfold satVapPr in *. cbn [fromKPa] in *.
    revert B. match goal with |- Rabs ?a <= _ -> Rabs ?b <= _ => replace a with b by ring end. trivial.
  - rewrite vap_ge by lra. pose proof (sat_lt HPa T raw ltac:(lra) G).
    assert (S2 : dewPointToVapPr Td HPa <= satVapPr T HPa).
    { destruct L as [L|L]; [left; apply (sat_lt HPa); lra | subst; right; reflexivity]. }
    assert (Q : 0 <= elevToAirPr elev HPa * ((raw - T) * (66 / 100000 * (1 + 115 / 100000 * raw)))).
    { apply Rmult_le_pos; [lra|]. repeat apply Rmult_le_pos; lra. }
    unfold Rabs in B. rewrite Rabs_right by lra. destruct (Rcase_abs _) in B; lra.
Qed.
Print Assumptions c154_wet_bulb_back.
Example c154_search_example : - (2363 / 10) < 10 <= 25 /\ 25 < 390 /\ 0 < elevToAirPr 100 HPa.
Proof. repeat split; try lra. apply (c154_elevation HPa 100 100). Qed.

(** C155.  The relative humidity from the wet bulb is ten times too large: hectopascals are divided by kilopascals. *)
Theorem c155_wet_bulb_humidity_refuted :
  (forall db wb elev, wetBulbToRH db wb elev = Rmax 0 (Rmin 100 (10 * (100 * (wetBulbToVapPr db wb elev KPa / satVapPr db KPa))))) /\
  exists db wb elev, - (2373 / 10) < wb < db /\ 0 < 100 * (wetBulbToVapPr db wb elev KPa / satVapPr db KPa) < 100 /\
    wetBulbToRH db wb elev <> 100 * (wetBulbToVapPr db wb elev KPa / satVapPr db KPa) /\
    wetBulbToRH db wb elev <> vapPrToRH (wetBulbToVapPr db wb elev HPa) (satVapPr db HPa).
Proof.
  assert (G : forall db wb elev, wetBulbToRH db wb elev = Rmax 0 (Rmin 100 (10 * (100 * (wetBulbToVapPr db wb elev KPa / satVapPr db KPa))))).
  { intros. unfold wetBulbToRH, vapPrToRH. pose proof (sat_pos KPa db) as S.
    replace (wetBulbToVapPr db wb elev HPa) with (wetBulbToVapPr db wb elev KPa * 10) by reflexivity.
    destruct (Req_EM_T _ _) as [X|X]; [lra|].
    replace (wetBulbToVapPr db wb elev KPa * 10 / satVapPr db KPa * 100) with (10 * (100 * (wetBulbToVapPr db wb elev KPa / satVapPr db KPa))) by (field; lra).
    set (r := 10 * (100 * (wetBulbToVapPr db wb elev KPa / satVapPr db KPa))). unfold rlt.
    destruct (Rlt_dec 100 r); [rewrite Rmin_left, Rmax_right; lra|]. rewrite Rmin_right by lra.
    destruct (Rlt_dec r 0); [rewrite Rmax_left; lra | rewrite Rmax_right; lra]. }
  split; [exact G|]. set (wb := 11690 / 1678). exists (wb + 1), wb, 0.
  assert (W : satVapPr wb KPa = 1).
  { unfold satVapPr, wb. cbn [fromKPa]. replace (1678 / 100 * (11690 / 1678) - 1169 / 10) with 0 by field. unfold Rdiv. rewrite Rmult_0_l. apply exp_0. }
  assert (D : 1 < satVapPr (wb + 1) KPa) by (pose proof (sat_lt KPa wb (wb + 1) ltac:(unfold wb; lra) ltac:(lra)); lra).
  assert (V : 0 < wetBulbToVapPr (wb + 1) wb 0 KPa < 1).
  { rewrite vap_le by lra. cbn [fromKPa]. rewrite W. unfold elevToAirPr.
    replace (rlt 0 0) with false by (symmetry; apply rlt_false; lra). cbn [fromKPa]. unfold wb. lra. }
  set (s := satVapPr (wb + 1) KPa) in *. set (v := wetBulbToVapPr (wb + 1) wb 0 KPa) in *.
  assert (Q : 0 < v / s < 1).
  { split; [apply Rdiv_lt_0_compat; lra|]. apply Rmult_lt_reg_r with s; [lra|]. unfold Rdiv. rewrite Rmult_assoc, Rinv_l by lra. lra. }
  split; [unfold wb; lra|]. split; [lra|].
  assert (N : wetBulbToRH (wb + 1) wb 0 <> 100 * (v / s)).
  { rewrite G. fold v s. unfold Rmax, Rmin. destruct (Rle_dec 100 _); destruct (Rle_dec 0 _); lra. }
  split; [exact N|].
  replace (vapPrToRH (wetBulbToVapPr (wb + 1) wb 0 HPa) (satVapPr (wb + 1) HPa)) with (100 * (v / s)); [exact N|].
  replace (wetBulbToVapPr (wb + 1) wb 0 HPa) with (v * 10) by reflexivity.
  replace (satVapPr (wb + 1) HPa) with (s * 10) by reflexivity. unfold vapPrToRH.
  destruct (Req_EM_T (s * 10) 0) as [X|X]; [lra|].
  replace (v * 10 / (s * 10) * 100) with (100 * (v / s)) by (field; lra).
  replace (rlt 100 (100 * (v / s))) with false by (symmetry; apply rlt_false; lra).
  replace (rlt (100 * (v / s)) 0) with false by (symmetry; apply rlt_false; lra). reflexivity.
Qed.
Print Assumptions c155_wet_bulb_humidity_refuted.

(** Dry air: the dew point of relative humidity 0 is an unbound variable; strong wet bulb depressions have none. *)
Theorem c155_dry_air_refuted :
  (forall t, rHToDewPoint 0 t = Unbound) /\
  exists db wb, wb < db /\ wetBulbToDewPoint db wb 0 = None.
Proof.
  split.
  - intros t. unfold rHToDewPoint. replace (0 / 100 * satVapPr t KPa) with 0 by field.
    now replace (rlt 0 0) with false by (symmetry; apply rlt_false; lra).
  - set (wb := 11690 / 1678). exists (wb + 20), wb. split; [lra|]. unfold wetBulbToDewPoint, vapPrToDewPoint.
    replace (rlt 0 (toKPa KPa (wetBulbToVapPr (wb + 20) wb 0 KPa))) with false; [reflexivity|].
    symmetry. apply rlt_false. cbn [toKPa]. rewrite vap_le by lra. cbn [fromKPa].
    assert (W : satVapPr wb KPa = 1).
    { unfold satVapPr, wb. cbn [fromKPa]. replace (1678 / 100 * (11690 / 1678) - 1169 / 10) with 0 by field. unfold Rdiv. rewrite Rmult_0_l. apply exp_0. }
    rewrite W. unfold elevToAirPr. replace (rlt 0 0) with false by (symmetry; apply rlt_false; lra). cbn [fromKPa]. unfold wb. lra.
Qed.
Print Assumptions c155_dry_air_refuted.

(** The documented units: dew points are not in Kelvin, and [vapour] is not in kPa. *)
Theorem c155_documented_units_refuted :
  (forall t, - (2373 / 10) < t -> vapPrToDewPoint (satVapPr t KPa) KPa <> Some (t + 27315 / 100)) /\
  satVapPr 0 KPa < 1 /\ 6 < vapour 0.
Proof.
  split; [|split].
  - intros t H E. pose proof (proj1 (c154_round_trip KPa (or_introl eq_refl)) t H) as R.
    unfold dewPointToVapPr in R. unfold satVapPr in E. rewrite R in E.
    apply (f_equal (fun o => match o with Some x => x | None => 0 end)) in E. lra.
  - unfold satVapPr. cbn [fromKPa]. pose proof exp_0. pose proof (exp_increasing ((1678 / 100 * 0 - 1169 / 10) / (0 + 2373 / 10)) 0 ltac:(lra)). lra.
  - unfold vapour. replace (1767 / 100 * 0 / (2435 / 10 + 0)) with 0 by field. rewrite exp_0. lra.
Qed.
Print Assumptions c155_documented_units_refuted.

(** Inches and millimetres of mercury: the dew point of the vapour pressure of a dew point is another. *)
Theorem c155_mercury_refuted : forall u, u = InHg \/ u = MmHg ->
  forall t, - (2373 / 10) < t -> vapPrToDewPoint (dewPointToVapPr t u) u <> Some t.
Proof.
  intros u U t H E. unfold vapPrToDewPoint, dewPointToVapPr in E.
  set (x := (1678 / 100 * t - 1169 / 10) / (t + 2373 / 10)) in E.
  assert (C : exists c, 0 < c /\ c <> 1 /\ toKPa u (fromKPa u (exp x)) = c * exp x).
  { destruct U as [-> | ->].
    - exists (295299831 / 1000000000 * (3386388667 / 1000000000)). split; [lra|]. split; [lra | cbn; ring].
    - exists (7500615613 / 1000000000 * (13332239 / 100000000)). split; [lra|]. split; [lra | cbn; ring]. }
  destruct C as (c & C & N & EC). rewrite EC in E. pose proof (exp_pos x) as EP.
  assert (0 < c * exp x) by (apply Rmult_lt_0_compat; lra).
  replace (rlt 0 (c * exp x)) with true in E by (symmetry; apply rlt_true; lra).
  destruct (Req_EM_T _ _) as [X|X]; [discriminate|].
  apply (f_equal (fun o => match o with Some x => x | None => 0 end)) in E.
  change (dewOf (ln (c * exp x)) = t) in E. pose proof (expo_dew (ln (c * exp x)) X) as F. rewrite E in F. fold x in F.
  rewrite ln_mult, ln_exp in F by assumption. assert (L : ln c = 0) by lra.
  apply N. rewrite <- (exp_ln c C), L. apply exp_0.
Qed.
Print Assumptions c155_mercury_refuted.
