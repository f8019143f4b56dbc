(** Hazard curve figures and statistical figures: C172 and C173. *)
From Coq Require Import String List Arith ZArith Lia Bool QArith Qround Qabs Lqa Permutation.
From Verif Require Import Base CellModel CellProofs NumModel NumProofs SampModel LmomModel LmomProofs FitModel FitProofs DensityModel DensityProofs CurveModel.
From Verif Require GenProofs.
Import ListNotations.
Local Open Scope list_scope.
Local Open Scope Q_scope.
Notation length := List.length.

(** * Lists *)
Lemma filter_suffix {A} (f : A -> bool) : forall (l : list A) k,
  (forall i d, (i < length l)%nat -> f (nth i l d) = (k <=? i)%nat) -> filter f l = skipn k l.
Proof.
  induction l as [|a r IH]; intros k H; [now destruct k|]. cbn [filter].
  pose proof (H 0%nat a ltac:(cbn; lia)) as H0. cbn [nth] in H0. destruct k as [|k].
  - rewrite H0. cbn [Nat.leb skipn]. f_equal. rewrite (IH 0%nat); [reflexivity|].
    intros i d Hi. exact (H (S i) d ltac:(cbn; lia)).
  - rewrite H0. cbn [Nat.leb skipn]. apply IH. intros i d Hi. exact (H (S i) d ltac:(cbn; lia)).
Qed.
Lemma combine_nth_in {A B} (l : list A) (m : list B) i a b : length l = length m ->
  nth i (combine l m) (a, b) = (nth i l a, nth i m b).
Proof. apply combine_nth. Qed.

(** * Return periods *)
Lemma curveRp_len n : length (curveRp n) = n.
Proof. unfold curveRp. now rewrite map_length, seq_length. Qed.
Lemma curveRp_nth n i : (i < n)%nat -> nth i (curveRp n) 0 == (qn n + 1) / (qn (n - i) * 365.25).
Proof.
  intros H. unfold curveRp. set (f := fun i => _).
  rewrite (nth_indep _ 0 (f 0%nat)) by (rewrite map_length, seq_length; exact H).
  rewrite map_nth, seq_nth by exact H. unfold f. cbn [Nat.add].
  assert (E : qn n == qn i + qn (n - i)).
  { unfold qn. rewrite <- inject_Z_plus. rewrite <- Nat2Z.inj_add. now replace (i + (n - i))%nat with n by lia. }
  assert (P : 1 <= qn (n - i)) by (change 1 with (qn 1); apply qn_le; lia).
  rewrite (qn_S i). pose proof (qn_pos i). rewrite E. set (a := qn i) in *. set (b := qn (n - i)) in *. clearbody a b. clear E.
  setoid_replace (1 - (a + 1) / (a + b + 1)) with (b / (a + b + 1)) by (field; lra).
  field. split; lra.
Qed.
Lemma days_bounds N : (0 <= N)%Z -> qn (empDays N) <= 365.25 * inject_Z N /\ 365.25 * inject_Z N < qn (empDays N) + 1.
Proof.
  intros H. unfold empDays, qn.
  assert (F : (0 <= Qfloor (365.25 * inject_Z N))%Z).
  { change 0%Z with (Qfloor 0). apply Qfloor_resp_le. assert (inject_Z 0 <= inject_Z N) by now rewrite <- Zle_Qle.
    change (inject_Z 0) with 0 in H0. lra. }
  rewrite Z2Nat.id by exact F. split; [apply Qfloor_le|].
  pose proof (Qlt_floor (365.25 * inject_Z N)) as L. rewrite inject_Z_plus in L. exact L.
Qed.
Lemma days_above N : (1 <= N)%Z -> (Z.to_nat N < empDays N)%nat.
Proof.
  intros H. destruct (days_bounds N ltac:(lia)) as [_ B].
  assert (inject_Z 1 <= inject_Z N) by now rewrite <- Zle_Qle. change (inject_Z 1) with 1 in H0.
  assert (C : inject_Z N < qn (empDays N)) by lra.
  unfold qn in C. rewrite <- Zlt_Qlt in C. lia.
Qed.
Lemma allEvents_some N recs ev : allEvents N recs = Some ev ->
  (length recs <= empDays N)%nat /\ ev = sortq (repeat 0 (empDays N - length recs) ++ recs) /\ length ev = empDays N.
Proof.
  unfold allEvents. destruct (empDays N <? length recs)%nat eqn:E; [discriminate|]. apply Nat.ltb_ge in E.
  intros H. injection H as <-. repeat split; auto.
  rewrite (Permutation_length (sortq_perm _)), app_length, repeat_length. lia.
Qed.
Lemma dots_suffix N ev : (1 <= N)%Z -> length ev = empDays N ->
  dots ev = skipn (empDays N - Z.to_nat N) (combine (curveRp (empDays N)) ev).
Proof.
  intros H L. unfold dots. rewrite L. apply filter_suffix. intros i [d1 d2] Hi.
  rewrite combine_length, curveRp_len, L, Nat.min_id in Hi.
  rewrite (nth_indep _ (d1, d2) (0, 0)) by now rewrite combine_length, curveRp_len, L, Nat.min_id.
  rewrite combine_nth by now rewrite curveRp_len. cbn [fst].
  assert (P : 1 <= qn (empDays N - i)) by (change 1 with (qn 1); apply qn_le; lia).
  pose proof (curveRp_nth (empDays N) i Hi) as V. destruct (days_bounds N ltac:(lia)) as [B1 B2].
  pose proof (days_above N H) as A. set (n := empDays N) in *.
  assert (E : inject_Z N == qn (Z.to_nat N)) by (unfold qn; rewrite Z2Nat.id by lia; reflexivity).
  assert (M : forall x, nth i (curveRp n) 0 <= x <-> qn n + 1 <= x * (qn (n - i) * 365.25)).
  { intros x. rewrite V. split; intros Q.
    - apply Qmult_le_r with (z := qn (n - i) * 365.25) in Q; [|lra].
      setoid_replace ((qn n + 1) / (qn (n - i) * 365.25) * (qn (n - i) * 365.25)) with (qn n + 1) in Q by (field; lra). exact Q.
    - apply Qle_shift_div_r; lra. }
  destruct (n - Z.to_nat N <=? i)%nat eqn:T.
  - apply Nat.leb_le in T. apply qlt_iff. apply Qnot_le_lt. intros Q. apply M in Q.
    assert (qn (n - i) <= qn (Z.to_nat N)) by (apply qn_le; lia). lra.
  - apply Nat.leb_gt in T. apply GenProofs.qlt_false_iff. apply M.
    assert (qn (S (Z.to_nat N)) <= qn (n - i)) by (apply qn_le; lia). rewrite qn_S in H0. lra.
Qed.

(** ** C172: what the figures show *)
(** The sorted values behind the dots are the records of the place and a zero for every other day. *)
Theorem c172_events : forall N recs,
  (allEvents N recs = None <-> (empDays N < length recs)%nat) /\
  (forall ev, allEvents N recs = Some ev ->
     length ev = empDays N /\ asc ev /\ Permutation ev (recs ++ repeat 0 (empDays N - length recs))).
Proof.
  intros N recs. split.
  - unfold allEvents. destruct (empDays N <? length recs)%nat eqn:E.
    + apply Nat.ltb_lt in E. tauto.
    + apply Nat.ltb_ge in E. split; [discriminate|lia].
  - intros ev H. destruct (allEvents_some N recs ev H) as (A & B & C). repeat split; [exact C|subst; apply sortq_asc|].
    rewrite B, sortq_perm. apply Permutation_app_comm.
Qed.
Example c172_events_ex : allEvents 0 [] = Some [] /\ exists ev, allEvents 1 [40; 20] = Some ev /\ nth 364 ev 0 = 40 /\ nth 363 ev 0 = 20 /\ nth 362 ev 0 = 0.
Proof. split; [reflexivity|]. eexists. split; [reflexivity|]. vm_compute. auto. Qed.

(** The interval of the j-th largest of n values is (n + 1) / (365.25 j): within a day's share of N / j for N years. *)
Theorem c172_intervals : forall N j, (1 <= N)%Z -> (1 <= j <= empDays N)%nat ->
  let rp := nth (empDays N - j) (curveRp (empDays N)) 0 in
  rp == (qn (empDays N) + 1) / (365.25 * qn j) /\
  inject_Z N / qn j < rp /\ rp <= (inject_Z N + 1 / 365.25) / qn j.
Proof.
  intros N j HN Hj rp. unfold rp. destruct (days_bounds N ltac:(lia)) as [B1 B2].
  assert (P : 1 <= qn j) by (change 1 with (qn 1); apply qn_le; lia).
  assert (E : nth (empDays N - j) (curveRp (empDays N)) 0 == (qn (empDays N) + 1) / (365.25 * qn j)).
  { rewrite curveRp_nth by lia. replace (empDays N - (empDays N - j))%nat with j by lia. now rewrite (Qmult_comm (qn j)). }
  split; [exact E|]. rewrite E. set (q := qn j) in *. set (n := qn (empDays N)) in *. set (y := inject_Z N) in *. clearbody q n y.
  assert (0 < / q) by (apply Qinv_lt_0_compat; lra).
  setoid_replace ((n + 1) / (365.25 * q)) with ((n + 1) / 365.25 * / q) by (field; lra).
  unfold Qdiv at 1. unfold Qdiv at 3. split.
  - apply Qmult_lt_r; [assumption|]. apply Qlt_shift_div_l; lra.
  - apply Qmult_le_r; [assumption|]. apply Qle_shift_div_r; [lra|].
    setoid_replace ((y + 1 / 365.25) * 365.25) with (365.25 * y + 1) by field. lra.
Qed.
Example c172_intervals_ex : (1 <= 10000)%Z /\ (1 <= 1 <= empDays 1)%nat.
Proof. split; [lia|]. change (empDays 1) with (Z.to_nat (Qfloor (365.25 * inject_Z 1))). vm_compute. split; repeat constructor. Qed.

(** For N years there are exactly N dots, and they show the N largest values. *)
Theorem c172_dots : forall N recs ev, (1 <= N)%Z -> allEvents N recs = Some ev ->
  length (dots ev) = Z.to_nat N /\
  exists rest, Permutation (recs ++ repeat 0 (empDays N - length recs)) (rest ++ map snd (dots ev)) /\
    (forall a p, In a rest -> In p (dots ev) -> a <= snd p).
Proof.
  intros N recs ev HN H. destruct (proj2 (c172_events N recs) ev H) as (L & A & P).
  pose proof (days_above N HN) as D. rewrite (dots_suffix N ev HN L). set (k := (empDays N - Z.to_nat N)%nat).
  assert (C : length (combine (curveRp (empDays N)) ev) = empDays N) by (rewrite combine_length, curveRp_len, L; lia).
  split; [rewrite skipn_length, C; lia|].
  assert (M : map snd (skipn k (combine (curveRp (empDays N)) ev)) = skipn k ev).
  { rewrite <- skipn_map. f_equal. 
    assert (G : forall (l : list Q) (m : list Q), length l = length m -> map snd (combine l m) = m).
    { induction l as [|x l IH]; intros [|y m] E; cbn in *; try discriminate; [reflexivity|]. f_equal. apply IH. lia. }
    apply G. now rewrite curveRp_len. }
  exists (firstn k ev). rewrite M, firstn_skipn. split; [now symmetry|].
  intros a p Ia Ip. assert (Is : In (snd p) (skipn k ev)) by (rewrite <- M; now apply in_map).
  destruct (In_nth _ _ 0 Ia) as (i & Hi & Ei). destruct (In_nth _ _ 0 Is) as (j & Hj & Ej).
  rewrite firstn_length in Hi. rewrite skipn_length in Hj.
  rewrite <- Ei, <- Ej. 
  assert (F : nth i (firstn k ev) 0 = nth i ev 0).
  { rewrite <- (firstn_skipn k ev) at 2. rewrite app_nth1; [reflexivity|]. rewrite firstn_length. lia. }
  assert (G : nth j (skipn k ev) 0 = nth (k + j) ev 0).
  { rewrite <- (firstn_skipn k ev) at 2. rewrite app_nth2; rewrite firstn_length; [|lia]. f_equal. lia. }
  rewrite F, G. apply asc_nth; [exact A|]. lia.
Qed.
Example c172_dots_ex : exists ev, allEvents 2 [60; 40; 50] = Some ev /\ map snd (dots ev) = [50; 60].
Proof. eexists. split; [reflexivity|]. vm_compute. reflexivity. Qed.

(** The dots are placed as the empirical fit of the hazard calculation places its points, exactly if the number of years is a
    multiple of four, and otherwise a little further right. *)
Theorem c172_fit : forall N i, (1 <= N)%Z -> (i < empDays N)%nat ->
  nth i (empRp N) 0 <= nth i (curveRp (empDays N)) 0 /\
  ((N mod 4 = 0)%Z -> nth i (empRp N) 0 == nth i (curveRp (empDays N)) 0).
Proof.
  intros N i HN Hi. rewrite empRp_nth by exact Hi. rewrite curveRp_nth by exact Hi.
  destruct (days_bounds N ltac:(lia)) as [B1 B2].
  assert (EN : qn (empDays N) == qn i + qn (empDays N - i)).
  { unfold qn. rewrite <- inject_Z_plus. rewrite <- Nat2Z.inj_add. now replace (i + (empDays N - i))%nat with (empDays N) by lia. }
  assert (P : 1 <= qn (empDays N - i)) by (change 1 with (qn 1); apply qn_le; lia).
  pose proof (qn_pos i) as PI.
  assert (X : 1 / (1 - qn (S i) / (365.25 * inject_Z N + 1)) / 365.25 == (365.25 * inject_Z N + 1) / ((365.25 * inject_Z N - qn i) * 365.25)).
  { rewrite qn_S. set (m := 365.25 * inject_Z N) in *. set (a := qn i) in *. set (b := qn (empDays N - i)) in *. clearbody m a b.
    setoid_replace (1 - (a + 1) / (m + 1)) with ((m - a) / (m + 1)) by (field; lra). field. split; lra. }
  rewrite X. split.
  - set (m := 365.25 * inject_Z N) in *. set (a := qn i) in *. set (b := qn (empDays N - i)) in *. set (n := qn (empDays N)) in *. clearbody m a b n.
    apply Qle_shift_div_l; [lra|].
    setoid_replace ((m + 1) / ((m - a) * 365.25) * (b * 365.25)) with ((m + 1) * b / (m - a)) by (field; lra).
    apply Qle_shift_div_r; [lra|]. assert (b == n - a) by lra. rewrite H. nra.
  - intros Z4. assert (W : 365.25 * inject_Z N == qn (empDays N)).
    { assert (V : 365.25 * inject_Z N == inject_Z (1461 * (N / 4))).
      { rewrite (Z.div_mod N 4) at 1 by lia. rewrite Z4, Z.add_0_r, !inject_Z_mult.
        change (inject_Z 4) with 4. change (inject_Z 1461) with 1461. field. }
      rewrite V. unfold qn, empDays. rewrite V, Qfloor_Z. rewrite Z2Nat.id; [reflexivity|].
      pose proof (Z.div_le_mono 0 N 4 ltac:(lia) ltac:(lia)). change (0 / 4)%Z with 0%Z in H. lia. }
    rewrite W, EN. set (b := qn (empDays N - i)) in *. set (a := qn i) in *. clearbody a b.
    setoid_replace (a + b - a) with b by ring. reflexivity.
Qed.
Example c172_fit_ex : (1 <= 10000)%Z /\ (10000 mod 4 = 0)%Z.
Proof. split; [lia|reflexivity]. Qed.

(** Each figure shows the levels of the nearest cell, one for each interval, with the unit of the configuration. *)
Theorem c172_curve : forall pi units ci N lons lats years wspd wlow wup p recs f,
  placeCurve pi units ci N lons lats years wspd wlow wup p recs = Drawn f ->
  exists i j lv ev, findIndex lons (snd (fst p)) = Some i /\ findIndex lats (snd p) = Some j /\
    plotUnits units = Some (f_label f, lv) /\ allEvents N recs = Some ev /\
    f_id f = fst (fst p) /\ f_dots f = dots ev /\
    map fst (f_line f) = years /\
    (forall k, (k < length years)%nat ->
       nth k (map snd (f_line f)) None = option_map (fun v => convert pi v "mps" units) (wspd k j i)) /\
    (exists k v, (k < length years)%nat /\ wspd k j i = Some v).
Proof.
  intros until f. intros H. unfold placeCurve in H.
  destruct (plotUnits units) as [[lab lv]|] eqn:E1; [|discriminate].
  destruct (findIndex lons (snd (fst p))) as [i|] eqn:E2; [|discriminate].
  destruct (findIndex lats (snd p)) as [j|] eqn:E3; [|discriminate].
  destruct (allEvents N recs) as [ev|] eqn:E4; [|discriminate].
  cbv zeta in H. remember (column pi units years wspd j i) as mean eqn:EM.
  destruct (present mean) as [|v0 vs] eqn:EP; [discriminate|].
  match type of H with Drawn ?g = _ => assert (EF : f = g) by (injection H; congruence) end. clear H. subst f.
  cbn [f_id f_label f_line f_dots f_range f_top].
  exists i, j, lv, ev.
  assert (LM : length mean = length years) by (rewrite EM; unfold column; now rewrite map_length, seq_length).
  assert (G : forall {A B} (l : list A) (m : list B), length l = length m -> map fst (combine l m) = l /\ map snd (combine l m) = m).
  { intros A B. induction l as [|x l IH]; intros [|y m] E; cbn in *; try discriminate; [auto|].
    destruct (IH m ltac:(lia)) as [-> ->]. auto. }
  destruct (G _ _ years mean ltac:(lia)) as [G1 G2]. rewrite G1, G2.
  assert (NT : forall k, (k < length years)%nat -> nth k mean None = option_map (fun v => convert pi v "mps" units) (wspd k j i)).
  { intros k Hk. rewrite EM. unfold column. set (g := fun k => _).
    rewrite (nth_indep _ None (g 0%nat)) by now rewrite map_length, seq_length. rewrite map_nth, seq_nth by exact Hk. reflexivity. }
  repeat (split; [assumption || reflexivity|]).
  assert (IN : In v0 (present mean)) by (rewrite EP; now left).
  unfold present in IN. apply in_flat_map in IN. destruct IN as (o & I1 & I2). destruct o as [v|]; [|contradiction].
  destruct (In_nth _ _ None I1) as (k & Hk & EK). rewrite LM in Hk. exists k. rewrite (NT k Hk) in EK.
  destruct (wspd k j i) as [u|]; [|discriminate]. exists u. auto.
Qed.
Theorem c172_units : forall pi v,
  (plotUnits "mps" <> None /\ convert pi v "mps" "mps" == v) /\
  (plotUnits "mph" <> None /\ convert pi v "mps" "mph" == v * 2.2369) /\
  (plotUnits "kts" <> None /\ convert pi v "mps" "kts" == v * 1.944) /\
  (plotUnits "kph" <> None /\ convert pi v "mps" "kph" == v * 3.6).
Proof. intros pi v. repeat split; try discriminate; vm_compute; reflexivity || (destruct v; reflexivity). Qed.

(** Every place with a level gets one figure, in its own file, as long as no place fails. *)
Theorem c172_figures : forall pi units ci N lons lats years wspd wlow wup places records fs,
  plotCurves pi units ci N lons lats years wspd wlow wup places records = (fs, true) ->
  map f_id fs = map (fun p => fst (fst p))
    (filter (fun p => match placeCurve pi units ci N lons lats years wspd wlow wup p (records (fst (fst p))) with Drawn _ => true | _ => false end) places) /\
  (NoDup (map (fun p => fst (fst p)) places) -> NoDup (map f_id fs)).
Proof.
  intros until places. intros records.
  assert (G : forall fs, plotCurves pi units ci N lons lats years wspd wlow wup places records = (fs, true) ->
    map f_id fs = map (fun p => fst (fst p)) (filter (fun p => match placeCurve pi units ci N lons lats years wspd wlow wup p (records (fst (fst p))) with Drawn _ => true | _ => false end) places)).
  { induction places as [|p r IH]; intros fs H; cbn [plotCurves filter] in *; [injection H as <-; reflexivity|].
    destruct (placeCurve pi units ci N lons lats years wspd wlow wup p (records (fst (fst p)))) as [| |f] eqn:E; [discriminate|now apply IH|].
    destruct (plotCurves pi units ci N lons lats years wspd wlow wup r records) as [gs ok] eqn:E2.
    injection H as <- ->. cbn [map]. rewrite (IH gs eq_refl).
    destruct (c172_curve _ _ _ _ _ _ _ _ _ _ _ _ _ E) as (i & j & lv & ev & _ & _ & _ & _ & Q & _). now rewrite Q. }
  intros fs H. split; [now apply G|]. intros D. rewrite (G fs H). clear - D.
  induction places as [|p r IH]; cbn [filter map] in *; [constructor|]. inversion D as [|? ? D1 D2]; subst.
  destruct (placeCurve pi units ci N lons lats years wspd wlow wup p (records (fst (fst p)))); auto.
  cbn [map]. constructor; [|auto]. intros I. apply D1. apply in_map_iff in I. destruct I as (q & Q1 & Q2).
  apply filter_In in Q2. apply in_map_iff. exists q. tauto.
Qed.

(** The fitted curve stays below the top of the axis, which is at least 100 and a multiple of ten. *)
Theorem c172_top : forall ymean, 
  (forall v, In (Some v) ymean -> v <= axisTop ymean) /\ 100 <= axisTop ymean /\
  (exists z, axisTop ymean == inject_Z (10 * z)) /\
  (100 < axisTop ymean -> exists v, In (Some v) ymean /\ axisTop ymean - 10 < v).
Proof.
  intros ymean. unfold axisTop.
  assert (PI : forall v, In (Some v) ymean <-> In v (present ymean)).
  { intros v. unfold present. rewrite in_flat_map. split; [intros H; exists (Some v); split; [exact H|now left]|].
    intros ([u|] & H1 & H2); [|contradiction]. destruct H2 as [->|[]]. exact H1. }
  destruct (present ymean) as [|a r] eqn:E.
  { repeat split; [intros v H; apply PI in H; contradiction|lra|exists 10%Z; reflexivity|lra]. }
  destruct (amax_spec r a) as (A1 & A2 & A3). set (m := amax a r) in *.
  destruct (amax_spec [inject_Z (Qceiling (m / 10)) * 10] 100) as (B1 & B2 & B3).
  set (t := amax 100 [inject_Z (Qceiling (m / 10)) * 10]) in *.
  pose proof (B2 _ (or_introl eq_refl)) as B4. pose proof (Qle_ceiling (m / 10)) as C1. pose proof (Qceiling_lt (m / 10)) as C2.
  assert (M : m / 10 * 10 == m) by field.
  repeat split.
  - intros v H. apply PI in H. assert (v <= m) by (destruct H as [->|H]; [exact A1|now apply A2]). lra.
  - exact B1.
  - destruct B3 as [B3|(y & [<-|[]] & B3)]; [exists 10%Z; exact B3|].
    exists (Qceiling (m / 10)). rewrite B3, inject_Z_mult. change (inject_Z 10) with 10. ring.
  - intros T. assert (TM : t == inject_Z (Qceiling (m / 10)) * 10) by (destruct B3 as [B3|(y & [<-|[]] & B3)]; [lra|exact B3]).
    unfold Z.sub in C2. rewrite inject_Z_plus in C2. change (inject_Z (- (1))) with (-(1)) in C2.
    assert (t - 10 < m) by lra.
    destruct A3 as [A3|(y & Iy & A3)]; [exists a|exists y]; split; try (apply PI; (now left) || (now right)); lra.
Qed.
Example c172_top_ex : axisTop [Some 41; None; Some 123] == 130 /\ axisTop [Some 41] == 100.
Proof. split; reflexivity. Qed.

(** * Percentiles *)
Lemma sortq_len l : length (sortq l) = length l.
Proof. apply Permutation_length, sortq_perm. Qed.
Lemma qfl_split x : 0 <= x -> qn (Z.to_nat (Qfloor x)) <= x /\ x < qn (Z.to_nat (Qfloor x)) + 1.
Proof.
  intros H. assert (F : (0 <= Qfloor x)%Z) by (change 0%Z with (Qfloor 0); now apply Qfloor_resp_le).
  unfold qn. rewrite Z2Nat.id by exact F. split; [apply Qfloor_le|].
  pose proof (Qlt_floor x) as L. rewrite inject_Z_plus in L. exact L.
Qed.
Lemma qn_lt_inv a b : qn a < qn b -> (a < b)%nat.
Proof. unfold qn. rewrite <- Zlt_Qlt. lia. Qed.
Lemma qn_le_inv a b : qn a <= qn b -> (a <= b)%nat.
Proof. unfold qn. rewrite <- Zle_Qle. lia. Qed.
(** where a percentile lies *)
Lemma percentile_spec l q : l <> [] -> 0 <= q -> q <= 100 ->
  exists i w, (i < length l)%nat /\ 0 <= w /\ w < 1 /\ (w == 0 \/ (S i < length l)%nat) /\
    qn i + w == q / 100 * (qn (length l) - 1) /\
    percentile l q == nth i (sortq l) 0 + w * (nth (S i) (sortq l) 0 - nth i (sortq l) 0).
Proof.
  intros Hl H0 H1. assert (N : (1 <= length l)%nat) by (destruct l; [congruence|cbn; lia]).
  assert (N1 : 1 <= qn (length l)) by (change 1 with (qn 1); now apply qn_le).
  unfold percentile. set (x := q / 100 * (qn (length l) - 1)).
  assert (D : q / 100 * 100 == q) by field.
  assert (X0 : 0 <= x) by (unfold x; apply Qmult_le_0_compat; lra).
  assert (X1 : x <= qn (length l) - 1). { unfold x. set (u := q / 100) in *. clearbody u. set (v := qn (length l)) in *. clearbody v. nra. }
  destruct (qfl_split x X0) as [F1 F2]. set (i := Z.to_nat (Qfloor x)) in *.
  exists i, (x - qn i).
  assert (IL : (i < length l)%nat).
  { apply qn_lt_inv. lra. }
  repeat split; [exact IL|lra|lra| |lra|].
  - destruct (Nat.eq_dec (S i) (length l)) as [E|E]; [left|right; lia].
    rewrite <- E, qn_S in X1. lra.
  - cbv beta zeta. replace (i + 1)%nat with (S i) by lia. destruct (Qeq_bool (x - qn i) 0) eqn:E.
    + apply Qeq_bool_iff in E. rewrite E. ring.
    + ring.
Qed.
(** Percentiles never decrease, lie between the smallest and the largest value, and the hundredth is the largest. *)
Lemma percentile_bounds l i w : (i < length l)%nat -> 0 <= w -> w < 1 -> (w == 0 \/ (S i < length l)%nat) ->
  nth i (sortq l) 0 <= nth i (sortq l) 0 + w * (nth (S i) (sortq l) 0 - nth i (sortq l) 0) /\
  ((S i < length l)%nat -> nth i (sortq l) 0 + w * (nth (S i) (sortq l) 0 - nth i (sortq l) 0) <= nth (S i) (sortq l) 0).
Proof.
  intros H W0 W1 [W|W].
  - split; [rewrite W; lra|]. intros Si. pose proof (asc_nth _ (sortq_asc l) i (S i) ltac:(rewrite sortq_len; lia)). rewrite W. lra.
  - pose proof (asc_nth _ (sortq_asc l) i (S i) ltac:(rewrite sortq_len; lia)) as M.
    set (a := nth i (sortq l) 0) in *. set (b := nth (S i) (sortq l) 0) in *. clearbody a b.
    split; [nra|]. intros _. nra.
Qed.
Theorem c172_percentiles : forall l, l <> [] ->
  (forall p q, 0 <= p -> p <= q -> q <= 100 -> percentile l p <= percentile l q) /\
  (forall q v, 0 <= q -> q <= 100 -> (forall x, In x l -> x <= v) -> percentile l q <= v) /\
  (forall q v, 0 <= q -> q <= 100 -> (forall x, In x l -> v <= x) -> v <= percentile l q) /\
  (exists x, In x l /\ percentile l 100 == x) /\ (forall x, In x l -> x <= percentile l 100) /\
  percentile l 50 == median l.
Proof.
  intros l Hl. assert (IS : forall i, (i < length l)%nat -> In (nth i (sortq l) 0) l).
  { intros i Hi. apply (Permutation_in _ (sortq_perm l)). apply nth_In. now rewrite sortq_len. }
  assert (MONO : forall p q, 0 <= p -> p <= q -> q <= 100 -> percentile l p <= percentile l q).
  { intros p q P0 PQ Q1.
    destruct (percentile_spec l p Hl P0 ltac:(lra)) as (i & w & I1 & W0 & W1 & WI & XI & ->).
    destruct (percentile_spec l q Hl ltac:(lra) Q1) as (j & u & J1 & U0 & U1 & UJ & XJ & ->).
    assert (N1 : 1 <= qn (length l)) by (change 1 with (qn 1); apply qn_le; lia).
    assert (XX : qn i + w <= qn j + u).
    { rewrite XI, XJ. apply Qmult_le_compat_r; [|lra]. apply Qmult_le_compat_r; [exact PQ|discriminate]. }
    destruct (percentile_bounds l i w I1 W0 W1 WI) as [A1 A2]. destruct (percentile_bounds l j u J1 U0 U1 UJ) as [B1 B2].
    destruct (Nat.lt_trichotomy i j) as [C|[C|C]].
    - specialize (A2 ltac:(lia)). pose proof (asc_nth _ (sortq_asc l) (S i) j ltac:(rewrite sortq_len; lia)). lra.
    - subst j. assert (WU : w <= u) by lra.
      destruct UJ as [UJ|UJ]; [assert (w == 0) by lra; rewrite UJ, H; lra|].
      pose proof (asc_nth _ (sortq_asc l) i (S i) ltac:(rewrite sortq_len; lia)) as M.
      set (a := nth i (sortq l) 0) in *. set (b := nth (S i) (sortq l) 0) in *. clearbody a b. nra.
    - exfalso. assert (qn (S j) <= qn i) by (apply qn_le; lia). rewrite qn_S in H. lra. }
  assert (TOP : percentile l 100 == nth (length l - 1) (sortq l) 0).
  { destruct (percentile_spec l 100 Hl ltac:(lra) ltac:(lra)) as (i & w & I1 & W0 & W1 & WI & XI & ->).
    assert (E1 : (100 / 100 == 1)) by reflexivity. rewrite E1 in XI.
    assert (E2 : qn (length l) == qn (length l - 1) + 1) by (rewrite <- qn_S; replace (S (length l - 1)) with (length l) by lia; reflexivity).
    rewrite E2 in XI. assert (i = length l - 1)%nat.
    { destruct (Nat.eq_dec i (length l - 1)); [assumption|]. exfalso.
      assert (qn (S i) <= qn (length l - 1)) by (apply qn_le; lia). rewrite qn_S in H. lra. }
    subst i. destruct WI as [WI|WI]; [rewrite WI; ring|lia]. }
  assert (LB : forall x, In x l -> x <= percentile l 100).
  { intros x Hx. rewrite TOP. apply (Permutation_in _ (Permutation_sym (sortq_perm l))) in Hx.
    destruct (In_nth _ _ 0 Hx) as (k & Hk & <-). rewrite sortq_len in Hk. apply asc_nth; [apply sortq_asc|]. rewrite sortq_len. lia. }
  assert (NL : (1 <= length l)%nat) by (destruct l; [congruence|cbn; lia]).
  repeat split.
  - exact MONO.
  - intros q v Q0 Q1 Hv. pose proof (MONO q 100 Q0 Q1 ltac:(lra)). rewrite TOP in H. pose proof (Hv _ (IS (length l - 1)%nat ltac:(lia))). lra.
  - intros q v Q0 Q1 Hv. destruct (percentile_spec l q Hl Q0 Q1) as (i & w & I1 & W0 & W1 & WI & XI & ->).
    destruct (percentile_bounds l i w I1 W0 W1 WI) as [A1 _]. pose proof (Hv _ (IS i I1)). lra.
  - exists (nth (length l - 1) (sortq l) 0). split; [apply IS; lia|exact TOP].
  - exact LB.
  - destruct (percentile_spec l 50 Hl ltac:(lra) ltac:(lra)) as (i & w & I1 & W0 & W1 & WI & XI & ->). unfold median. cbv zeta.
    assert (E1 : (50 / 100 == 1 # 2)) by reflexivity. rewrite E1 in XI.
    assert (ND : forall k, qn (2 * k) == 2 * qn k) by (intros k; unfold qn; rewrite Nat2Z.inj_mul, inject_Z_mult; reflexivity).
    destruct (Nat.even (length l)) eqn:EV.
    + apply Nat.even_spec in EV. destruct EV as [k EK]. rewrite EK in *.
      rewrite (Nat.mul_comm 2 k), Nat.div_mul by lia.
      rewrite ND in XI. assert (i = k - 1)%nat.
      { assert (KS : qn k == qn (k - 1) + 1) by (rewrite <- qn_S; replace (S (k - 1)) with k by lia; reflexivity).
        assert (XX : qn i + w == qn (k - 1) + (1 # 2)) by (rewrite XI, KS; ring).
        destruct (Nat.lt_trichotomy i (k - 1)) as [C|[C|C]]; [|exact C|]; exfalso.
        - assert (qn (S i) <= qn (k - 1)) by (apply qn_le; lia). rewrite qn_S in H. lra.
        - assert (qn (S (k - 1)) <= qn i) by (apply qn_le; lia). rewrite qn_S in H. lra. }
      subst i. assert (KS : qn k == qn (k - 1) + 1) by (rewrite <- qn_S; replace (S (k - 1)) with k by lia; reflexivity).
      assert (WH : w == 1 # 2) by (rewrite KS in XI; lra). rewrite WH. replace (S (k - 1)) with k by lia. field.
    + assert (OD : Nat.odd (length l) = true) by (unfold Nat.odd; now rewrite EV).
      apply Nat.odd_spec in OD. destruct OD as [k EK]. rewrite EK in *.
      replace (2 * k + 1)%nat with (S (2 * k)) in XI by lia. rewrite qn_S, ND in XI.
      assert (XX : qn i + w == qn k) by (rewrite XI; ring).
      assert (i = k).
      { destruct (Nat.lt_trichotomy i k) as [C|[C|C]]; [|exact C|]; exfalso.
        - assert (qn (S i) <= qn k) by (apply qn_le; lia). rewrite qn_S in H. lra.
        - assert (qn (S k) <= qn i) by (apply qn_le; lia). rewrite qn_S in H. lra. }
      subst i. assert (w == 0) by lra. rewrite H.
      replace ((2 * k + 1) / 2)%nat with k by (rewrite Nat.add_comm, Nat.mul_comm, Nat.div_add by lia; reflexivity).
      ring.
Qed.
Example c172_percentiles_ex : percentile [3; 1; 2; 10] 50 == 5 # 2 /\ percentile [3; 1; 2; 10] 100 == 10 /\ percentile [3; 1; 2] 25 == 3 # 2.
Proof. repeat split; reflexivity. Qed.

(** an ascending arrangement is unique *)
Lemma asc_uniq : forall s t, asc s -> asc t -> Permutation s t -> Forall2 Qeq s t.
Proof.
  induction s as [|a s IH]; intros t As At Pt.
    - apply Permutation_nil in Pt. subst. constructor.
    - destruct t as [|b t]; [symmetry in Pt; apply Permutation_nil in Pt; discriminate|].
      inversion As as [|? ? A1 A2]; inversion At as [|? ? B1 B2]; subst.
      assert (AB : a <= b).
      { assert (In b (a :: s)) by (apply (Permutation_in _ (Permutation_sym Pt)); now left). destruct H as [->|H]; [apply Qle_refl|now apply A1]. }
      assert (BA : b <= a).
      { assert (In a (b :: t)) by (apply (Permutation_in _ Pt); now left). destruct H as [->|H]; [apply Qle_refl|now apply B1]. }
      assert (E : a == b) by (apply Qle_antisym; assumption).
      destruct (in_split a (b :: t) (Permutation_in _ Pt (or_introl eq_refl))) as (u & v & EUV).
      destruct u as [|c u].
      + cbn in EUV. injection EUV as -> ->. constructor; [reflexivity|]. apply IH; auto. now apply Permutation_cons_inv in Pt.
      + cbn in EUV. injection EUV as -> ->.
        assert (PT : Permutation s (c :: u ++ v)).
        { apply Permutation_cons_inv with a. etransitivity; [exact Pt|]. symmetry. exact (Permutation_middle (c :: u) v a). }
        (* the same list with a taken out of the middle *)
        assert (At' : asc (c :: u ++ v)).
        { clear - At. rewrite app_comm_cons in *. set (z := c :: u) in *. clearbody z. clear c u.
          induction z as [|x z IHz]; cbn [app] in *; inversion At as [|? ? X1 X2]; subst; [exact X2|].
          constructor; [|now apply IHz]. intros y Hy. apply X1. apply in_app_iff in Hy. apply in_app_iff. cbn. tauto. }
        pose proof (IH _ A2 At' PT) as F.
        (* from c down to a everything is equal to a *)
        constructor; [exact E|].
        assert (U : forall x, In x u -> x == c).
        { intros x Hx. apply Qle_antisym; [|apply B1; apply in_app_iff; now left].
          assert (x <= a). { clear - B2 Hx. induction u as [|y u IHu]; [contradiction|]. cbn in *. inversion B2 as [|? ? Y1 Y2]; subst.
            destruct Hx as [->|Hx]; [apply Y1, in_app_iff; right; now left|now apply IHu]. }
          lra. }
        clear - F E U. revert E U F. revert c s. induction u as [|y u IHu]; intros c s E U F; inversion F as [|x0 ? s0 ? F1 F2]; subst; cbn [app] in *.
        * constructor; [lra|exact F2].
        * constructor; [rewrite F1; symmetry; apply U; now left|].
          assert (Ey : y == c) by (apply U; now left).
          apply (IHu y s0); [lra| |exact F2].
          intros x Hx. rewrite (U x (or_intror Hx)). now symmetry.
Qed.

Lemma F2_nth_eq s t : Forall2 Qeq s t -> forall i, nth i s 0 == nth i t 0.
Proof. induction 1 as [|a b s t H F IH]; intros [|i]; cbn [nth]; try reflexivity; [exact H|apply IH]. Qed.
Lemma sortq_of l t : Permutation l t -> asc t -> forall i, nth i (sortq l) 0 == nth i t 0.
Proof. intros P A. apply F2_nth_eq, asc_uniq; [apply sortq_asc|exact A|]. now rewrite sortq_perm. Qed.
Lemma asc_map f l : (forall x y, x <= y -> f x <= f y) -> asc l -> asc (map f l).
Proof.
  intros M. induction 1 as [|a l H1 H2 IH]; cbn [map]; constructor; [|exact IH].
  intros b Hb. apply in_map_iff in Hb. destruct Hb as (x & <- & Hx). apply M, H1, Hx.
Qed.
Lemma percentile_nth l m q : length l = length m -> (forall i, nth i (sortq l) 0 == nth i (sortq m) 0) ->
  percentile l q == percentile m q.
Proof.
  intros L E. unfold percentile. cbv zeta. rewrite L. destruct (Qeq_bool _ _); rewrite !E; reflexivity.
Qed.
Lemma percentiles_len l : length (percentiles l) = 100%nat.
Proof. unfold percentiles. now rewrite map_length, seq_length. Qed.
Lemma percentiles_nth l k : (k < 100)%nat -> nth k (percentiles l) 0 = percentile l (qn (S k)).
Proof.
  intros H. unfold percentiles. set (f := fun k => _).
  rewrite (nth_indep _ 0 (f 0%nat)) by (rewrite map_length, seq_length; exact H). now rewrite map_nth, seq_nth by exact H.
Qed.
(** A quantile figure has a hundred points, ascending in both directions; two samples with the same values lie on the diagonal,
    and a linear change of one sample changes its coordinate of every point alike. *)
Theorem c172_quantiles : forall x y, x <> [] -> y <> [] ->
  length (quantilePoints x y) = 100%nat /\
  (forall i j, (i <= j < 100)%nat -> let p := nth i (quantilePoints x y) (0, 0) in let q := nth j (quantilePoints x y) (0, 0) in
     fst p <= fst q /\ snd p <= snd q) /\
  (Permutation x y -> forall p, In p (quantilePoints x y) -> fst p == snd p) /\
  (forall a b, 0 <= a -> y = map (fun v => a * v + b) x -> forall p, In p (quantilePoints x y) -> snd p == a * fst p + b).
Proof.
  intros x y Hx Hy. unfold quantilePoints.
  assert (NT : forall i, (i < 100)%nat -> nth i (combine (percentiles x) (percentiles y)) (0, 0) = (percentile x (qn (S i)), percentile y (qn (S i)))).
  { intros i Hi. rewrite combine_nth by now rewrite !percentiles_len. now rewrite !percentiles_nth. }
  assert (INP : forall p, In p (combine (percentiles x) (percentiles y)) -> exists i, (i < 100)%nat /\ p = (percentile x (qn (S i)), percentile y (qn (S i)))).
  { intros p Hp. destruct (In_nth _ _ (0, 0) Hp) as (i & Hi & E). rewrite combine_length, !percentiles_len, Nat.min_id in Hi.
    exists i. split; [exact Hi|]. rewrite <- E. now apply NT. }
  assert (R : forall i, (i < 100)%nat -> 0 <= qn (S i) /\ qn (S i) <= 100).
  { intros i Hi. split; [apply qn_pos|]. change 100 with (qn 100). apply qn_le. lia. }
  split; [now rewrite combine_length, !percentiles_len|]. split; [|split].
  - intros i j Hij. cbv zeta. rewrite !NT by lia. cbn [fst snd]. split; [|].
    + apply (proj1 (c172_percentiles x Hx)); [apply R; lia|apply qn_le; lia|apply R; lia].
    + apply (proj1 (c172_percentiles y Hy)); [apply R; lia|apply qn_le; lia|apply R; lia].
  - intros P p Hp. destruct (INP p Hp) as (i & _ & ->). cbn [fst snd]. apply percentile_nth; [now apply Permutation_length|].
    apply sortq_of; [now rewrite sortq_perm|apply sortq_asc].
  - intros a b Ha E p Hp. destruct (INP p Hp) as (i & Hi & ->). cbn [fst snd]. destruct (R i Hi) as [R0 R1].
    assert (SM : forall k, (k < length x)%nat -> nth k (sortq y) 0 == a * nth k (sortq x) 0 + b).
    { intros k Hk. rewrite E. rewrite (sortq_of (map (fun v => a * v + b) x) (map (fun v => a * v + b) (sortq x))).
      - set (f := fun v => a * v + b). rewrite (nth_indep _ 0 (f 0)) by now rewrite map_length, sortq_len. rewrite map_nth. reflexivity.
      - apply Permutation_map. symmetry. apply sortq_perm.
      - apply asc_map; [intros u v Huv; nra|apply sortq_asc]. }
    destruct (percentile_spec x (qn (S i)) Hx R0 R1) as (k & w & K1 & W0 & W1 & WK & XK & VK).
    destruct (percentile_spec y (qn (S i)) Hy R0 R1) as (k2 & w2 & K2 & W20 & W21 & WK2 & XK2 & VK2).
    assert (LE : length y = length x) by (rewrite E; now rewrite map_length).
    rewrite LE in *. rewrite VK, VK2.
    assert (k2 = k).
    { destruct (Nat.lt_trichotomy k2 k) as [C|[C|C]]; [|exact C|]; exfalso.
      - assert (qn (S k2) <= qn k) by (apply qn_le; lia). rewrite qn_S in H. lra.
      - assert (qn (S k) <= qn k2) by (apply qn_le; lia). rewrite qn_S in H. lra. }
    subst k2. assert (w2 == w) by lra. rewrite H, (SM k K1).
    destruct WK as [WK|WK]; [rewrite WK; ring|]. rewrite (SM (S k) WK). ring.
Qed.
Example c172_quantiles_ex : nth 49 (quantilePoints [1; 2; 3] [20; 10; 30]) (0, 0) = (2, 20).
Proof. vm_compute. reflexivity. Qed.

(** * Regression figures *)
(** The limits of an axis are two of the values, have at least half the values between them, and every value less than twelve
    median deviations from the median. *)
Lemma filter_le_len {A} (f g : A -> bool) l : (forall x, In x l -> f x = true -> g x = true) -> (length (filter f l) <= length (filter g l))%nat.
Proof.
  induction l as [|a r IH]; intros H; cbn [filter]; [lia|]. assert (IH' := IH (fun x Hx => H x (or_intror Hx))).
  destruct (f a) eqn:Fa; [rewrite (H a (or_introl eq_refl) Fa); cbn; lia|]. destruct (g a); cbn; lia.
Qed.
Lemma filter_map_len {A B} (h : A -> B) f l : length (filter f (map h l)) = length (filter (fun x => f (h x)) l).
Proof. induction l as [|a r IH]; cbn [map filter]; [reflexivity|]. destruct (f (h a)); cbn; lia. Qed.
Lemma median_nonneg l : (forall x, In x l -> 0 <= x) -> 0 <= median l.
Proof.
  intros H. destruct l as [|a r] eqn:E; [vm_compute; discriminate|]. rewrite <- E in *.
  destruct (c172_percentiles l ltac:(congruence)) as (_ & _ & G & _ & _ & M). rewrite <- M. apply G; [lra|lra|exact H].
Qed.
Theorem c172_limits : forall data, data <> [] ->
  exists lo hi, axisLimits data = Some (lo, hi) /\ (exists x, In x data /\ lo == x) /\ (exists x, In x data /\ hi == x) /\
    (length data <= 2 * length (filter (fun x => Qle_bool lo x && Qle_bool x hi) data))%nat /\
    (let med := median data in let mdev := median (map (fun x => Qabs (x - med)) data) in
     forall x, In x data -> Qabs (x - med) < 12 * mdev \/ mdev == 0 -> lo <= x <= hi).
Proof.
  intros data Hd. unfold axisLimits, filterOutliers. set (med := median data). set (dev := map (fun x => Qabs (x - med)) data).
  set (mdev := median dev).
  assert (M0 : 0 <= mdev) by (apply median_nonneg; intros x Hx; apply in_map_iff in Hx; destruct Hx as (y & <- & _); apply Qabs_nonneg).
  set (kept := if Qeq_bool mdev 0 then data else filter (fun x => qlt (Qabs (x - med) / mdev) 12) data).
  assert (SUB : forall x, In x kept -> In x data) by (intros x; unfold kept; destruct (Qeq_bool mdev 0); [auto|intros H; now apply filter_In in H]).
  assert (FAR : forall x, In x data -> Qabs (x - med) < 12 * mdev \/ mdev == 0 -> In x kept).
  { intros x Hx C. unfold kept. destruct (Qeq_bool mdev 0) eqn:E; [exact Hx|]. apply Qeq_bool_neq in E. apply filter_In. split; [exact Hx|].
    apply qlt_iff. destruct C as [C|C]; [|contradiction]. apply Qlt_shift_div_r; [lra|exact C]. }
  clearbody kept.
  assert (HALF : (length data <= 2 * length (filter (fun x => Qle_bool (Qabs (x - med)) mdev) data))%nat).
  { destruct (median_half dev) as [MH _]; [unfold dev; destruct data; [congruence|discriminate]|].
    assert (LD : length dev = length data) by (unfold dev; now rewrite map_length).
    assert (FD : forall f, length (filter f dev) = length (filter (fun x => f (Qabs (x - med))) data)) by (intros f; unfold dev; apply filter_map_len).
    rewrite LD, FD in MH. exact MH. }
  assert (NEAR : forall x, In x data -> Qle_bool (Qabs (x - med)) mdev = true -> In x kept).
  { intros x Hx C. apply Qle_bool_iff in C. apply FAR; [exact Hx|]. destruct (Qeq_dec mdev 0) as [Z|Z]; [now right|left; lra]. }
  assert (NE : kept <> []).
  { intros E. assert (F0 : filter (fun x => Qle_bool (Qabs (x - med)) mdev) data = []).
    { destruct (filter _ data) as [|x r] eqn:EF; [reflexivity|]. exfalso.
      assert (Ix : In x (filter (fun x => Qle_bool (Qabs (x - med)) mdev) data)) by (rewrite EF; now left).
      apply filter_In in Ix. pose proof (NEAR x (proj1 Ix) (proj2 Ix)) as K. rewrite E in K. contradiction. }
    rewrite F0 in HALF. destruct data; [congruence|cbn in HALF; lia]. }
  destruct kept as [|a r]; [congruence|].
  destruct (amin_spec r a) as (A1 & A2 & A3). destruct (amax_spec r a) as (B1 & B2 & B3).
  assert (BET : forall x, In x (a :: r) -> amin a r <= x <= amax a r).
  { intros x [<-|Hx]; [split; assumption|]. split; [now apply A2|now apply B2]. }
  exists (amin a r), (amax a r). repeat split.
  - destruct A3 as [A3|(y & Hy & A3)]; [exists a; split; [apply SUB; now left|exact A3]|exists y; split; [apply SUB; now right|exact A3]].
  - destruct B3 as [B3|(y & Hy & B3)]; [exists a; split; [apply SUB; now left|exact B3]|exists y; split; [apply SUB; now right|exact B3]].
  - etransitivity; [exact HALF|]. apply Nat.mul_le_mono_l. apply filter_le_len. intros x Hx C.
    destruct (BET x (NEAR x Hx C)) as [U V]. apply andb_true_iff. split; apply Qle_bool_iff; assumption.
  - destruct (BET x (FAR x H H0)). assumption.
  - destruct (BET x (FAR x H H0)). assumption.
Qed.
Example c172_limits_ex : axisLimits [1; 2; 3; 4; 5; 1000] = Some (1, 5).
Proof. vm_compute. reflexivity. Qed.

(** A lagged figure pairs each value with the one before; missing values are left out; frequencies lose the first and last year. *)
Theorem c172_lagged : forall data i, (i + 1 < length data)%nat ->
  length (snd (lagged data)) = (length data - 1)%nat /\
  nth i (snd (lagged data)) (0, 0) = (nth (i + 1) data 0, nth i data 0).
Proof.
  intros data i H. unfold lagged. cbn [snd].
  assert (L1 : length (tl data) = (length data - 1)%nat) by (destruct data; cbn; lia).
  assert (L2 : length (removelast data) = (length data - 1)%nat).
  { destruct data as [|a r]; [reflexivity|]. rewrite (removelast_firstn_len (a :: r)), firstn_length. cbn. lia. }
  split; [rewrite combine_length; lia|]. rewrite combine_nth by lia. f_equal.
  - destruct data as [|a r]; [cbn in H; lia|]. cbn [tl]. now replace (i + 1)%nat with (S i) by lia.
  - rewrite removelast_firstn_len. set (k := pred (length data)).
    transitivity (nth i (firstn k data ++ skipn k data) 0); [|now rewrite firstn_skipn].
    rewrite app_nth1; [reflexivity|]. rewrite firstn_length. lia.
Qed.
Theorem c172_missing : forall f x y p, length x = length y ->
  (In p (prepareData f x y) <-> exists i, (i < length x)%nat /\ nth i x 0 < maxsize /\ nth i y 0 < maxsize /\ p = (f (nth i x 0), f (nth i y 0))).
Proof.
  intros f x y p L. unfold prepareData. rewrite in_map_iff. split.
  - intros ([a b] & <- & Hp). apply filter_In in Hp. destruct Hp as [Hp C]. apply andb_true_iff in C. cbn [fst snd] in *.
    destruct (In_nth _ _ (0, 0) Hp) as (i & Hi & E). rewrite combine_length, <- L, Nat.min_id in Hi.
    rewrite combine_nth in E by exact L. injection E as <- <-. exists i. repeat split; [exact Hi|now apply qlt_iff|now apply qlt_iff].
  - intros (i & Hi & C1 & C2 & ->). exists (nth i x 0, nth i y 0). cbn [fst snd]. split; [reflexivity|]. apply filter_In. cbn [fst snd]. split.
    + rewrite <- combine_nth by exact L. apply nth_In. now rewrite combine_length, <- L, Nat.min_id.
    + apply andb_true_iff. split; now apply qlt_iff.
Qed.
Theorem c172_frequency : forall y0 y1 years f0 f1 freq, length years = length freq ->
  frequencyPoints (y0 :: years ++ [y1]) (f0 :: freq ++ [f1]) = combine years freq.
Proof. intros. unfold frequencyPoints, inner. cbn [tl]. now rewrite !removelast_last. Qed.
Example c172_frequency_ex : frequencyPoints [1981; 1982; 1983; 1984] [3; 10; 11; 2] = [(1982, 10); (1983, 11)].
Proof. reflexivity. Qed.

(** ** C173: what does not hold *)
(** The dots are not all events: with fewer records than years, days without any event are shown as events of speed 0. *)
Theorem c173_zeros_refuted : exists N recs ev, (1 <= N)%Z /\ (forall v, In v recs -> 0 < v) /\
  allEvents N recs = Some ev /\ exists p, In p (dots ev) /\ snd p = 0 /\ 1 < fst p.
Proof.
  exists 2%Z, [50]. eexists. split; [lia|]. split; [intros v [<-|[]]; reflexivity|]. split; [reflexivity|].
  eexists. split; [vm_compute; left; reflexivity|]. split; reflexivity.
Qed.
(** Always so: with fewer records than years some dot has speed 0. *)
Theorem c173_zeros_always_refuted : forall N recs ev, (1 <= N)%Z -> (length recs < Z.to_nat N)%nat -> (forall v, In v recs -> 0 < v) ->
  allEvents N recs = Some ev -> exists p, In p (dots ev) /\ snd p == 0.
Proof.
  intros N recs ev HN HL HP H. destruct (c172_dots N recs ev HN H) as (L & rest & P & B).
  destruct (existsb (fun p => Qeq_bool (snd p) 0) (dots ev)) eqn:E.
  { apply existsb_exists in E. destruct E as (p & I & Z). exists p. split; [exact I|now apply Qeq_bool_iff]. }
  exfalso.
  assert (A : forall p, In p (dots ev) -> In (snd p) recs).
  { intros p I. assert (J : In (snd p) (recs ++ repeat 0 (empDays N - length recs))).
    { apply (Permutation_in _ (Permutation_sym P)), in_app_iff. right. now apply in_map. }
    apply in_app_iff in J. destruct J as [J|J]; [exact J|]. apply repeat_spec in J.
    assert (existsb (fun p => Qeq_bool (snd p) 0) (dots ev) = true); [|congruence].
    apply existsb_exists. exists p. split; [exact I|]. rewrite J. reflexivity. }
  assert (C : (length (filter (fun v => qlt 0 v) (recs ++ repeat 0%Q (empDays N - length recs))) <= length recs)%nat).
  { rewrite filter_app, app_length.
    assert (Z : filter (fun v => qlt 0 v) (repeat 0 (empDays N - length recs)) = []).
    { clear. induction (empDays N - length recs)%nat as [|k IH]; cbn [repeat filter]; [reflexivity|]. exact IH. }
    rewrite Z. cbn [List.length]. rewrite Nat.add_0_r. clear. induction recs as [|a r IH]; cbn [filter List.length]; [lia|]. destruct (qlt 0 a); cbn [List.length]; lia. }
  rewrite (filter_perm_len _ _ _ P) in C. rewrite filter_app, app_length in C.
  assert (D : filter (fun v => qlt 0 v) (map snd (dots ev)) = map snd (dots ev)).
  { assert (G : forall l, (forall v, In v l -> 0 < v) -> filter (fun v => qlt 0 v) l = l).
    { induction l as [|a l IH]; intros Hl; cbn [filter]; [reflexivity|]. 
      rewrite (proj2 (qlt_iff 0 a) (Hl a (or_introl eq_refl))). f_equal. apply IH. intros v Hv. apply Hl. now right. }
    apply G. intros v Hv. apply in_map_iff in Hv. destruct Hv as (p & <- & Hp). now apply HP, A. }
  rewrite D, map_length, L in C. lia.
Qed.
(** The dots do not use the unit of the axis: only the curve is converted. *)
Definition sameCell : nat -> nat -> nat -> option Q := fun _ _ _ => Some 50.
Theorem c173_dot_units_refuted : forall pi, exists f,
  placeCurve pi "kph" false 1 [10] [-(10)] [1; 100] sameCell sameCell sameCell (7%nat, 10, -(10)) [50] = Drawn f /\
  f_label f = "km/h"%string /\ map snd (f_line f) = [Some (50 * 3.6); Some (50 * 3.6)] /\ map snd (f_dots f) = [50].
Proof. intros pi. eexists. split; [reflexivity|]. vm_compute. auto. Qed.
(** With the unit kmh the figure says km/h but shows metres per second. *)
Theorem c173_kmh_refuted : forall pi v, convert pi v "mps" "kmh" = v /\
  plotUnits "kmh" = plotUnits "kph" /\ (exists lv, plotUnits "kmh" = Some ("km/h"%string, lv) /\ forall x, In x lv -> 80 <= x).
Proof.
  intros pi v. repeat split; try reflexivity. eexists. split; [reflexivity|]. intros x Hx. vm_compute in Hx.
  repeat (destruct Hx as [<-|Hx]; [vm_compute; discriminate|]). contradiction.
Qed.
(** The confidence range is not shown at all if its lower bound for the shortest interval is not positive. *)
Theorem c173_range_refuted : forall pi units N lons lats years wspd wlow wup p recs f j i,
  placeCurve pi units true N lons lats years wspd wlow wup p recs = Drawn f ->
  findIndex lons (snd (fst p)) = Some i -> findIndex lats (snd p) = Some j -> wlow 0%nat j i = None -> f_range f = None.
Proof.
  intros until i. intros H Ei Ej E0. unfold placeCurve in H. rewrite Ei, Ej in H.
  destruct (plotUnits units) as [[lab lv]|]; [|discriminate]. destruct (allEvents N recs); [|discriminate]. cbv beta iota zeta in H.
  destruct (present _); [discriminate|].
  assert (R : rangeShown (column pi units years wlow j i) (column pi units years wup j i) = false).
  { unfold column. destruct years as [|y ys]; [reflexivity|]. cbn [List.length seq map rangeShown]. rewrite E0. reflexivity. }
  rewrite R in H. injection H as <-. reflexivity.
Qed.
Example c173_range_ex : forall pi, exists f,
  placeCurve pi "mps" true 1 [10] [-(10)] [1; 100] sameCell (fun k _ _ => match k with O => Some 0 | _ => Some 40 end) (fun _ _ _ => Some 60) (7%nat, 10, -(10)) [50] = Drawn f /\
  f_range f = None.
Proof. intros pi. eexists. split; reflexivity. Qed.
(** Neither the range nor the dots need to fit into the figure. *)
Theorem c173_cut_refuted : forall pi, exists f,
  placeCurve pi "mps" true 1 [10] [-(10)] [1; 100] sameCell sameCell (fun _ _ _ => Some 150) (7%nat, 10, -(10)) [120] = Drawn f /\
  f_top f = 100 /\ (exists p, In p (f_dots f) /\ f_top f < snd p) /\
  (exists r y lo up, f_range f = Some r /\ In (y, (lo, Some up)) r /\ f_top f < up).
Proof.
  intros pi. eexists. split; [reflexivity|]. cbn [f_top f_dots f_range]. split; [vm_compute; reflexivity|]. split.
  - eexists. split; [vm_compute; left; reflexivity|]. vm_compute. reflexivity.
  - eexists _, 1, (Some 50), 150. split; [vm_compute; reflexivity|]. split; [left; reflexivity|]. vm_compute. reflexivity.
Qed.
(** Places outside the grid are shown with the levels of the nearest edge. *)
Theorem c173_outside_refuted : forall pi units ci N lats years wspd wlow wup k lon lat recs,
  150 <= lon ->
  placeCurve pi units ci N [148; 149; 150] lats years wspd wlow wup (k, lon, lat) recs =
  placeCurve pi units ci N [148; 149; 150] lats years wspd wlow wup (k, 150, lat) recs.
Proof.
  intros until recs. intros H. unfold placeCurve. cbn [fst snd].
  assert (E : findIndex [148; 149; 150] lon = Some 2%nat).
  { unfold findIndex. change (amax 148 [149; 150]) with 150. change (amin 148 [149; 150]) with 148.
    destruct (qlt 150 lon) eqn:A; [reflexivity|]. apply GenProofs.qlt_false_iff in A. assert (L : lon == 150) by lra.
    destruct (qlt lon 148) eqn:B; [apply qlt_iff in B; lra|]. f_equal. cbn [map]. unfold argmin, argminFrom.
    assert (A0 : Qabs (148 - lon) == 2) by (rewrite L; reflexivity). assert (A1 : Qabs (149 - lon) == 1) by (rewrite L; reflexivity).
    assert (A2 : Qabs (150 - lon) == 0) by (rewrite L; reflexivity).
    assert (Q1 : qlt (Qabs (149 - lon)) (Qabs (148 - lon)) = true) by (apply qlt_iff; lra).
    assert (Q2 : qlt (Qabs (150 - lon)) (Qabs (149 - lon)) = true) by (apply qlt_iff; lra).
    rewrite Q1, Q2. reflexivity. }
  rewrite E. reflexivity.
Qed.
(** A place with more records than days stops the loop: the places after it get no figure. *)
Theorem c173_many_refuted : forall pi units ci N lons lats years wspd wlow wup p rest records,
  (empDays N < length (records (fst (fst p))))%nat ->
  plotCurves pi units ci N lons lats years wspd wlow wup (p :: rest) records = ([], false).
Proof.
  intros until records. intros H. cbn [plotCurves]. unfold placeCurve, allEvents.
  apply Nat.ltb_lt in H. rewrite H.
  destruct (plotUnits units) as [[lab lv]|]; [|reflexivity].
  destruct (findIndex lons _); [|reflexivity]. destruct (findIndex lats _); reflexivity.
Qed.
Example c173_many_ex : (empDays 1 < length (repeat 30 366))%nat.
Proof. vm_compute. repeat constructor. Qed.
(** In a lagged figure the axis labelled with the earlier time shows the later value. *)
Theorem c173_labels_refuted : forall data i, (i + 1 < length data)%nat ->
  fst (lagged data) = (Before, Now) /\
  fst (nth i (snd (lagged data)) (0, 0)) = nth (i + 1) data 0 /\ snd (nth i (snd (lagged data)) (0, 0)) = nth i data 0.
Proof. intros data i H. destruct (c172_lagged data i H) as [_ E]. rewrite E. auto. Qed.
(** The last value of a storm is paired with the first value of the next storm. *)
Theorem c173_storms_refuted : forall storm1 x y storm2,
  In (y, x) (snd (lagged ((storm1 ++ [x]) ++ (y :: storm2)))).
Proof.
  intros storm1 x y storm2. set (data := (storm1 ++ [x]) ++ (y :: storm2)).
  assert (L : length data = (length storm1 + 2 + length storm2)%nat) by (unfold data; rewrite !app_length; cbn [List.length]; lia).
  destruct (c172_lagged data (length storm1) ltac:(lia)) as [LL E].
  assert (N1 : nth (length storm1) data 0 = x).
  { unfold data. rewrite <- app_assoc. rewrite app_nth2 by lia. now rewrite Nat.sub_diag. }
  assert (N2 : nth (length storm1 + 1) data 0 = y).
  { unfold data. rewrite app_nth2 by (rewrite app_length; cbn; lia). rewrite app_length. cbn [List.length]. now rewrite Nat.sub_diag. }
  rewrite N1, N2 in E. rewrite <- E. apply nth_In. lia.
Qed.

Print Assumptions c172_events.
Print Assumptions c172_intervals.
Print Assumptions c172_dots.
Print Assumptions c172_fit.
Print Assumptions c172_curve.
Print Assumptions c172_units.
Print Assumptions c172_figures.
Print Assumptions c172_top.
Print Assumptions c172_percentiles.
Print Assumptions c172_quantiles.
Print Assumptions c172_limits.
Print Assumptions c172_lagged.
Print Assumptions c172_missing.
Print Assumptions c172_frequency.
Print Assumptions c173_zeros_refuted.
Print Assumptions c173_zeros_always_refuted.
Print Assumptions c173_dot_units_refuted.
Print Assumptions c173_kmh_refuted.
Print Assumptions c173_range_refuted.
Print Assumptions c173_cut_refuted.
Print Assumptions c173_outside_refuted.
Print Assumptions c173_many_refuted.
Print Assumptions c173_labels_refuted.
Print Assumptions c173_storms_refuted.
