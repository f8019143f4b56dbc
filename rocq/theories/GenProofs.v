(** Proofs about track generation. *)
From Coq Require Import QArith Qabs Qround Lqa Lia.
From Verif Require Import Base SplitModel SplitProofs CellModel CellProofs SampModel SampProofs GenModel.
Opaque lowest.
Close Scope Q_scope. Open Scope list_scope. Open Scope nat_scope.

Lemma qmod_range x m : (0 < m)%Q -> (0 <= qmod x m)%Q /\ (qmod x m < m)%Q.
Proof.
  intros M. unfold qmod.
  pose proof (Qfloor_le (x / m)) as A. pose proof (Qlt_floor (x / m)) as B.
  rewrite inject_Z_plus in B.
  assert (E : (x == m * (x / m))%Q) by (field; intros E; rewrite E in M; now apply Qlt_irrefl in M).
  set (f := inject_Z (Qfloor (x / m))) in *. set (r := (x / m)%Q) in *.
  assert (H1 : (m * f <= m * r)%Q) by (apply Qmult_le_l; assumption).
  assert (H2 : (m * r < m * (f + 1))%Q) by (apply Qmult_lt_l; assumption).
  split.
  - rewrite E at 1. lra.
  - rewrite E at 1. lra.
Qed.
Lemma qlt_false_iff a b : qlt a b = false <-> (b <= a)%Q.
Proof. unfold qlt. rewrite negb_false_iff. apply Qle_bool_iff. Qed.
Lemma qle_false_iff a b : Qle_bool a b = false <-> (b < a)%Q.
Proof.
  split; intros H.
  - apply Qnot_le_lt. intros L. apply Qle_bool_iff in L. congruence.
  - destruct (Qle_bool a b) eqn:E; auto. apply Qle_bool_iff in E. apply Qlt_not_le in H. contradiction.
Qed.

Section P.
Context {G NG : Type}.
Variable w : world G NG.

Lemma outside_iff lon lat : outside w lon lat = false <-> in_domain (w_limit w) lon lat.
Proof.
  unfold outside, in_domain. rewrite !orb_false_iff, !qlt_false_iff, !qle_false_iff. tauto.
Qed.
Lemma inside_cell lon lat : outside w lon lat = false -> exists c, getCellNum lon lat (w_limit w) (w_space w) = Some c.
Proof.
  intros H. apply outside_iff in H.
  destruct (getCellNum lon lat (w_limit w) (w_space w)) eqn:E; eauto.
  apply cell_num_none in E. contradiction.
Qed.

(** What one pass of the loop guarantees. *)
Record stepped (eps lfeps rmwEps : Q) (i : nat) (s s' : sstate G) (v : bool) : Prop := {
  sp_pos : (p_lon (s_pt s'), p_lat (s_pt s')) =
           w_bear2 w (p_bear (s_pt s)) (s_dist s) (p_lon (s_pt s)) (p_lat (s_pt s));
  sp_age : p_age (s_pt s') = (p_age (s_pt s) + w_dt w)%Q;
  sp_date : p_date (s_pt s') = (p_date (s_pt s) + w_dt w / 24)%Q;
  sp_in : outside w (p_lon (s_pt s')) (p_lat (s_pt s')) = false;
  sp_speed : (0 <= p_speed (s_pt s'))%Q;
  sp_bear : (0 <= p_bear (s_pt s') /\ p_bear (s_pt s') < 360)%Q;
  sp_dist : s_dist s' = (w_dt w * p_speed (s_pt s'))%Q;
  sp_valid : v = negb (notValidTrackStep (p_pres (s_pt s')) (p_poci (s_pt s')) (p_age (s_pt s')));
  sp_pp : p_poci (s_pt s') <> None -> p_pres (s_pt s') <> None;
  sp_rmax : p_rmax (s_pt s') = trackRmax w (osub (p_poci (s_pt s')) (p_pres (s_pt s'))) (p_lat (s_pt s')) rmwEps;
  sp_land : exists m, w_mask w (p_lon (s_pt s')) (p_lat (s_pt s')) = Some m /\
    ((0 < m)%Q /\ s_tol s' = (s_tol s + w_dt w)%Q /\ s_clock s' = (s_clock s + w_dt w)%Q /\
       s_offP s' = s_offP s /\ s_offPoci s' = s_offPoci s /\ s_lfSpeed s' = s_lfSpeed s /\
       (forall d q, osub (s_offPoci s) (s_offP s) = Some d -> p_poci (s_pt s) = Some q ->
          p_pres (s_pt s') = Some (q - d * w_exp w (- ((3515 # 100000) + (435 # 1000000) * d
             + (2865 # 1000000) * s_lfSpeed s + lfeps) * s_tol s'))%Q)
     \/ (m <= 0)%Q /\ s_tol s' = s_tol s /\ s_clock s' = 0%Q /\ s_offP s' = p_pres (s_pt s') /\
        s_offPoci s' = p_poci (s_pt s') /\ s_lfSpeed s' = p_speed (s_pt s'))
}.

Lemma getPoci_some penv pc lat jday eps q : getPoci w penv pc lat jday eps = Some q ->
  exists p, pc = Some p /\ (p <= penv)%Q.
Proof.
  unfold getPoci. destruct pc as [p|]; [|discriminate].
  destruct (qlt penv p) eqn:E; [discriminate|]. intros _. exists p. split; auto. now apply qlt_false_iff.
Qed.

Lemma step_next eps lfeps rmwEps i s s' v : step w eps lfeps rmwEps i s = Next v s' ->
  stepped eps lfeps rmwEps i s s' v.
Proof.
  unfold step.
  destruct (w_bear2 w _ _ _ _) as [lon lat] eqn:B.
  destruct (outside w lon lat) eqn:O; [discriminate|].
  destruct (getCellNum lon lat (w_limit w) (w_space w)) as [c|] eqn:C; [|discriminate].
  unfold onLand. destruct (w_mask w lon lat) as [m|] eqn:M; [|discriminate].
  assert (TH : forall (land : bool) chi th g a b g',
    stepBearing w c i land chi th g = (a, b, g') -> (0 <= b /\ b < 360)%Q).
  { intros land chi th g a b g'. unfold stepBearing. destruct (ar w _ _ _ _ _) as [x y].
    intros E; inversion E; subst. apply qmod_range. reflexivity. }
  destruct (qlt 0 m) eqn:L.
  - destruct (stepPressureChange w c i true _ _ _) as [[dpChi dp] g1] eqn:E1.
    destruct (stepBearing w c i true _ _ _) as [[bChi theta] g2] eqn:E2.
    destruct (stepSpeed w c i true _ _ _) as [[vChi vv] g3] eqn:E3.
    destruct (w_sizeFile w); [discriminate|].
    intros E. inversion E. subst v s'. clear E. cbn -[getPoci osub notValidTrackStep trackRmax] in *.
    constructor; cbn -[getPoci osub notValidTrackStep trackRmax]; auto.
    + apply Qabs_nonneg.
    + eapply TH; eauto.
    + intros H. destruct (getPoci w _ _ _ _ _) eqn:P; [|congruence].
      apply getPoci_some in P as (p & P & _). congruence.
    + exists m. split; auto. left. apply qlt_iff in L. repeat split; auto.
      intros d q D Q. rewrite D, Q. reflexivity.
  - destruct (stepPressureChange w c i false _ _ _) as [[dpChi dp] g1] eqn:E1.
    destruct (stepBearing w c i false _ _ _) as [[bChi theta] g2] eqn:E2.
    destruct (stepSpeed w c i false _ _ _) as [[vChi vv] g3] eqn:E3.
    destruct (w_sizeFile w); [discriminate|].
    intros E. inversion E. subst v s'. clear E. cbn -[getPoci osub notValidTrackStep trackRmax] in *.
    constructor; cbn -[getPoci osub notValidTrackStep trackRmax]; auto.
    + apply Qabs_nonneg.
    + eapply TH; eauto.
    + intros H. destruct (getPoci w _ _ _ _ _) eqn:P; [|congruence].
      apply getPoci_some in P as (p & P & _). congruence.
    + exists m. split; auto. right. apply qlt_false_iff in L. repeat split; auto.
Qed.

(** The sequence of passes: [path i s l sf] - from state [s] at step [i] every pass is valid, records
    the rows [l] and ends in [sf]. *)
Inductive path (eps lfeps rmwEps : Q) : nat -> sstate G -> list point -> sstate G -> Prop :=
| path_nil i s : path eps lfeps rmwEps i s [] s
| path_cons i s s' l sf : step w eps lfeps rmwEps i s = Next true s' ->
    path eps lfeps rmwEps (S i) s' l sf -> path eps lfeps rmwEps i s (s_pt s' :: l) sf.

Lemma walk_path eps lfeps rmwEps k : forall i s l cl g, walk w eps lfeps rmwEps k i s = GOk (l, cl, g) ->
  exists sf, path eps lfeps rmwEps i s l sf /\ length l <= k /\
    (length l < k -> (exists c' g', step w eps lfeps rmwEps (i + length l) sf = Leave c' g') \/
                     (exists s', step w eps lfeps rmwEps (i + length l) sf = Next false s')).
Proof.
  induction k as [|k IH]; intros i s l cl g; cbn [walk].
  - intros E. inversion E; subst. exists s. split; [constructor|]. split; [auto|]. intros H; inversion H.
  - destruct (step w eps lfeps rmwEps i s) as [c' g'|v s'|e] eqn:S0.
    + intros E. inversion E; subst. exists s. split; [constructor|]. split; [simpl; lia|]. intros _.
      left. rewrite Nat.add_0_r. eauto.
    + destruct v.
      * destruct (walk w eps lfeps rmwEps k (S i) s') as [[[l' c'] g']|e|] eqn:W; cbn; intros E; try discriminate.
        inversion E; subst. apply IH in W as (sf & P & L & F).
        exists sf. split; [econstructor; eauto|]. split; [simpl; lia|].
        simpl. intros H. rewrite Nat.add_succ_r. apply F. lia.
      * intros E. inversion E; subst. exists s. split; [constructor|]. split; [simpl; lia|]. intros _.
        right. rewrite Nat.add_0_r. eauto.
    + discriminate.
Qed.

(** Every recorded pair of neighbours. *)
Lemma path_nth eps lfeps rmwEps i s l sf : path eps lfeps rmwEps i s l sf -> s_dist s = (w_dt w * p_speed (s_pt s))%Q ->
  forall k d, k < length l -> exists a b, stepped eps lfeps rmwEps (i + k) a b true /\
    s_pt a = nth k (s_pt s :: l) d /\ s_pt b = nth k l d /\ s_dist a = (w_dt w * p_speed (s_pt a))%Q.
Proof.
  induction 1 as [i s|i s s' l sf S0 P IH]; intros D k d H; [inversion H|].
  pose proof (step_next _ _ _ _ _ _ _ S0) as T.
  destruct k as [|k].
  - exists s, s'. rewrite Nat.add_0_r. auto.
  - simpl in H. destruct (IH (sp_dist _ _ _ _ _ _ _ T) k d ltac:(lia)) as (a & b & A & B & C & E).
    exists a, b. rewrite Nat.add_succ_r. split; [exact A|]. split; [rewrite B; reflexivity|]. split; auto.
Qed.
Lemma path_last eps lfeps rmwEps i s l sf : path eps lfeps rmwEps i s l sf -> s_dist s = (w_dt w * p_speed (s_pt s))%Q ->
  s_pt sf = last (s_pt s :: l) (s_pt s) /\ s_dist sf = (w_dt w * p_speed (s_pt sf))%Q.
Proof.
  induction 1 as [i s|i s s' l sf S0 P IH]; intros D; [auto|].
  pose proof (step_next _ _ _ _ _ _ _ S0) as T.
  destruct (IH (sp_dist _ _ _ _ _ _ _ T)) as (A & B). split; [|auto].
  rewrite A. change (last (s_pt s :: s_pt s' :: l) (s_pt s)) with (last (s_pt s' :: l) (s_pt s)).
  generalize (s_pt s'). clear. induction l as [|b l IH]; intros a; [reflexivity|].
  change (last (b :: l) a = last (b :: l) (s_pt s)).
  assert (G0 : forall (x y : point), last (b :: l) x = last (b :: l) y).
  { clear. revert b. induction l as [|c l IH]; intros b x y; [reflexivity|]. exact (IH c x y). }
  apply G0.
Qed.
End P.

(** ** C25 *)
Section P25.
Context {G NG : Type}.
Variable w : world G NG.
Definition qn (n : nat) : Q := inject_Z (Z.of_nat n).
Lemma qn_S n : (qn (S n) == qn n + 1)%Q.
Proof. unfold qn. rewrite Nat2Z.inj_succ, <- Z.add_1_r, inject_Z_plus. reflexivity. Qed.

(** Deficit required of every recorded row but the first. *)
Definition deficient (p : point) : Prop :=
  exists c e r, p_pres p = Some c /\ p_poci p = Some e /\ p_rmax p = Some r /\
    ((12 < p_age p)%Q -> (5 <= e - c)%Q) /\ ((p_age p <= 12)%Q -> (2 <= e - c)%Q).
Lemma valid_deficient eps lf rm i a b : stepped w eps lf rm i a b true -> deficient (s_pt b).
Proof.
  intros T. pose proof (sp_valid _ _ _ _ _ _ _ _ T) as V. symmetry in V. rewrite negb_true_iff in V.
  pose proof (sp_pp _ _ _ _ _ _ _ _ T) as PP. pose proof (sp_rmax _ _ _ _ _ _ _ _ T) as R.
  unfold notValidTrackStep in V.
  destruct (p_poci (s_pt b)) as [e|] eqn:E; [|discriminate].
  destruct (p_pres (s_pt b)) as [c|] eqn:C; [|exfalso; apply PP; congruence].
  cbn in V, R. exists c, e. eexists. rewrite E, C, R. repeat split.
  - intros A. apply qlt_iff in A. rewrite A in V. cbn in V.
    destruct (qlt (e - c) 5) eqn:Q; [discriminate|]. now apply qlt_false_iff.
  - intros A. apply Qle_bool_iff in A. rewrite A in V. cbn in V.
    destruct (qlt 12 (p_age (s_pt b)) && qlt (e - c) 5); [discriminate|].
    destruct (qlt (e - c) 2) eqn:Q; [discriminate|]. now apply qlt_false_iff.
Qed.

Variables (lon lat speed bear pres env rmax date jday rmwEps clock : Q) (g : G).
Definition firstPoint (p : point) : Prop :=
  p_date p = date /\ p_age p = 0%Q /\ p_lon p = lon /\ p_lat p = lat /\ p_speed p = speed /\ p_bear p = bear /\
  p_pres p = Some pres /\ p_rmax p = Some rmax.

(** Consecutive rows. *)
Definition follows (a b : point) : Prop :=
  (p_lon b, p_lat b) = w_bear2 w (p_bear a) (w_dt w * p_speed a)%Q (p_lon a) (p_lat a) /\
  p_age b = (p_age a + w_dt w)%Q /\ p_date b = (p_date a + w_dt w / 24)%Q /\
  in_domain (w_limit w) (p_lon b) (p_lat b) /\ (0 <= p_speed b)%Q /\ (0 <= p_bear b /\ p_bear b < 360)%Q /\
  deficient b.

Lemma single_inv t cl g' : singleTrack w lon lat speed bear pres env rmax date jday rmwEps clock g = GOk (t, cl, g') ->
  exists k eps lf p s l sf, w_maxSteps w = S k /\ t = p :: l /\ firstPoint p /\ s_pt s = p /\
    s_dist s = (w_dt w * p_speed p)%Q /\ s_tol s = 0%Q /\ s_clock s = clock /\
    path w eps lf rmwEps 1 s l sf /\ length l <= k /\
    (length l < k -> (exists c' g', step w eps lf rmwEps (1 + length l) sf = Leave c' g') \/
                     (exists s', step w eps lf rmwEps (1 + length l) sf = Next false s')).
Proof.
  unfold singleTrack. destruct (w_maxSteps w) as [|k]; [discriminate|].
  destruct (w_normal w _ _ g) as [eps g1]. destruct (w_lognorm w _ _ _ g1) as [lf g2].
  match goal with |- context [walk w _ _ _ _ _ ?x] => set (s := x) end.
  destruct (walk w eps lf rmwEps k 1 s) as [[[l c1] g3]|e|] eqn:W; cbn [gbind fst snd]; intros E; try discriminate.
  inversion E; subst. apply walk_path in W as (sf & P & L & F).
  exists k, eps, lf, (s_pt s), s, l, sf. unfold firstPoint. repeat split; auto.
Qed.

Lemma single_follows t cl g' : singleTrack w lon lat speed bear pres env rmax date jday rmwEps clock g = GOk (t, cl, g') ->
  forall i d, S i < length t -> follows (nth i t d) (nth (S i) t d).
Proof.
  intros H i d L. apply single_inv in H as (k & eps & lf & p & s & l & sf & _ & -> & _ & SP & SD & _ & _ & P & _).
  simpl in L. rewrite <- SP in SD.
  destruct (path_nth w _ _ _ _ _ _ _ P SD i d ltac:(lia)) as (a & b & T & A & B & D).
  rewrite SP in A. change (nth (S i) (p :: l) d) with (nth i l d). rewrite <- A, <- B.
  pose proof (valid_deficient _ _ _ _ _ _ T) as V. destruct T. unfold follows. rewrite D in sp_pos0.
  repeat split; auto; try apply sp_bear0. all: apply (proj1 (outside_iff w _ _)) in sp_in0; apply sp_in0.
Qed.

Lemma c25_track_l t cl g' : singleTrack w lon lat speed bear pres env rmax date jday rmwEps clock g = GOk (t, cl, g') ->
  1 <= length t <= w_maxSteps w /\ (forall d, firstPoint (nth 0 t d)) /\
  (forall i d, i < length t -> (p_age (nth i t d) == qn i * w_dt w /\ p_date (nth i t d) == date + qn i * w_dt w / 24)%Q) /\
  (forall i d, S i < length t -> follows (nth i t d) (nth (S i) t d)).
Proof.
  intros H. pose proof (single_follows _ _ _ H) as F.
  apply single_inv in H as (k & eps & lf & p & s & l & sf & MS & -> & FP & SP & SD & _ & _ & P & LL & _).
  split; [simpl; lia|]. split; [auto|]. split; [|exact F].
  induction i as [|i IH]; intros d L.
  - destruct FP as (A & B & _). cbn [nth]. rewrite A, B. change (qn 0) with 0%Q. split; field.
  - destruct (F i d L) as (_ & A & B & _). destruct (IH d ltac:(lia)) as (C & D).
    rewrite A, B, C, D, qn_S. split; field.
Qed.

(** Why a track ends before the limit of steps. *)
Lemma c25_stop_l t cl g' d : singleTrack w lon lat speed bear pres env rmax date jday rmwEps clock g = GOk (t, cl, g') ->
  length t < w_maxSteps w ->
  let p := nth (length t - 1) t d in
  let nx := w_bear2 w (p_bear p) (w_dt w * p_speed p)%Q (p_lon p) (p_lat p) in
  ~ in_domain (w_limit w) (fst nx) (snd nx) \/
  exists eps lf a b, stepped w eps lf rmwEps (length t) a b false /\ s_pt a = p /\
    (p_poci (s_pt b) = None \/ exists c e, p_pres (s_pt b) = Some c /\ p_poci (s_pt b) = Some e /\
       ((12 < p_age (s_pt b) /\ e - c < 5)%Q \/ (p_age (s_pt b) <= 12 /\ e - c < 2)%Q)).
Proof.
  intros H L p0 nx.
  apply single_inv in H as (k & eps & lf & p & s & l & sf & MS & -> & FP & SP & SD & _ & _ & P & LL & ST).
  simpl in L. rewrite MS in L. specialize (ST ltac:(lia)).
  rewrite <- SP in SD. destruct (path_last w _ _ _ _ _ _ _ P SD) as (PL & DL).
  assert (Z : s_pt sf = p0).
  { unfold p0. rewrite PL, SP, last_nth. simpl length. replace (S (length l) - 1) with (length l) by lia.
    apply nth_indep. simpl. lia. }
  simpl length. destruct ST as [(c' & g1 & ST)|(s' & ST)].
  - left. unfold nx. rewrite <- Z, <- DL. unfold step in ST.
    destruct (w_bear2 w (p_bear (s_pt sf)) (s_dist sf) (p_lon (s_pt sf)) (p_lat (s_pt sf))) as [lo la] eqn:B.
    destruct (outside w lo la) eqn:O.
    + cbn. intros I. apply outside_iff in I. congruence.
    + exfalso. destruct (getCellNum lo la (w_limit w) (w_space w)); [|discriminate].
      destruct (onLand w lo la (s_clock sf)) as [[land ck]|]; [|discriminate].
      destruct (stepPressureChange w _ _ _ _ _ _) as [[? ?] ?]. destruct (stepBearing w _ _ _ _ _ _) as [[? ?] ?].
      destruct (stepSpeed w _ _ _ _ _ _) as [[? ?] ?]. destruct land; destruct (w_sizeFile w); discriminate.
  - right. apply step_next in ST. exists eps, lf, sf, s'. split; [exact ST|]. split; [exact Z|].
    pose proof (sp_valid _ _ _ _ _ _ _ _ ST) as V. symmetry in V. rewrite negb_false_iff in V.
    unfold notValidTrackStep in V. pose proof (sp_pp _ _ _ _ _ _ _ _ ST) as PP.
    destruct (p_poci (s_pt s')) as [e|] eqn:E; [right|auto].
    destruct (p_pres (s_pt s')) as [c|] eqn:C; [|exfalso; apply PP; congruence].
    exists c, e. split; auto. split; auto. cbn in V.
    destruct (qlt 12 (p_age (s_pt s')) && qlt (e - c) 5) eqn:Q1.
    + left. apply andb_prop in Q1 as (X & Y). apply qlt_iff in X. apply qlt_iff in Y. auto.
    + destruct (Qle_bool (p_age (s_pt s')) 12 && qlt (e - c) 2) eqn:Q2; [|discriminate].
      right. apply andb_prop in Q2 as (X & Y). apply qlt_iff in Y. apply Qle_bool_iff in X. auto.
Qed.

(** No exception. *)
Lemma step_no_fail eps lf rm i s : w_sizeFile w = false ->
  (forall x y, in_domain (w_limit w) x y -> w_mask w x y <> None) -> forall e, step w eps lf rm i s <> Fail e.
Proof.
  intros SF M e. unfold step.
  destruct (w_bear2 w _ _ _ _) as [lo la] eqn:B.
  destruct (outside w lo la) eqn:O; [discriminate|].
  destruct (inside_cell w lo la O) as (c & ->). apply outside_iff in O. specialize (M _ _ O).
  unfold onLand. destruct (w_mask w lo la) as [m|]; [|congruence].
  rewrite SF. destruct (qlt 0 m);
  destruct (stepPressureChange w _ _ _ _ _ _) as [[? ?] ?]; destruct (stepBearing w _ _ _ _ _ _) as [[? ?] ?];
  destruct (stepSpeed w _ _ _ _ _ _) as [[? ?] ?]; discriminate.
Qed.
Lemma walk_ok eps lf rm : w_sizeFile w = false ->
  (forall x y, in_domain (w_limit w) x y -> w_mask w x y <> None) ->
  forall k i s, exists r, walk w eps lf rm k i s = GOk r.
Proof.
  intros SF M. induction k as [|k IH]; intros i s; cbn [walk]; [eauto|].
  destruct (step w eps lf rm i s) as [|v s'|e] eqn:S0; eauto.
  - destruct v; eauto. destruct (IH (S i) s') as (r & ->). cbn. eauto.
  - exfalso. eapply step_no_fail; eauto.
Qed.
Lemma c25_runs_l : w_sizeFile w = false -> 1 <= w_maxSteps w ->
  (forall x y, in_domain (w_limit w) x y -> w_mask w x y <> None) ->
  exists r, singleTrack w lon lat speed bear pres env rmax date jday rmwEps clock g = GOk r.
Proof.
  intros SF K M. unfold singleTrack. destruct (w_maxSteps w) as [|k]; [lia|].
  destruct (w_normal w _ _ g) as [eps g1]. destruct (w_lognorm w _ _ _ g1) as [lf g2].
  match goal with |- context [walk w _ _ _ _ _ ?x] => destruct (walk_ok eps lf rmwEps SF M k 1 x) as (r & ->) end.
  cbn [gbind]. eauto.
Qed.
End P25.

(** ** Rounding *)
Lemma rint_le a b : (a <= b)%Q -> (rint a <= rint b)%Z.
Proof.
  intros H. pose proof (Qfloor_resp_le _ _ H) as F.
  pose proof (Qfloor_le a) as A1. pose proof (Qlt_floor a) as A2. rewrite inject_Z_plus in A2.
  pose proof (Qfloor_le b) as B1. pose proof (Qlt_floor b) as B2. rewrite inject_Z_plus in B2.
  change (inject_Z 1) with 1%Q in *.
  assert (RA : (Qfloor a <= rint a <= Qfloor a + 1)%Z).
  { unfold rint; cbv zeta. destruct (qlt _ _); [lia|]. destruct (qlt _ _); [lia|]. destruct (Z.even _); lia. }
  assert (RB : (Qfloor b <= rint b <= Qfloor b + 1)%Z).
  { unfold rint; cbv zeta. destruct (qlt _ _); [lia|]. destruct (qlt _ _); [lia|]. destruct (Z.even _); lia. }
  destruct (Z.eq_dec (Qfloor a) (Qfloor b)) as [E|N]; [|lia].
  unfold rint; cbv zeta. rewrite E. clear RA RB F.
  destruct (qlt (a - inject_Z (Qfloor b)) (1 # 2)) eqn:P1.
  - destruct (qlt (b - inject_Z (Qfloor b)) (1 # 2)); [lia|].
    destruct (qlt (1 # 2) (b - inject_Z (Qfloor b))); [lia|]. destruct (Z.even _); lia.
  - apply qlt_false_iff in P1.
    destruct (qlt (b - inject_Z (Qfloor b)) (1 # 2)) eqn:P2.
    + apply qlt_iff in P2. exfalso. lra.
    + destruct (qlt (1 # 2) (a - inject_Z (Qfloor b))) eqn:P3.
      * apply qlt_iff in P3. destruct (qlt (1 # 2) (b - inject_Z (Qfloor b))) eqn:P4; [lia|].
        apply qlt_false_iff in P4. exfalso. lra.
      * destruct (qlt (1 # 2) (b - inject_Z (Qfloor b))); destruct (Z.even (Qfloor b)); lia.
Qed.
Lemma round2_lt a b : (round2 a < round2 b)%Q -> (a < b)%Q.
Proof.
  intros H. apply Qnot_le_lt. intros L. apply (Qlt_not_le _ _ H). unfold round2.
  assert (X : (rint (b * 100) <= rint (a * 100))%Z) by (apply rint_le; lra).
  rewrite Zle_Qle in X. unfold Qdiv. apply Qmult_le_compat_r; [exact X|]. discriminate.
Qed.

(** ** The attempts *)
Lemma gbind_inv {A B} (r : gres A) (f : A -> gres B) b : gbind r f = GOk b -> exists a, r = GOk a /\ f a = GOk b.
Proof. destruct r; cbn; intros H; try discriminate. eauto. Qed.
Ltac ginv H := apply gbind_inv in H; let a := fresh "v" in let E := fresh "E" in destruct H as (a & E & H).

Section P24.
Context {G NG : Type}.
Variable w : world G NG.

(** What is known of an attempt that yields a track. *)
Lemma attempt_inv fuel year a st e t st' : attempt w fuel year a st = GOk (e, t, st') ->
  exists lon lat bear speed day tm env pres rmax rmwEps g0,
    e = Some env /\ in_domain (w_limit w) lon lat /\
    (forall x y, given (i_lon a) = Some x -> given (i_lat a) = Some y -> lon = x /\ lat = y) /\
    (forall x, given (i_bearing a) = Some x -> bear = x) /\
    (forall x, given (i_speed a) = Some x -> speed = x) /\
    (forall x, given (i_day a) = Some x -> day = x) /\
    (forall x, given (i_pressure a) = Some x -> pres = x) /\
    (forall x, given (i_rmax a) = Some x -> rmax = x) /\
    (exists hr, genesisTime year hr day = GOk tm) /\
    env = match given (i_env a) with Some e => e | None => w_mslp w day lat lon end /\
    match t with
    | None => True
    | Some t => (2 <= env - pres)%Q /\ accepted w t = true /\
        exists cl g1, singleTrack w lon lat speed bear pres env rmax (fst tm) (snd tm) rmwEps (g_clock st) g0 = GOk (t, cl, g1)
    end.
Proof.
  unfold attempt. destruct (w_origin w) as [[x y] z]. intros H.
  ginv H. destruct v as [[lon lat] g]. 
  destruct (getCellNum lon lat (w_limit w) (w_space w)) as [cell|] eqn:C; [|discriminate].
  ginv H. destruct v as [bear g1]. ginv H. destruct v as [speed g2]. ginv H. destruct v as [day g3].
  destruct (w_uniform w 0 24 g3) as [h g4]. ginv H. rename v into tm.
  ginv H. destruct v as [pres g5]. ginv H. destruct v as [[rmax rmwEps] ng].
  set (env := match given (i_env a) with Some e => e | None => w_mslp w day lat lon end) in *.
  exists lon, lat, bear, speed, day, tm, env, pres, rmax, rmwEps, g5.
  assert (X : e = Some env /\ match t with
    | None => True
    | Some t => (2 <= env - pres)%Q /\ accepted w t = true /\
        exists cl g1, singleTrack w lon lat speed bear pres env rmax (fst tm) (snd tm) rmwEps (g_clock st) g5 = GOk (t, cl, g1)
    end).
  { destruct (w_bear2 w bear _ lon lat) as [nlon nlat].
    destruct (negb _); [inversion H; subst; auto|].
    destruct (qlt (env - pres) 2) eqn:Q; [inversion H; subst; auto|].
    ginv H. destruct v as [[t0 clock] g6]. inversion H; subst. split; auto.
    destruct (accepted w t0) eqn:AC; auto. apply qlt_false_iff in Q. split; auto. split; auto. eauto. }
  destruct X as (-> & X). split; auto.
  split. { destruct (getCellNum lon lat (w_limit w) (w_space w)) eqn:C'; [|discriminate].
    apply Decidable.not_not; [unfold in_domain|].
    - unfold Decidable.decidable.
      destruct (Qlt_le_dec lon (inject_Z (xMin (w_limit w)))); [right; lra|].
      destruct (Qlt_le_dec lon (inject_Z (xMax (w_limit w)))); [|right; lra].
      destruct (Qlt_le_dec (inject_Z (yMin (w_limit w))) lat); [|right; lra].
      destruct (Qlt_le_dec (inject_Z (yMax (w_limit w))) lat); [right; lra|left; auto].
    - intros N. apply (cell_num_none _ (w_space w)) in N. congruence. }
  split. { intros x0 y0 X0 Y0. rewrite X0, Y0 in E. inversion E; auto. }
  split. { intros x0 X0. rewrite X0 in E0. inversion E0; auto. }
  split. { intros x0 X0. rewrite X0 in E1. inversion E1; auto. }
  split. { intros x0 X0. rewrite X0 in E2. inversion E2; auto. }
  split. { intros x0 X0. rewrite X0 in E4. inversion E4; auto. }
  split. { intros x0 X0. rewrite X0 in E5. inversion E5; auto. }
  split. { eauto. }
  split; auto.
Qed.

(** Every track comes from an attempt; the conditions prescribed at that attempt differ at most in the
    environmental pressure. *)
Lemma attempts_inv fuel : forall year n sim a j st r st', attempts w fuel year n sim a j st = GOk (r, st') ->
  map fst r = map (fun k => (k, sim)) (seq j (n - j)) /\
  Forall (fun it => exists f a' s e s', attempt w f year a' s = GOk (e, Some (snd it), s') /\ withEnv a' None = withEnv a None) r.
Proof.
  induction fuel as [|f IH]; intros year n sim a j st r st'; cbn [attempts].
  - destruct (n <=? j) eqn:E; [|discriminate]. intros H. inversion H; subst.
    replace (n - j) with 0 by lia. split; [reflexivity|constructor].
  - destruct (n <=? j) eqn:E.
    + intros H. inversion H; subst. replace (n - j) with 0 by lia. split; [reflexivity|constructor].
    + intros H. ginv H. destruct v as [[e t] st1]. destruct t as [t|].
      * ginv H. destruct v as [q st2]. inversion H; subst. apply IH in E1 as (M & F).
        replace (n - j) with (S (n - S j)) by lia. cbn. rewrite M. split; [reflexivity|].
        constructor; [cbn; exists f, a, st, e, st1; auto|].
        eapply Forall_impl; [|exact F]. intros it (f0 & a' & s & e' & s' & A1 & A2).
        exists f0, a', s, e', s'. split; auto.
      * apply IH in H as (M & F). split; [exact M|].
        eapply Forall_impl; [|exact F]. intros it (f0 & a' & s & e' & s' & A1 & A2).
        exists f0, a', s, e', s'. split; auto.
Qed.

(** The conditions a stored track has to meet, in terms of its rows. *)
Definition physical (t : list point) : Prop :=
  (forall d, (12 <= p_age (nth (length t - 1) t d))%Q) /\
  (forall d, exists c e r, p_pres (nth 0 t d) = Some c /\ p_poci (nth 0 t d) = Some e /\ p_rmax (nth 0 t d) = Some r /\
      (1 < e - c)%Q /\ (r < 100)%Q) /\
  (forall p, In p t -> exists c e r, p_pres p = Some c /\ p_poci p = Some e /\ p_rmax p = Some r /\
      (c < e)%Q /\ (5 < r)%Q /\ (r < 500)%Q) /\
  (forall b p, w_inner w = Some b -> In p t ->
      (inject_Z (xMin b) < p_lon p /\ p_lon p < inject_Z (xMax b) /\ inject_Z (yMin b) < p_lat p /\ p_lat p < inject_Z (yMax b))%Q).
Lemma accepted_physical t : accepted w t = true -> t <> [] /\ physical t.
Proof.
  unfold accepted. destruct t as [|p t]; [discriminate|]. intros H. split; [discriminate|].
  apply andb_prop in H as (H & IN). apply andb_prop in H as (H & IS). apply andb_prop in H as (H & VS).
  apply andb_prop in H as (H & VP). apply andb_prop in H as (H & IP). apply negb_true_iff in H.
  set (l := p :: t) in *. split; [|split; [|split]].
  - intros d. unfold diedEarly in H.
    assert (L : nth (length l - 1) l d = nth 0 (rev l) d).
    { rewrite rev_nth by (simpl; lia). f_equal. }
    rewrite L. destruct (rev l) as [|q r] eqn:R.
    + apply (f_equal (@length point)) in R. rewrite rev_length in R. discriminate.
    + cbn. now apply qlt_false_iff in H.
  - intros d. cbn. unfold validInitPressure, validInitSize in *. cbn in IP, IS.
    destruct (p_poci p) as [e|] eqn:PO; [|discriminate]. destruct (p_pres p) as [c|] eqn:PR; [|discriminate].
    destruct (p_rmax p) as [r|] eqn:RM; [|discriminate]. cbn in *.
    exists c, e, r. apply qlt_iff in IP. apply qlt_iff in IS. auto.
  - intros q Q. unfold validPressures in VP. rewrite forallb_forall in VP. specialize (VP _ Q).
    unfold validSize in VS. apply andb_prop in VS as (V1 & V2). rewrite forallb_forall in V1, V2.
    specialize (V1 _ Q). specialize (V2 _ Q).
    destruct (p_pres q) as [c|]; [|discriminate]. destruct (p_poci q) as [e|]; [|discriminate].
    destruct (p_rmax q) as [r|]; [|discriminate]. cbn in *.
    exists c, e, r. apply qlt_iff in VP, V1, V2. apply round2_lt in VP. auto 10.
  - intros b q B Q. rewrite B in IN. unfold insideDomain in IN. rewrite forallb_forall in IN. specialize (IN _ Q).
    rewrite !andb_true_iff, !qlt_iff in IN. tauto.
Qed.

Lemma c24_l fuel n sim a st r st' : generateTracks w fuel n sim a st = GOk (r, st') ->
  map fst r = map (fun k => (k, sim)) (seq 0 n) /\
  forall id t, In (id, t) r -> t <> [] /\ length t <= w_maxSteps w /\ physical t /\
    (forall d, in_domain (w_limit w) (p_lon (nth 0 t d)) (p_lat (nth 0 t d)) /\ p_age (nth 0 t d) = 0%Q) /\
    (forall i d, S i < length t -> follows w (nth i t d) (nth (S i) t d)).
Proof.
  unfold generateTracks. destruct (w_uniform w _ _ _) as [y g]. intros H.
  apply attempts_inv in H as (M & F). rewrite Nat.sub_0_r in M. split; [exact M|].
  intros id t I. rewrite Forall_forall in F. destruct (F _ I) as (f & a' & s & e & s' & A & _). cbn in A.
  apply attempt_inv in A as (lon & lat & bear & speed & day & tm & env & pres & rmax & rm & g0 & _ & D & _ & _ & _ & _ & _ & _ & _ & _ & _ & AC & cl & g1 & ST).
  apply accepted_physical in AC as (NE & PH). apply c25_track_l in ST as (L & FP & _ & FO).
  split; auto. split; [lia|]. split; auto. split; auto.
  intros d. destruct (FP d) as (_ & -> & -> & -> & _). auto.
Qed.

(** ** C72: prescribed conditions *)
Lemma c72_l fuel n sim a st r st' : generateTracks w fuel n sim a st = GOk (r, st') ->
  forall id t d, In (id, t) r ->
    (forall x y, i_lon a = Some x -> i_lat a = Some y -> ~ (x == 0)%Q -> ~ (y == 0)%Q ->
       p_lon (nth 0 t d) = x /\ p_lat (nth 0 t d) = y) /\
    (forall x, i_bearing a = Some x -> ~ (x == 0)%Q -> p_bear (nth 0 t d) = x) /\
    (forall x, i_speed a = Some x -> ~ (x == 0)%Q -> p_speed (nth 0 t d) = x) /\
    (forall x, i_pressure a = Some x -> ~ (x == 0)%Q -> p_pres (nth 0 t d) = Some x) /\
    (forall x, i_rmax a = Some x -> ~ (x == 0)%Q -> p_rmax (nth 0 t d) = Some x).
Proof.
  unfold generateTracks. destruct (w_uniform w _ _ _) as [y g]. intros H.
  apply attempts_inv in H as (M & F).
  intros id t d I. rewrite Forall_forall in F. destruct (F _ I) as (f & a' & s & e & s' & A & AE). cbn in A.
  apply attempt_inv in A as (lon & lat & bear & speed & day & tm & env & pres & rmax & rm & g0 & _ & D & P1 & P2 & P3 & P4 & P5 & P6 & _ & _ & _ & AC & cl & g1 & ST).
  apply c25_track_l in ST as (L & FP & _ & _). destruct (FP d) as (_ & _ & -> & -> & -> & -> & -> & ->).
  unfold withEnv in AE. injection AE as X1 X2 X3 X4 X5 X6 X7. rewrite X1, X2 in P1. rewrite X3 in P3. rewrite X4 in P2.
  rewrite X5 in P5. rewrite X6 in P6.
  assert (GV : forall o x, o = Some x -> ~ (x == 0)%Q -> given o = Some x).
  { intros o x -> N. unfold given. destruct (Qeq_bool x 0) eqn:E; auto. apply Qeq_bool_eq in E. contradiction. }
  split; [intros; eapply P1; eauto|]. split; [intros; apply P2; eauto|]. split; [intros; apply P3; eauto|].
  split; intros; f_equal; [apply P5|apply P6]; eauto.
Qed.
End P24.
