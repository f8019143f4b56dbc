(** Properties of tracks interpolated to a regular time step, C112-C117 *)
From Coq Require Import List Arith ZArith Bool QArith Qabs Qround Lia Lqa.
From Verif Require Import CellModel NumModel SampModel FitModel CellProofs GenProofs NumProofs SampProofs FitProofs InterpModel InterpProofs InterpProofs2.
Import ListNotations.
Open Scope Q_scope.

(** A track as the readers return it: at least two records, later records at later times, the time counted
    from the first record, one entry of each column for each record. *)
Definition well_formed (t : track) : Prop :=
  (2 <= length (tt t))%nat /\ nth 0 (tt t) 0 == 0 /\
  (forall i j, (i < j < length (tt t))%nat -> nth i (tt t) 0 < nth j (tt t) 0) /\
  length (tlon t) = length (tt t) /\ length (tlat t) = length (tt t) /\ length (tcp t) = length (tt t) /\
  length (tenv t) = length (tt t) /\ length (trm t) = length (tt t).
(** Its duration *)
Definition duration (t : track) : Q := nth (length (tt t) - 1) (tt t) 0.

Lemma wf_pos t : well_formed t -> 0 < duration t.
Proof. intros (H2 & H0 & I & _). unfold duration. pose proof (I 0%nat (length (tt t) - 1)%nat ltac:(lia)). lra. Qed.

Lemma interpolate_unfold spline dist compiled ty delta t t' sp : well_formed t -> 1 # 100 <= delta ->
  interpolate spline dist compiled ty delta t = Some (t', sp) -> exists n r,
    shape (duration t) delta (tt t') n /\ newPosition spline compiled ty (tt t) (tlon t) (tt t') = Some (tlon t') /\
    newPosition spline compiled ty (tt t) (tlat t) (tt t') = Some (tlat t') /\
    newPressure (tt t) (tcp t) (tt t') = Some r /\ tcp t' = map maskPressure r /\
    interpAll (tt t) (tenv t) (tt t') = Some (tenv t') /\ interpAll (tt t) (trm t) (tt t') = Some (trm t') /\
    sp = speeds dist delta (combine (tlon t') (tlat t')).
Proof.
  intros W Hd E. pose proof (wf_pos _ W) as P. unfold interpolate in E. rewrite last_nth in E. fold (duration t) in E.
  destruct (newtimes_shape (duration t) delta ltac:(lra) ltac:(lra)) as (nt & n & EN & SH). rewrite EN in E.
  destruct (newPosition _ _ _ _ (tlon t) nt) as [lon|] eqn:E1; [|discriminate].
  destruct (newPosition _ _ _ _ (tlat t) nt) as [lat|] eqn:E2; [|discriminate].
  destruct (newPressure _ _ nt) as [cp|] eqn:E3; [|discriminate].
  destruct (interpAll (tt t) (tenv t) nt) as [env|] eqn:E4; [|discriminate].
  destruct (interpAll (tt t) (trm t) nt) as [rm|] eqn:E5; [|discriminate].
  injection E as <- <-. exists n, cp. repeat split; try exact SH; try apply SH; auto.
Qed.

(** An example: six hours, a record every two hours, all times hit *)
Definition ex_track : track :=
  mkTrk [0; 2; 4; 6] [150; 149; 147; 146] [-10; -11; -13; -14] [1000; 990; 980; 970] [1010; 1010; 1009; 1008] [30; 32; 34; 36].
Lemma ex_wf : well_formed ex_track.
Proof.
  split; [cbn; lia|]. split; [reflexivity|]. split; [|cbn; auto].
  apply steps_incr. intros [|[|[|[|i]]]] H; cbn in *; try reflexivity; lia.
Qed.
Definition ex_dist (p q : Q * Q) : Q := Qabs (fst q - fst p) + Qabs (snd q - snd p).

(** ** C112: the new times *)
(** A duration that is a multiple of the time step: every step from the first to the last record, exactly *)
Theorem c112_multiple spline dist compiled ty delta t t' sp k : well_formed t -> 1 # 100 <= delta ->
  duration t == inject_Z (Z.of_nat k) * delta -> interpolate spline dist compiled ty delta t = Some (t', sp) ->
  length (tt t') = S k /\ forall i, (i <= k)%nat -> nth i (tt t') 0 == inject_Z (Z.of_nat i) * delta.
Proof.
  intros W Hd E EI. destruct (interpolate_unfold _ _ _ _ _ _ _ _ W Hd EI) as (n & r & SH & _).
  pose proof (shape_multiple _ _ _ _ _ Hd E SH) as ->. destruct SH as [L RG EN LO HI]. split; [exact L|].
  intros i Hi. destruct (Nat.eq_dec i k) as [->|N]; [rewrite EN; exact E|]. apply RG. lia.
Qed.
(** Otherwise the first and last time are kept and all steps but the last are the time step, provided that the
    track lasts longer than the time step less a hundredth of an hour; the last step lies between [delta - 0.01]
    and [2 delta - 0.01] hours *)
Theorem c112_steps_partial spline dist compiled ty delta t t' sp : well_formed t -> 1 # 100 <= delta ->
  delta < duration t + (1 # 100) -> interpolate spline dist compiled ty delta t = Some (t', sp) ->
  exists n, length (tt t') = S (S n) /\ nth 0 (tt t') 0 == 0 /\ nth (S n) (tt t') 0 = duration t /\
    (forall i, (i < n)%nat -> nth (S i) (tt t') 0 - nth i (tt t') 0 == delta) /\
    delta - (1 # 100) < nth (S n) (tt t') 0 - nth n (tt t') 0 <= 2 * delta - (1 # 100).
Proof.
  intros W Hd Hs EI. destruct (interpolate_unfold _ _ _ _ _ _ _ _ W Hd EI) as (n & r & SH & _).
  destruct n as [|n].
  { exfalso. pose proof (s_hi _ _ _ _ SH) as H. rewrite qn_S, qn_0 in H. lra. }
  exists n. split; [apply SH|]. split; [apply (shape_start _ _ _ (S n) ltac:(lia) SH)|]. split; [apply SH|]. split.
  - intros i Hi. apply (shape_gap _ _ _ _ _ SH). lia.
  - apply (shape_last _ _ _ _ SH).
Qed.
(** A track shorter than that is reduced to its last record *)
Theorem c112_short_refuted spline dist compiled ty delta t t' sp : well_formed t -> 1 # 100 <= delta ->
  duration t + (1 # 100) <= delta -> interpolate spline dist compiled ty delta t = Some (t', sp) ->
  tt t' = [duration t] /\ ~ nth 0 (tt t') 0 == nth 0 (tt t) 0.
Proof.
  intros W Hd Hs EI. destruct (interpolate_unfold _ _ _ _ _ _ _ _ W Hd EI) as (n & r & SH & _).
  assert (n = 0)%nat as ->.
  { destruct n as [|n]; [reflexivity|]. exfalso. pose proof (s_lo _ _ _ _ SH) as H. rewrite qn_S in H. pose proof (qn_nonneg n).
    assert (1 * delta <= (qn n + 1) * delta) by (apply Qmult_le_compat_r; lra). lra. }
  destruct SH as [L RG EN LO HI]. destruct (tt t') as [|a [|b l]]; cbn in L; try lia. cbn in EN. subst a. split; [reflexivity|].
  pose proof (wf_pos _ W). destruct W as (_ & H0 & _). cbn [nth]. lra.
Qed.
(** The last step of a track of 5.9 hours, with a time step of 3 hours, is 5.9 hours *)
Definition ex_uneven : track := mkTrk [0; 59 # 10] [150; 145] [-10; -10] [990; 980] [1010; 1010] [30; 30].
Theorem c112_last_step_refuted : exists t', well_formed ex_uneven /\
  (exists sp, interpolate (fun _ _ _ => None) ex_dist true Linear 3 ex_uneven = Some (t', sp)) /\
  length (tt t') = 2%nat /\ nth 1 (tt t') 0 - nth 0 (tt t') 0 == 59 # 10.
Proof.
  eexists. split; [|split; [eexists; vm_compute; reflexivity|split; [reflexivity|vm_compute; reflexivity]]].
  split; [cbn; lia|]. split; [reflexivity|]. split; [|cbn; auto].
  apply steps_incr. intros [|[|i]] H; cbn in *; try reflexivity; lia.
Qed.
Example c112_example : exists t' sp, interpolate (fun _ _ _ => None) ex_dist false Akima 2 ex_track = Some (t', sp) /\
  length (tt t') = 4%nat /\ duration ex_track == inject_Z (Z.of_nat 3) * 2.
Proof. do 2 eexists. split; [vm_compute; reflexivity|]. split; [reflexivity|vm_compute; reflexivity]. Qed.
Example c112_short_example : exists t' sp, interpolate (fun _ _ _ => None) ex_dist false Akima 7 ex_track = Some (t', sp) /\
  duration ex_track + (1 # 100) <= 7.
Proof. do 2 eexists. split; [vm_compute; reflexivity|]. vm_compute. discriminate. Qed.
Example c112_steps_example : exists t' sp, interpolate (fun _ _ _ => None) ex_dist false Akima 4 ex_track = Some (t', sp) /\
  4 < duration ex_track + (1 # 100) /\ nth 1 (tt t') 0 == 6.
Proof. do 2 eexists. split; [vm_compute; reflexivity|]. split; vm_compute; reflexivity. Qed.

(** ** C113: observed values *)
Lemma new_range t delta nt n i : well_formed t -> 1 # 100 <= delta -> shape (duration t) delta nt n -> In i nt ->
  nth 0 (tt t) 0 <= i <= nth (length (tt t) - 1) (tt t) 0.
Proof.
  intros W Hd SH Hi. pose proof (wf_pos _ W). apply (In_nth _ _ 0) in Hi. destruct Hi as (k & Hk & <-).
  pose proof (s_len _ _ _ _ SH) as LN. assert (T0 : 0 <= duration t) by lra.
  assert (Kn : (k <= n)%nat) by lia. pose proof (shape_range _ _ _ _ k T0 Hd SH Kn) as R.
  destruct W as (_ & H0 & _). unfold duration in R. lra.
Qed.
Lemma incr_asc l : incr l -> asc l.
Proof.
  induction l as [|a l IH]; intros I; constructor.
  - intros b Hb. apply (In_nth _ _ 0) in Hb. destruct Hb as (k & Hk & <-). apply Qlt_le_weak, (I 0%nat (S k)). cbn. lia.
  - apply IH. intros i j Hij. apply (I (S i) (S j)). cbn. lia.
Qed.
Lemma position_observed spline compiled ty ts ys nt r k i : ty <> Spline -> (2 <= length ts)%nat -> incr ts -> length ys = length ts ->
  incr nt -> (forall s, In s nt -> nth 0 ts 0 <= s <= nth (length ts - 1) ts 0) ->
  newPosition spline compiled ty ts ys nt = Some r -> (k < length nt)%nat -> (i < length ts)%nat -> nth k nt 0 == nth i ts 0 ->
  nth k r 0 == nth i ys 0.
Proof.
  intros Hty H2 I HL In R E Hk Hi Eq. unfold newPosition in E.
  assert (Lin : interpAll ts ys nt = Some r -> nth k r 0 == nth i ys 0).
  { intros EL. destruct (interpAll_some _ _ _ _ EL) as [_ A]. destruct (interp_at ts ys _ i H2 HL I Hi Eq) as (v & V1 & V2).
    rewrite A in V1 by exact Hk. injection V1 as ->. exact V2. }
  destruct (length ts <=? 3)%nat; [auto|]. destruct ty; [auto| |congruence]. destruct compiled.
  - destruct (cAkima_spec _ _ _ _ E) as (_ & _ & _ & SG).
    exact (segments_nodes ts ys _ nt r k i I (SG (incr_asc _ In) R) Hk Hi Eq).
  - destruct (pyAkima_spec _ _ _ _ E) as (_ & _ & _ & SG). exact (segments_nodes ts ys _ nt r k i I SG Hk Hi Eq).
Qed.
(** A new time that coincides with a record has its position, outer pressure and radius: with linear and both
    implementations of Akima's interpolation *)
Theorem c113_observed spline dist compiled ty delta t t' sp k i : well_formed t -> 1 # 100 <= delta -> ty <> Spline ->
  interpolate spline dist compiled ty delta t = Some (t', sp) -> (k < length (tt t'))%nat -> (i < length (tt t))%nat ->
  nth k (tt t') 0 == nth i (tt t) 0 ->
  nth k (tlon t') 0 == nth i (tlon t) 0 /\ nth k (tlat t') 0 == nth i (tlat t) 0 /\
  nth k (tenv t') 0 == nth i (tenv t) 0 /\ nth k (trm t') 0 == nth i (trm t) 0.
Proof.
  intros W Hd Hty EI Hk Hi Eq. destruct (interpolate_unfold _ _ _ _ _ _ _ _ W Hd EI) as (n & r & SH & E1 & E2 & _ & _ & E4 & E5 & _).
  pose proof (fun i => new_range _ _ _ _ i W Hd SH) as R. pose proof (shape_incr _ _ _ _ Hd SH) as In.
  destruct W as (H2 & H0 & I & L1 & L2 & L3 & L4 & L5).
  split; [|split; [|split]].
  - eapply position_observed; eauto.
  - eapply position_observed; eauto.
  - destruct (interpAll_some _ _ _ _ E4) as [_ A]. destruct (interp_at _ (tenv t) _ i H2 L4 I Hi Eq) as (v & V1 & V2).
    rewrite A in V1 by exact Hk. injection V1 as ->. exact V2.
  - destruct (interpAll_some _ _ _ _ E5) as [_ A]. destruct (interp_at _ (trm t) _ i H2 L5 I Hi Eq) as (v & V1 & V2).
    rewrite A in V1 by exact Hk. injection V1 as ->. exact V2.
Qed.
(** Between two records the outer pressure, the radius and, with linear interpolation, the position are the
    weighted means of those of the two records *)
Definition weighted_mean (ts ys : list Q) (i : nat) (t v : Q) : Prop :=
  v * (nth (S i) ts 0 - nth i ts 0) == nth i ys 0 * (nth (S i) ts 0 - t) + nth (S i) ys 0 * (t - nth i ts 0).
Theorem c113_between spline dist compiled ty delta t t' sp k i : well_formed t -> 1 # 100 <= delta ->
  interpolate spline dist compiled ty delta t = Some (t', sp) -> (k < length (tt t'))%nat -> (S i < length (tt t))%nat ->
  nth i (tt t) 0 <= nth k (tt t') 0 <= nth (S i) (tt t) 0 ->
  weighted_mean (tt t) (tenv t) i (nth k (tt t') 0) (nth k (tenv t') 0) /\
  weighted_mean (tt t) (trm t) i (nth k (tt t') 0) (nth k (trm t') 0) /\
  (ty = Linear \/ (length (tt t) <= 3)%nat ->
   weighted_mean (tt t) (tlon t) i (nth k (tt t') 0) (nth k (tlon t') 0) /\
   weighted_mean (tt t) (tlat t) i (nth k (tt t') 0) (nth k (tlat t') 0)).
Proof.
  intros W Hd EI Hk Hi B. destruct (interpolate_unfold _ _ _ _ _ _ _ _ W Hd EI) as (n & r & SH & E1 & E2 & _ & _ & E4 & E5 & _).
  destruct W as (H2 & H0 & I & L1 & L2 & L3 & L4 & L5).
  assert (G : forall ys vs, length ys = length (tt t) -> interpAll (tt t) ys (tt t') = Some vs ->
    weighted_mean (tt t) ys i (nth k (tt t') 0) (nth k vs 0)).
  { intros ys vs HL E. destruct (interpAll_some _ _ _ _ E) as [_ A]. eapply interp_segment; eauto. }
  split; [auto|]. split; [auto|]. intros C.
  assert (P : forall ys vs, newPosition spline compiled ty (tt t) ys (tt t') = Some vs -> interpAll (tt t) ys (tt t') = Some vs).
  { intros ys vs E. unfold newPosition in E. destruct (length (tt t) <=? 3)%nat eqn:Q; [exact E|]. apply Nat.leb_gt in Q.
    destruct C as [->|C]; [exact E|lia]. }
  split; auto.
Qed.
(** The result is defined whenever the central pressures are all present: linear interpolation, or Akima's as
    interpreted, or compiled for records at least 1e-12 hours apart *)
Theorem c113_total spline dist compiled ty delta t : well_formed t -> 1 # 100 <= delta -> ty <> Spline ->
  (ty = Akima -> compiled = true -> forall i, (S i < length (tt t))%nat -> nth i (tt t) 0 + (1 # 1000000000000) <= nth (S i) (tt t) 0) ->
  (forall c, In c (tcp t) -> c < maxsize) ->
  exists t' sp, interpolate spline dist compiled ty delta t = Some (t', sp).
Proof.
  intros W Hd Hty Hc V. pose proof (wf_pos _ W) as P. unfold interpolate. rewrite last_nth. fold (duration t).
  destruct (newtimes_shape (duration t) delta ltac:(lra) ltac:(lra)) as (nt & n & EN & SH). rewrite EN.
  pose proof (fun i => new_range _ _ _ _ i W Hd SH) as R. pose proof (shape_incr _ _ _ _ Hd SH) as Int.
  destruct W as (H2 & H0 & I & L1 & L2 & L3 & L4 & L5).
  assert (Lin : forall ys, exists r, interpAll (tt t) ys nt = Some r) by (intros ys; apply interpAll_total; auto).
  assert (Pos : forall ys, length ys = length (tt t) -> exists r, newPosition spline compiled ty (tt t) ys nt = Some r).
  { intros ys HL. unfold newPosition. destruct (length (tt t) <=? 3)%nat eqn:Q; [apply Lin|]. apply Nat.leb_gt in Q.
    destruct ty; [apply Lin| |congruence]. destruct compiled.
    - apply cAkima_total; auto; lia.
    - apply pyAkima_total; auto; lia. }
  destruct (Pos (tlon t) L1) as (r1 & ->). destruct (Pos (tlat t) L2) as (r2 & ->).
  destruct (Lin (tenv t)) as (r4 & ->). destruct (Lin (trm t)) as (r5 & ->).
  assert (Pr : exists r, newPressure (tt t) (tcp t) nt = Some r).
  { destruct (Nat.le_gt_cases (length (tt t)) 3) as [Q|Q].
    - unfold newPressure. cbv zeta. rewrite (proj2 (Nat.leb_le _ _)) by lia.
      destruct (validIdx (tcp t)) as [|a [|b l]]; eauto.
    - apply (pressure_succeeds (tt t) (tcp t) nt Q L3 I Int 0%nat (length (tt t) - 1)%nat).
      + lia.
      + apply V, nth_In. lia.
      + apply V, nth_In. lia.
      + lia.
      + lia.
      + exists n. pose proof (s_len _ _ _ _ SH). split; [lia|]. apply R, nth_In. lia. }
  destruct Pr as (r3 & ->). eauto.
Qed.
Example c113_example : exists t' sp, interpolate (fun _ _ _ => None) ex_dist true Akima (1 # 2) ex_track = Some (t', sp) /\
  nth 8 (tt t') 0 == nth 2 (tt ex_track) 0 /\ nth 8 (tlon t') 0 == 147 /\
  nth 2 (tt ex_track) 0 <= nth 9 (tt t') 0 <= nth 3 (tt ex_track) 0 /\ nth 9 (tenv t') 0 == 1009 - (1 # 4).
Proof. do 2 eexists. split; [vm_compute; reflexivity|]. vm_compute. repeat split; try reflexivity; discriminate. Qed.

(** ** C114: central pressures *)
(** [i] and [j] are the first and the last record with a central pressure *)
Definition first_last_valid (t : track) (i j : nat) : Prop :=
  (i < j < length (tt t))%nat /\ nth i (tcp t) 0 < maxsize /\ nth j (tcp t) 0 < maxsize /\
  (forall k, (k < i)%nat -> maxsize <= nth k (tcp t) 0) /\
  (forall k, (j < k < length (tt t))%nat -> maxsize <= nth k (tcp t) 0).
Lemma maskPressure_id p : 700 <= p <= 10000000 -> maskPressure p = p.
Proof.
  intros H. unfold maskPressure. rewrite (proj2 (qlt_false_iff 10000000 p)) by lra. now rewrite (proj2 (qlt_false_iff p 700)) by lra.
Qed.
Lemma maskPressure_0 : maskPressure 0 = maxsize. Proof. reflexivity. Qed.
Lemma cp_nth t' r k : tcp t' = map maskPressure r -> (k < length r)%nat -> nth k (tcp t') 0 = maskPressure (nth k r 0).
Proof. intros -> H. now rewrite (nth_map_lt _ _ k 0 0). Qed.

(** Before the first and after the last central pressure it is missing *)
Theorem c114_outside spline dist compiled ty delta t t' sp i j k : well_formed t -> (4 <= length (tt t))%nat -> 1 # 100 <= delta ->
  first_last_valid t i j -> interpolate spline dist compiled ty delta t = Some (t', sp) -> (k < length (tt t'))%nat ->
  nth k (tt t') 0 < nth i (tt t) 0 \/ nth j (tt t) 0 < nth k (tt t') 0 -> nth k (tcp t') 0 = maxsize.
Proof.
  intros W H4 Hd (V1 & V2 & V3 & V4 & V5) EI Hk C.
  destruct (interpolate_unfold _ _ _ _ _ _ _ _ W Hd EI) as (n & r & SH & _ & _ & EP & EM & _).
  pose proof (shape_incr _ _ _ _ Hd SH) as Int. destruct W as (H2 & H0 & I & L1 & L2 & L3 & L4 & L5).
  destruct (pressure_branches _ _ _ H4 L3 Int i j V1 V2 V3 V4 V5 _ EP) as (a & b & AB & LR & FA & FB & Z & _).
  rewrite (cp_nth _ _ _ EM) by lia. rewrite Z; [reflexivity|exact Hk|].
  destruct C as [C|C]; [left|right].
  - apply not_le. intros D. apply FA in D; [lra|exact Hk].
  - apply not_le. intros D. apply FB in D; [lra|exact Hk].
Qed.
(** In between it lies within the range of the central pressures of the track *)
Theorem c114_range spline dist compiled ty delta t t' sp i j k lo hi : well_formed t -> (4 <= length (tt t))%nat -> 1 # 100 <= delta ->
  first_last_valid t i j -> interpolate spline dist compiled ty delta t = Some (t', sp) -> (k < length (tt t'))%nat ->
  700 <= lo -> hi <= 10000000 -> (forall c, In c (tcp t) -> c < maxsize -> lo <= c <= hi) ->
  nth i (tt t) 0 <= nth k (tt t') 0 <= nth j (tt t) 0 -> lo <= nth k (tcp t') 0 <= hi.
Proof.
  intros W H4 Hd (V1 & V2 & V3 & V4 & V5) EI Hk Hlo Hhi B C.
  destruct (interpolate_unfold _ _ _ _ _ _ _ _ W Hd EI) as (n & r & SH & _ & _ & EP & EM & _).
  pose proof (shape_incr _ _ _ _ Hd SH) as Int. destruct W as (H2 & H0 & I & L1 & L2 & L3 & L4 & L5).
  destruct (pressure_branches _ _ _ H4 L3 Int i j V1 V2 V3 V4 V5 _ EP) as (a & b & AB & LR & FA & FB & _ & SG & IN & ST).
  assert (W : forall k, (a <= k < b)%nat -> lo <= nth k r 0 <= hi).
  { intros q Hq. eapply interp_within; [eapply vt_two| | |  |apply IN, Hq]; eauto.
    - now rewrite !map_length.
    - eapply vt_incr; eauto.
    - intros y Hy. apply in_map_iff in Hy. destruct Hy as (m & <- & Hm). apply valid_in in Hm. apply B; [apply nth_In; lia|lia || apply Hm]. }
  assert (K : (a <= k <= b)%nat) by (split; [apply FA|apply FB]; tauto).
  assert (R : lo <= nth k r 0 <= hi).
  { destruct (Nat.eq_dec k b) as [->|N]; [|apply W; lia].
    destruct (Nat.eq_dec a b) as [D|D].
    - rewrite <- D, SG by exact D. apply B; [apply nth_In; lia|exact V2].
    - rewrite ST by lia. apply W. lia. }
  rewrite (cp_nth _ _ _ EM) by lia. rewrite maskPressure_id by lra. exact R.
Qed.
(** A new time that coincides with a record with a central pressure has it, unless it is the last new time
    that is not after the last central pressure *)
Theorem c114_observed_partial spline dist compiled ty delta t t' sp i j k m : well_formed t -> (4 <= length (tt t))%nat -> 1 # 100 <= delta ->
  first_last_valid t i j -> interpolate spline dist compiled ty delta t = Some (t', sp) -> (S k < length (tt t'))%nat ->
  nth (S k) (tt t') 0 <= nth j (tt t) 0 -> (m < length (tt t))%nat -> nth m (tcp t) 0 < maxsize ->
  700 <= nth m (tcp t) 0 <= 10000000 -> nth k (tt t') 0 == nth m (tt t) 0 -> nth k (tcp t') 0 == nth m (tcp t) 0.
Proof.
  intros W H4 Hd (V1 & V2 & V3 & V4 & V5) EI Hk HS Hm Vm Bm Eq.
  destruct (interpolate_unfold _ _ _ _ _ _ _ _ W Hd EI) as (n & r & SH & _ & _ & EP & EM & _).
  pose proof (shape_incr _ _ _ _ Hd SH) as Int. destruct W as (H2 & H0 & I & L1 & L2 & L3 & L4 & L5).
  destruct (pressure_branches _ _ _ H4 L3 Int i j V1 V2 V3 V4 V5 _ EP) as (a & b & AB & LR & FA & FB & _ & SG & IN & ST).
  assert (Kb : (S k <= b)%nat) by (apply FB; [lia|exact HS]).
  assert (Ka : (a <= k)%nat).
  { apply FA; [lia|]. rewrite Eq. destruct (Nat.lt_trichotomy i m) as [C|[<-|C]]; [apply Qlt_le_weak, I; lia|lra|].
    specialize (V4 m C). lra. }
  specialize (IN k ltac:(lia)).
  assert (Vin : In m (validIdx (tcp t))) by (apply valid_in; split; [lia|exact Vm]).
  apply (In_nth _ _ 0%nat) in Vin. destruct Vin as (q & Hq & Eq').
  destruct (interp_at (map (fun k => nth k (tt t) 0) (validIdx (tcp t))) (map (fun k => nth k (tcp t) 0) (validIdx (tcp t))) (nth k (tt t') 0) q) as (v & V & E).
  - eapply vt_two; eauto.
  - now rewrite !map_length.
  - eapply vt_incr; eauto.
  - now rewrite map_length.
  - rewrite (nth_map_lt _ _ q 0 0%nat) by exact Hq. now rewrite Eq'.
  - rewrite (nth_map_lt _ _ q 0 0%nat) in E by exact Hq. rewrite Eq' in E. rewrite V in IN. injection IN as ->.
    rewrite (cp_nth _ _ _ EM) by lia. rewrite maskPressure_id; [exact E|]. rewrite E. exact Bm.
Qed.
(** The last one repeats the central pressure of the new time before it *)
Theorem c114_last_refuted spline dist compiled ty delta t t' sp i j k : well_formed t -> (4 <= length (tt t))%nat -> 1 # 100 <= delta ->
  first_last_valid t i j -> interpolate spline dist compiled ty delta t = Some (t', sp) -> (S k < length (tt t'))%nat ->
  nth i (tt t) 0 <= nth k (tt t') 0 -> nth (S k) (tt t') 0 <= nth j (tt t) 0 ->
  (S k = length (tt t') - 1)%nat \/ nth j (tt t) 0 < nth (S (S k)) (tt t') 0 ->
  nth (S k) (tcp t') 0 = nth k (tcp t') 0.
Proof.
  intros W H4 Hd (V1 & V2 & V3 & V4 & V5) EI Hk HK HS HL.
  destruct (interpolate_unfold _ _ _ _ _ _ _ _ W Hd EI) as (n & r & SH & _ & _ & EP & EM & _).
  pose proof (shape_incr _ _ _ _ Hd SH) as Int. destruct W as (H2 & H0 & I & L1 & L2 & L3 & L4 & L5).
  destruct (pressure_branches _ _ _ H4 L3 Int i j V1 V2 V3 V4 V5 _ EP) as (a & b & AB & LR & FA & FB & _ & SG & IN & ST).
  assert (Kb : (S k <= b)%nat) by (apply FB; [lia|exact HS]).
  assert (Ka : (a <= k)%nat) by (apply FA; [lia|exact HK]).
  assert (S k = b)%nat as Eb.
  { destruct HL as [HL|HL]; [lia|]. destruct (Nat.eq_dec (S k) b) as [E|E]; [exact E|].
    assert (nth (S (S k)) (tt t') 0 <= nth j (tt t) 0) by (apply FB; lia). lra. }
  rewrite !(cp_nth _ _ _ EM) by lia. f_equal. rewrite Eb. rewrite ST by lia. f_equal. lia.
Qed.
(** so that a storm observed to deepen to 970 hPa ends, at the time of that observation, with 980 hPa *)
Example c114_example : exists t' sp, interpolate (fun _ _ _ => None) ex_dist true Akima 2 ex_track = Some (t', sp) /\
  first_last_valid ex_track 0 3 /\ nth 3 (tt t') 0 == nth 3 (tt ex_track) 0 /\ nth 3 (tcp t') 0 == 980 /\ nth 3 (tcp ex_track) 0 == 970 /\
  nth 1 (tcp t') 0 == nth 1 (tcp ex_track) 0.
Proof.
  do 2 eexists. split; [vm_compute; reflexivity|]. split.
  - unfold first_last_valid. repeat split; cbn; try reflexivity; try lia; intros k Hk; exfalso; lia.
  - vm_compute. repeat split.
Qed.
(** A track of four records, the second and third with a central pressure: no new time lies between them and
    the interpolation fails *)
Definition ex_gap : track :=
  mkTrk [0; 1; 2; 6] [150; 149; 147; 146] [-10; -11; -13; -14] [maxsize; 990; 980; maxsize] [1010; 1010; 1009; 1008] [30; 32; 34; 36].
Theorem c114_error_refuted : well_formed ex_gap /\ first_last_valid ex_gap 1 2 /\
  forall spline dist compiled ty, interpolate spline dist compiled ty 6 ex_gap = None.
Proof.
  split; [|split].
  - split; [cbn; lia|]. split; [reflexivity|]. split; [|cbn; auto].
    apply steps_incr. intros [|[|[|[|i]]]] H; cbn in *; try reflexivity; lia.
  - unfold first_last_valid. repeat split; cbn; try reflexivity; try lia.
    + intros [|k] Hk; [cbn; lra|lia].
    + intros k Hk. assert (k = 3)%nat as -> by lia. cbn. lra.
  - intros spline dist compiled ty. unfold interpolate.
    assert (E : newtimes (last (tt ex_gap) 0) 6 = Some [0 + inject_Z (Z.of_nat 0) * 6; 6]) by (vm_compute; reflexivity). rewrite E.
    assert (F : newPressure (tt ex_gap) (tcp ex_gap) [0 + inject_Z (Z.of_nat 0) * 6; 6] = None) by (vm_compute; reflexivity). rewrite F.
    destruct (newPosition _ _ _ _ _ _); [|reflexivity]. destruct (newPosition _ _ _ _ _ _); reflexivity.
Qed.

(** ** C115: the speed of the new track *)
Lemma ceval_len x y b xo : forall k, length (ceval x y b xo k) = length xo.
Proof. induction xo as [|t xo IH]; intros k; cbn [ceval length]; [reflexivity|]. now rewrite IH. Qed.
Lemma position_len spline compiled ty ts ys nt r : ty <> Spline -> newPosition spline compiled ty ts ys nt = Some r -> length r = length nt.
Proof.
  intros Hty E. unfold newPosition in E. destruct (length ts <=? 3)%nat; [now apply interpAll_some in E|].
  destruct ty; [now apply interpAll_some in E| |congruence]. destruct compiled.
  - unfold cAkima in E. repeat (match type of E with (if ?c then _ else _) = _ => destruct c end; [discriminate|]). injection E as <-. apply ceval_len.
  - destruct (pyAkima_spec _ _ _ _ E) as (_ & _ & _ & F). now apply F2_length in F.
Qed.
(** Distance over time, except for the step to the last new time *)
Theorem c115_speed_partial spline dist compiled ty delta t t' sp k : well_formed t -> 1 # 100 <= delta -> ty <> Spline ->
  interpolate spline dist compiled ty delta t = Some (t', sp) -> (S (S k) < length (tt t'))%nat ->
  nth k sp 0 * (nth (S k) (tt t') 0 - nth k (tt t') 0) ==
    dist (nth k (tlon t') 0, nth k (tlat t') 0) (nth (S k) (tlon t') 0, nth (S k) (tlat t') 0).
Proof.
  intros W Hd Hty EI Hk. destruct (interpolate_unfold _ _ _ _ _ _ _ _ W Hd EI) as (n & r & SH & E1 & E2 & _ & _ & _ & _ & ->).
  pose proof (position_len _ _ _ _ _ _ _ Hty E1) as L1. pose proof (position_len _ _ _ _ _ _ _ Hty E2) as L2.
  rewrite (speeds_nth _ _ _ (0, 0)) by (rewrite combine_length; lia). rewrite !nth_combine by lia.
  pose proof (s_len _ _ _ _ SH). rewrite (shape_gap _ _ _ _ k SH) by lia. field. lra.
Qed.
(** and including that step when the duration is a multiple of the time step; the speed at the last new time is
    that of the step to it *)
Theorem c115_multiple_partial spline dist compiled ty delta t t' sp k n : well_formed t -> 1 # 100 <= delta -> ty <> Spline ->
  duration t == inject_Z (Z.of_nat n) * delta -> interpolate spline dist compiled ty delta t = Some (t', sp) -> (k < n)%nat ->
  nth k sp 0 * (nth (S k) (tt t') 0 - nth k (tt t') 0) ==
    dist (nth k (tlon t') 0, nth k (tlat t') 0) (nth (S k) (tlon t') 0, nth (S k) (tlat t') 0) /\
  nth n sp 0 = nth (n - 1) sp 0.
Proof.
  intros W Hd Hty Ed EI Hk. destruct (c112_multiple _ _ _ _ _ _ _ _ _ W Hd Ed EI) as [Ln RG].
  destruct (interpolate_unfold _ _ _ _ _ _ _ _ W Hd EI) as (n' & r & SH & E1 & E2 & _ & _ & _ & _ & ->).
  pose proof (position_len _ _ _ _ _ _ _ Hty E1) as L1. pose proof (position_len _ _ _ _ _ _ _ Hty E2) as L2.
  assert (LC : length (combine (tlon t') (tlat t')) = S n) by (rewrite combine_length; lia).
  split.
  - rewrite (speeds_nth _ _ _ (0, 0)) by (rewrite combine_length; lia). rewrite !nth_combine by lia.
    rewrite !RG by lia. fold (qn (S k)) (qn k). rewrite qn_S. field. lra.
  - pose proof (speeds_last dist delta (combine (tlon t') (tlat t')) ltac:(lia)) as SL. rewrite LC in SL.
    replace (S n - 1)%nat with n in SL by lia. replace (S n - 2)%nat with (n - 1)%nat in SL by lia. exact SL.
Qed.
(** Otherwise the last distance is divided by the time step although the step takes longer: a storm that covers
    5 degrees in 5.9 hours has a speed of 5 / 3 instead of 50 / 59 *)
Theorem c115_last_refuted : exists t' sp, interpolate (fun _ _ _ => None) ex_dist true Linear 3 ex_uneven = Some (t', sp) /\
  nth 0 sp 0 == 5 # 3 /\
  ~ nth 0 sp 0 * (nth 1 (tt t') 0 - nth 0 (tt t') 0) == ex_dist (nth 0 (tlon t') 0, nth 0 (tlat t') 0) (nth 1 (tlon t') 0, nth 1 (tlat t') 0).
Proof.
  do 2 eexists. split; [vm_compute; reflexivity|]. split; [vm_compute; reflexivity|]. vm_compute. discriminate.
Qed.
Example c115_example : exists t' sp, interpolate (fun _ _ _ => None) ex_dist true Linear 2 ex_track = Some (t', sp) /\
  length (tt t') = 4%nat /\ nth 1 sp 0 == 2 /\ nth 3 sp 0 == 1.
Proof. do 2 eexists. split; [vm_compute; reflexivity|]. split; [reflexivity|]. split; vm_compute; reflexivity. Qed.

(** ** C116: Akima's interpolation *)
(** [akima compiled] with sorted positions within the range of the data, as the compiled version requires *)
Definition akima (compiled : bool) (x y xo : list Q) : option (list Q) := if compiled then cAkima x y xo else pyAkima x y xo.
Definition admissible (x xo : list Q) : Prop :=
  (forall i j, (i < j < length xo)%nat -> nth i xo 0 <= nth j xo 0) /\
  (forall t, In t xo -> nth 0 x 0 <= t <= nth (length x - 1) x 0).
Lemma weak_asc l : (forall i j, (i < j < length l)%nat -> nth i l 0 <= nth j l 0) -> asc l.
Proof.
  induction l as [|a l IH]; intros I; constructor.
  - intros b Hb. apply (In_nth _ _ 0) in Hb. destruct Hb as (k & Hk & <-). apply (I 0%nat (S k)). cbn. lia.
  - apply IH. intros i j Hij. apply (I (S i) (S j)). cbn. lia.
Qed.
Definition derivs (compiled : bool) (x y : list Q) : list Q :=
  if compiled then cDerivs (extend (slopes x y)) (length x) else pyDerivs (extend (slopes x y)) (length x).
Lemma akima_spec compiled x y xo r : akima compiled x y xo = Some r -> admissible x xo ->
  (3 <= length x)%nat /\ length y = length x /\ incr x /\ onSegments x y (derivs compiled x y) xo r.
Proof.
  intros E [A R]. destruct compiled.
  - destruct (cAkima_spec _ _ _ _ E) as (H3 & HL & I & F). split; [exact H3|]. split; [exact HL|]. split; [exact I|]. apply F; [now apply weak_asc|exact R].
  - exact (pyAkima_spec _ _ _ _ E).
Qed.
(** It passes through the data *)
Theorem c116_nodes compiled x y xo r k i : akima compiled x y xo = Some r -> admissible x xo ->
  (k < length xo)%nat -> (i < length x)%nat -> nth k xo 0 == nth i x 0 -> nth k r 0 == nth i y 0.
Proof.
  intros E A Hk Hi Eq. destruct (akima_spec _ _ _ _ _ E A) as (_ & _ & I & F). exact (segments_nodes x y _ xo r k i I F Hk Hi Eq).
Qed.
(** It reproduces straight lines *)
Theorem c116_line compiled x y xo r p q k : akima compiled x y xo = Some r -> admissible x xo ->
  (forall i, (i < length x)%nat -> nth i y 0 == p * nth i x 0 + q) -> (k < length xo)%nat -> nth k r 0 == p * nth k xo 0 + q.
Proof.
  intros E A HY Hk. destruct (akima_spec _ _ _ _ _ E A) as (H3 & HL & I & F).
  refine (segments_line x y _ xo r p q k I HY _ F Hk). intros i Hi.
  pose proof (derivs_const (slopes x y) p (length x) i H3 (slopes_len _ _ HL) (line_slopes _ _ _ _ I HL HY) Hi) as [D1 D2].
  unfold derivs. destruct compiled; auto.
Qed.
(** It is differentiable at every inner data point, with a derivative that depends on the data only: near the
    point it differs from a line through the point by at most a constant times the square of the distance *)
Theorem c116_smooth compiled x y i : (0 < i)%nat -> (S i < length x)%nat -> exists s K, forall xo r k,
  akima compiled x y xo = Some r -> admissible x xo -> (k < length xo)%nat ->
  nth (i - 1) x 0 < nth k xo 0 < nth (i + 1) x 0 ->
  Qabs (nth k r 0 - nth i y 0 - s * (nth k xo 0 - nth i x 0)) <= K * ((nth k xo 0 - nth i x 0) * (nth k xo 0 - nth i x 0)).
Proof.
  intros H1 Hi. destruct (existsb (fun d => Qle_bool d 0) (diffs x)) eqn:B.
  - exists 0, 0. intros xo r k E A. exfalso. destruct (akima_spec _ _ _ _ _ E A) as (_ & _ & I & _).
    rewrite check_pass in B; [discriminate|]. intros j Hj. pose proof (I j (S j) ltac:(lia)). apply not_true_iff_false. intros C.
    apply Qle_bool_iff in C. lra.
  - assert (I : incr x).
    { eapply check_incr; [|exact B]. intros d Hd. apply Qnot_le_lt. intros C. apply Qle_bool_iff in C. congruence. }
    destruct (segments_smooth x y (derivs compiled x y) i I H1 Hi) as (s & K & S). exists s, K. intros xo r k E A Hk Ht.
    destruct (akima_spec _ _ _ _ _ E A) as (_ & _ & _ & F). exact (S xo r k F Hk Ht).
Qed.
(** The sum of the absolute changes of slope around each data point, on both sides two segments away *)
Definition change (x y : list Q) (i : nat) : Q := f1 (extend (slopes x y)) i + f2 (extend (slopes x y)) i.
Lemma maxOf_attained (l : list Q) : l <> [] -> exists a, In a l /\ maxOf l == a.
Proof.
  destruct l as [|b l]; intros N; [congruence|]. cbn [maxOf]. destruct (amax_spec l b) as (_ & _ & [Q|(z & Z & Q)]).
  - exists b. split; [now left|exact Q].
  - exists z. split; [now right|exact Q].
Qed.
(** Between three successive points on a line it follows the line, wherever the other points are, if the slope
    changes noticeably around the outer two of the three *)
Lemma derivs_weighted compiled x y i : (i < length x)%nat -> 1 # 1000000000 <= change x y i ->
  (forall j, (j < length x)%nat -> (1 # 1000000000) * change x y j < change x y i) ->
  nth i (derivs compiled x y) 0 = weighted (extend (slopes x y)) i.
Proof.
  intros Hi C1 C2. unfold derivs. unfold change in *. set (m1 := extend (slopes x y)) in *. destruct compiled.
  - unfold cDerivs. rewrite (nth_map_lt _ _ i 0 0%nat) by (rewrite seq_length; lia). rewrite seq_nth by lia. cbn [Nat.add].
    rewrite (proj2 (qlt_false_iff _ _)) by exact C1. reflexivity.
  - unfold pyDerivs. cbv zeta. rewrite (nth_map_lt _ _ i 0 0%nat) by (rewrite seq_length; lia). rewrite seq_nth by lia. cbn [Nat.add].
    destruct (maxOf_attained (map (fun i => f1 m1 i + f2 m1 i) (seq 0 (length x)))) as (a & Ha & Ea); [destruct (length x); [lia|discriminate]|].
    apply in_map_iff in Ha. destruct Ha as (j & <- & Hj). apply in_seq in Hj.
    rewrite (proj2 (qlt_iff _ _)); [reflexivity|]. rewrite Ea. apply C2. lia.
Qed.
Lemma derivs_mid compiled x y i p : (i < length x)%nat -> nth (i + 1) (extend (slopes x y)) 0 == p -> nth (i + 2) (extend (slopes x y)) 0 == p ->
  nth i (derivs compiled x y) 0 == p.
Proof.
  intros Hi A B. unfold derivs. set (m1 := extend (slopes x y)) in *.
  assert (P : 0 <= f1 m1 i /\ 0 <= f2 m1 i) by (unfold f1, f2; split; apply Qabs_nonneg).
  destruct compiled.
  - unfold cDerivs. rewrite (nth_map_lt _ _ i 0 0%nat) by (rewrite seq_length; lia). rewrite seq_nth by lia. cbn [Nat.add].
    destruct (qlt _ _) eqn:Q; [rewrite A, B; ring|]. apply qlt_false_iff in Q. unfold weighted. rewrite A, B. field. lra.
  - unfold pyDerivs. cbv zeta. rewrite (nth_map_lt _ _ i 0 0%nat) by (rewrite seq_length; lia). rewrite seq_nth by lia. cbn [Nat.add].
    set (mx := maxOf _). assert (M : 0 <= mx).
    { unfold mx. apply Qle_trans with (f1 m1 i + f2 m1 i); [lra|]. apply maxOf_ge, in_map_iff. exists i. split; [reflexivity|apply in_seq; lia]. }
    clearbody mx. destruct (qlt _ _) eqn:Q; [|exact A]. apply qlt_iff in Q. unfold weighted. rewrite A, B.
    assert (0 <= (1 # 1000000000) * mx) by (apply Qmult_le_0_compat; [lra|exact M]). field. lra.
Qed.
Lemma extend_mid m i : (i < length m)%nat -> nth (i + 2) (extend m) 0 = nth i m 0.
Proof. intros H. unfold extend. cbv zeta. rewrite Nat.add_comm. cbn [Nat.add nth]. now rewrite app_nth1 by lia. Qed.
Theorem c116_straight compiled x y xo r k i p q : akima compiled x y xo = Some r -> admissible x xo -> (i + 2 < length x)%nat ->
  (forall j, (i <= j <= i + 2)%nat -> nth j y 0 == p * nth j x 0 + q) ->
  (forall j, j = i \/ j = (i + 2)%nat -> 1 # 1000000000 <= change x y j /\ forall l, (l < length x)%nat -> (1 # 1000000000) * change x y l < change x y j) ->
  (k < length xo)%nat -> nth i x 0 <= nth k xo 0 <= nth (i + 2) x 0 -> nth k r 0 == p * nth k xo 0 + q.
Proof.
  intros E A Hi HY HC Hk Ht. destruct (akima_spec _ _ _ _ _ E A) as (H3 & HL & I & F).
  assert (SL : forall j, (i <= j <= i + 1)%nat -> nth (j + 2) (extend (slopes x y)) 0 == p).
  { intros j Hj. rewrite extend_mid by (rewrite slopes_len; lia). rewrite slopes_nth by lia. rewrite !HY by lia.
    pose proof (I j (S j) ltac:(lia)). field. lra. }
  pose proof (SL i ltac:(lia)) as S0. pose proof (SL (i + 1)%nat ltac:(lia)) as S1. replace (i + 1 + 2)%nat with (i + 3)%nat in S1 by lia.
  assert (D0 : nth i (derivs compiled x y) 0 == p).
  { destruct (HC i (or_introl eq_refl)) as [C1 C2]. rewrite derivs_weighted by (auto; lia). unfold change in C1.
    assert (Z : f1 (extend (slopes x y)) i == 0) by (unfold f1; rewrite S0, S1; setoid_replace (p - p) with 0 by ring; reflexivity).
    unfold weighted. rewrite Z in C1 |- *. rewrite S0. field. lra. }
  assert (D1 : nth (i + 1) (derivs compiled x y) 0 == p).
  { apply derivs_mid; [lia| |]; [replace (i + 1 + 1)%nat with (i + 2)%nat by lia; exact S0|replace (i + 1 + 2)%nat with (i + 3)%nat by lia; exact S1]. }
  assert (D2 : nth (i + 2) (derivs compiled x y) 0 == p).
  { destruct (HC (i + 2)%nat (or_intror eq_refl)) as [C1 C2]. rewrite derivs_weighted by (auto; lia). unfold change in C1.
    assert (Z : f2 (extend (slopes x y)) (i + 2) == 0).
    { unfold f2. replace (i + 2 + 1)%nat with (i + 3)%nat by lia. rewrite S0, S1. setoid_replace (p - p) with 0 by ring. reflexivity. }
    unfold weighted. rewrite Z in C1 |- *. replace (i + 2 + 1)%nat with (i + 3)%nat by lia. rewrite S1. field. lra. }
  destruct (Qeq_dec (nth k xo 0) (nth i x 0)) as [E0|N0].
  { rewrite (segments_nodes x y _ xo r k i I F Hk ltac:(lia) E0), HY, E0 by lia. reflexivity. }
  destruct (Qeq_dec (nth k xo 0) (nth (i + 2) x 0)) as [E2|N2].
  { rewrite (segments_nodes x y _ xo r k (i + 2) I F Hk ltac:(lia) E2), HY, E2 by lia. reflexivity. }
  destruct (F2_nth _ _ _ 0 0 k F Hk) as (j & J1 & J2 & ->).
  assert (J : j = i \/ j = (i + 1)%nat).
  { destruct (Nat.lt_ge_cases j i) as [C|C].
    - exfalso. assert (nth (j + 1) x 0 <= nth i x 0) by (destruct (Nat.eq_dec (j + 1) i) as [<-|]; [lra|pose proof (I (j + 1)%nat i ltac:(lia)); lra]).
      apply N0. apply Qle_antisym; lra.
    - destruct (Nat.le_gt_cases (i + 2) j) as [C'|C']; [|lia]. exfalso.
      assert (nth (i + 2) x 0 <= nth j x 0) by (destruct (Nat.eq_dec (i + 2) j) as [<-|]; [lra|pose proof (I (i + 2)%nat j ltac:(lia)); lra]).
      apply N2. apply Qle_antisym; lra. }
  destruct J as [->| ->]; apply cubic_line; try (apply HY; lia); try assumption; try (now apply incr_seg).
  replace (i + 1 + 1)%nat with (i + 2)%nat by lia. exact D2.
Qed.
(** It reproduces parabolas through equally spaced points, also in the first and last segments *)
Theorem c116_parabola compiled x y xo r a b c x0 h k : akima compiled x y xo = Some r -> admissible x xo ->
  (forall i, (i < length x)%nat -> nth i x 0 == x0 + qn i * h) ->
  (forall i, (i < length x)%nat -> nth i y 0 == a * (nth i x 0 * nth i x 0) + b * nth i x 0 + c) -> (k < length xo)%nat ->
  nth k r 0 == a * (nth k xo 0 * nth k xo 0) + b * nth k xo 0 + c.
Proof.
  intros E A HX HY Hk. destruct (akima_spec _ _ _ _ _ E A) as (H3 & HL & I & F).
  assert (Hh : 0 < h). { pose proof (I 0%nat 1%nat ltac:(lia)) as L. rewrite !HX in L by lia. rewrite !qn_S, qn_0 in L. lra. }
  assert (SL : forall j, (S j < length x)%nat -> nth j (slopes x y) 0 == a * (2 * x0 + (2 * qn j + 1) * h) + b).
  { intros j Hj. rewrite slopes_nth by lia. rewrite !HY, !HX by lia. rewrite qn_S. field. lra. }
  assert (EX : forall j, (j < length x + 3)%nat -> nth j (extend (slopes x y)) 0 == a * (2 * x0 + (2 * qn j - 3) * h) + b).
  { intros j Hj. unfold extend. cbv zeta. rewrite slopes_len by auto.
    pose proof (SL 0%nat ltac:(lia)) as A0. pose proof (SL 1%nat ltac:(lia)) as A1.
    pose proof (SL (length x - 1 - 1)%nat ltac:(lia)) as A2. pose proof (SL (length x - 1 - 2)%nat ltac:(lia)) as A3.
    destruct j as [|[|j]]; cbn [nth].
    - rewrite A0, A1, !qn_S, qn_0. ring.
    - rewrite A0, A1, !qn_S, qn_0. ring.
    - destruct (Nat.lt_ge_cases j (length x - 1)) as [L|L].
      + rewrite app_nth1 by (rewrite slopes_len; lia). rewrite SL by lia. rewrite !qn_S. ring.
      + rewrite app_nth2 by (rewrite slopes_len; lia). rewrite slopes_len by auto.
        assert (Ej : (j = length x - 1 \/ j = length x)%nat) by lia.
        set (n := (length x - 1 - 2)%nat) in *. replace (length x - 1 - 1)%nat with (S n) in * by lia. replace (length x - 1)%nat with (S (S n)) in * by lia.
        destruct Ej as [->| ->].
        * rewrite Nat.sub_diag. cbn [nth]. rewrite A2, A3, !qn_S. ring.
        * replace (length x - S (S n))%nat with 1%nat by lia. replace (length x) with (S (S (S n))) by lia. cbn [nth]. rewrite A2, A3, !qn_S. ring. }
  assert (D : forall i, (i < length x)%nat -> nth i (derivs compiled x y) 0 == 2 * a * nth i x 0 + b).
  { intros i Hi. rewrite HX by lia. set (m1 := extend (slopes x y)) in *.
    assert (FF : forall i, (i < length x)%nat -> f1 m1 i == Qabs (2 * a * h) /\ f2 m1 i == Qabs (2 * a * h)).
    { intros l Hl. unfold f1, f2. rewrite !EX by lia. split; apply Qabs_wd.
      - replace (l + 3)%nat with (S (l + 2)) by lia. rewrite qn_S. ring.
      - replace (l + 1)%nat with (S l) by lia. rewrite qn_S. ring. }
    assert (W : 0 < Qabs (2 * a * h) -> weighted m1 i == 2 * a * (x0 + qn i * h) + b).
    { intros P. unfold weighted. destruct (FF i Hi) as [-> ->]. rewrite !EX by lia.
      replace (i + 2)%nat with (S (S i)) by lia. replace (i + 1)%nat with (S i) by lia. rewrite !qn_S. field. lra. }
    destruct compiled; unfold derivs; fold m1.
    - unfold cDerivs. rewrite (nth_map_lt _ _ i 0 0%nat) by (rewrite seq_length; lia). rewrite seq_nth by lia. cbn [Nat.add].
      destruct (qlt _ _) eqn:Q.
      + rewrite !EX by lia. replace (i + 2)%nat with (S (S i)) by lia. replace (i + 1)%nat with (S i) by lia. rewrite !qn_S. ring.
      + apply qlt_false_iff in Q. destruct (FF i Hi) as [F1 F2]. rewrite F1, F2 in Q. apply W. lra.
    - unfold pyDerivs. cbv zeta. rewrite (nth_map_lt _ _ i 0 0%nat) by (rewrite seq_length; lia). rewrite seq_nth by lia. cbn [Nat.add].
      destruct (maxOf_attained (map (fun i => f1 m1 i + f2 m1 i) (seq 0 (length x)))) as (z & Hz & Ez); [destruct (length x); [lia|discriminate]|].
      apply in_map_iff in Hz. destruct Hz as (j & <- & Hj). apply in_seq in Hj. destruct (FF j ltac:(lia)) as [G1 G2]. destruct (FF i Hi) as [F1 F2].
      pose proof (Qabs_nonneg (2 * a * h)).
      destruct (qlt _ _) eqn:Q.
      + apply qlt_iff in Q. rewrite Ez, G1, G2, F1, F2 in Q. apply W. lra.
      + apply qlt_false_iff in Q. rewrite Ez, G1, G2, F1, F2 in Q.
        assert (Z : a == 0).
        { assert (Z0 : Qabs (2 * a * h) <= 0) by lra. apply Qabs_Qle_condition in Z0. destruct Z0 as [Z1 Z2].
          assert (Z3 : a * h == 0) by (apply Qle_antisym; lra). apply Qmult_integral in Z3. destruct Z3 as [Z3|Z3]; [exact Z3|lra]. }
        rewrite EX by lia. rewrite Z. ring. }
  destruct (F2_nth _ _ _ 0 0 k F Hk) as (j & J1 & J2 & ->). unfold cubic. rewrite !D, !HY by lia.
  pose proof (I j (j + 1)%nat ltac:(lia)). field. lra.
Qed.
Definition ex_x : list Q := [0; 1; 2; 3; 4].
Definition ex_y : list Q := [0; 2; 1; 4; 3].
Lemma ex_admissible : admissible ex_x [1 # 2; 1; 3 # 2; 4].
Proof.
  split.
  - intros [|[|[|[|i]]]] [|[|[|[|j]]]] H; cbn in *; try lia; lra.
  - intros t [<-|[<-|[<-|[<-|[]]]]]; cbn; lra.
Qed.
Example c116_example : exists r r', akima true ex_x ex_y [1 # 2; 1; 3 # 2; 4] = Some r /\
  akima false ex_x ex_y [1 # 2; 1; 3 # 2; 4] = Some r' /\ nth 1 r 0 == 2 /\ nth 1 r' 0 == 2.
Proof. do 2 eexists. split; [vm_compute; reflexivity|]. split; [vm_compute; reflexivity|]. split; vm_compute; reflexivity. Qed.

(** Points 2, 3 and 4 on a line, and a parabola *)
Definition ex_x2 : list Q := [0; 1; 2; 3; 4; 5; 6].
Example c116_straight_example : exists r, akima true ex_x2 [0; 2; 1; 2; 3; 7; 1] [5 # 2; 7 # 2] = Some r /\ nth 0 r 0 == 3 # 2 /\ nth 1 r 0 == 5 # 2 /\
  (forall j, j = 2%nat \/ j = 4%nat -> 1 # 1000000000 <= change ex_x2 [0; 2; 1; 2; 3; 7; 1] j /\
   forall l, (l < 7)%nat -> (1 # 1000000000) * change ex_x2 [0; 2; 1; 2; 3; 7; 1] l < change ex_x2 [0; 2; 1; 2; 3; 7; 1] j).
Proof.
  eexists. split; [vm_compute; reflexivity|]. split; [vm_compute; reflexivity|]. split; [vm_compute; reflexivity|].
  intros j [->| ->]; (split; [vm_compute; discriminate|]); intros l Hl; do 7 (destruct l as [|l]; [vm_compute; reflexivity|]); lia.
Qed.
Example c116_parabola_example : exists r, akima false ex_x2 [0; 1; 4; 9; 16; 25; 36] [1 # 2; 11 # 2] = Some r /\ nth 0 r 0 == 1 # 4 /\ nth 1 r 0 == 121 # 4.
Proof. eexists. split; [vm_compute; reflexivity|]. split; vm_compute; reflexivity. Qed.

(** ** C117: the compiled and the interpreted version *)
(** They agree where no data point has negligible changes of slope around it *)
Theorem c117_agree_partial x y xo r r' k : admissible x xo -> akima true x y xo = Some r -> akima false x y xo = Some r' ->
  (forall i, (i < length x)%nat -> 1 # 1000000000 <= change x y i) ->
  (forall i j, (i < length x)%nat -> (j < length x)%nat -> (1 # 1000000000) * change x y j < change x y i) ->
  (k < length xo)%nat -> nth k r 0 == nth k r' 0.
Proof.
  intros A E E' C1 C2 Hk. destruct (akima_spec _ _ _ _ _ E A) as (H3 & HL & I & F). destruct (akima_spec _ _ _ _ _ E' A) as (_ & _ & _ & F').
  assert (D : derivs false x y = derivs true x y).
  { apply derivs_agree; [|exact C1]. intros i Hi. set (l := map _ _).
    assert (M : exists j, (j < length x)%nat /\ maxOf l == change x y j).
    { assert (P : forall l : list Q, l <> [] -> exists a, In a l /\ maxOf l == a).
      { clear. intros [|b l] N; [congruence|]. cbn [maxOf]. destruct (amax_spec l b) as (_ & _ & [Q|(z & Z & Q)]).
        - exists b. split; [now left|exact Q].
        - exists z. split; [now right|exact Q]. }
      destruct (P l) as (a & Ha & Ea). { unfold l. destruct (length x); [lia|discriminate]. }
      apply in_map_iff in Ha. destruct Ha as (j & <- & Hj). apply in_seq in Hj. exists j. split; [lia|exact Ea]. }
    destruct M as (j & Hj & M). rewrite M. apply (C2 i j Hi Hj). }
  rewrite D in F'. destruct (F2_nth _ _ _ 0 0 k F Hk) as (j & J1 & J2 & ->). destruct (F2_nth _ _ _ 0 0 k F' Hk) as (j' & J1' & J2' & ->).
  apply segments_unique; auto.
Qed.
(** At a kink between two straight stretches they take different derivatives: the mean slope and the left slope *)
Theorem c117_kink_refuted : exists x y xo r r', admissible x xo /\ akima true x y xo = Some r /\ akima false x y xo = Some r' /\
  ~ nth 0 r 0 == nth 0 r' 0.
Proof.
  exists [0; 1; 2; 3; 4], [0; 0; 0; 1; 2], [3 # 2]. do 2 eexists. split.
  - split; [intros i j H; cbn in H; lia|]. intros t [<-|[]]; cbn; lra.
  - split; [vm_compute; reflexivity|]. split; [vm_compute; reflexivity|]. vm_compute. discriminate.
Qed.
(** The compiled version walks forward only: positions that are not sorted are evaluated with the wrong cubic *)
Theorem c117_unsorted_refuted : exists x y xo r r', (forall t, In t xo -> nth 0 x 0 <= t <= nth (length x - 1) x 0) /\
  akima true x y xo = Some r /\ akima false x y xo = Some r' /\ nth 1 xo 0 == nth 1 x 0 /\ nth 1 r' 0 == nth 1 y 0 /\ ~ nth 1 r 0 == nth 1 y 0.
Proof.
  exists [0; 1; 2; 3; 4], [0; 2; 1; 4; 3], [5 # 2; 1]. do 2 eexists. split.
  - intros t [<-|[<-|[]]]; cbn; lra.
  - split; [vm_compute; reflexivity|]. split; [vm_compute; reflexivity|]. vm_compute. repeat split; try reflexivity; discriminate.
Qed.
(** It also reads one entry behind the data *)
Theorem c117_reads_refuted (x : list Q) : exists i, In i (cReads (length x) 0) /\ (length x <= i)%nat.
Proof.
  exists (length x). split; [|lia].
  assert (H : forall n k, In (k + n)%nat (cReads n k)).
  { induction n as [|n IH]; intros k; cbn [cReads].
    - left. lia.
    - right. replace (k + S n)%nat with (S k + n)%nat by lia. apply IH. }
  exact (H (length x) 0%nat).
Qed.
Example c117_example : exists r r', akima true ex_x ex_y [1 # 2; 1; 3 # 2; 4] = Some r /\ akima false ex_x ex_y [1 # 2; 1; 3 # 2; 4] = Some r' /\
  (forall i, (i < length ex_x)%nat -> 1 # 1000000000 <= change ex_x ex_y i) /\
  (forall i j, (i < length ex_x)%nat -> (j < length ex_x)%nat -> (1 # 1000000000) * change ex_x ex_y j < change ex_x ex_y i).
Proof.
  do 2 eexists. split; [vm_compute; reflexivity|]. split; [vm_compute; reflexivity|]. split.
  - intros [|[|[|[|[|i]]]]] H; cbn in H; try lia; vm_compute; discriminate.
  - intros [|[|[|[|[|i]]]]] [|[|[|[|[|j]]]]] H H'; cbn in H, H'; try lia; vm_compute; reflexivity.
Qed.
Print Assumptions c112_multiple.
Print Assumptions c112_steps_partial.
Print Assumptions c112_short_refuted.
Print Assumptions c112_last_step_refuted.
Print Assumptions c113_observed.
Print Assumptions c113_between.
Print Assumptions c113_total.
Print Assumptions c114_outside.
Print Assumptions c114_range.
Print Assumptions c114_observed_partial.
Print Assumptions c114_last_refuted.
Print Assumptions c114_error_refuted.
Print Assumptions c115_speed_partial.
Print Assumptions c115_multiple_partial.
Print Assumptions c115_last_refuted.
Print Assumptions c116_nodes.
Print Assumptions c116_line.
Print Assumptions c116_smooth.
Print Assumptions c116_straight.
Print Assumptions c116_parabola.
Print Assumptions c117_agree_partial.
Print Assumptions c117_kink_refuted.
Print Assumptions c117_unsorted_refuted.
Print Assumptions c117_reads_refuted.
