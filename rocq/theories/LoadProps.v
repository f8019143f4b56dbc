(** Property theorems for the loading of track data: C28 - C34, C75 - C82. *)
From Coq Require Import QArith Qabs Qround Lqa Lia Permutation.
From Verif Require Import Base CellModel CellProofs LoadModel LoadProofs LoadProofs2 LoadProofs3.
From Verif Require GenModel GenProofs.
Close Scope Q_scope. Open Scope list_scope. Open Scope nat_scope.

(** * C28 *)
Theorem c28_each_record_once_partial : forall (R : Type) (ids : list Z) (recs : list R),
  length ids = length recs -> ids <> [] -> Forall (fun i => 1 <= i)%Z ids ->
  Permutation (concat (readMultiple ids recs)) recs /\
  forall k, k < length (readMultiple ids recs) ->
    nth k (readMultiple ids recs) [] = map snd (filter (fun p => fst p =? Z.of_nat (S k))%Z (combine ids recs)).
Proof.
  intros R ids recs Hl Hne HF. destruct ids as [|a r]; [congruence|]. unfold readMultiple, groups. split.
  - apply select_map_perm; auto. destruct (zmaxl_spec r a) as (M1 & M2 & _). rewrite Forall_forall in *.
    intros x Hx. split; [auto|]. assert (x <= zmaxl a r)%Z by (destruct Hx as [->|Hx]; auto).
    specialize (HF a (or_introl eq_refl)). lia.
  - rewrite map_length, seq_length. intros k Hk.
    rewrite (map_nth' _ 0) by now rewrite seq_length. rewrite seq_nth by auto. reflexivity.
Qed.
Print Assumptions c28_each_record_once_partial.
Example c28_ex : readMultiple [2; 1; 2; 4]%Z [10; 11; 12; 13] = [[11]; [10; 12]; []; [13]].
Proof. reflexivity. Qed.
(** Records of cyclone number 0 (the number TCRM gives to the first cyclone of a year) are not returned. *)
Theorem c28_number_zero_refuted : ~ (forall (ids : list Z) (recs : list nat), length ids = length recs ->
  Forall (fun i => 0 <= i)%Z ids -> Permutation (concat (readMultiple ids recs)) recs).
Proof.
  intros H. specialize (H [0; 1]%Z [10; 11] eq_refl ltac:(repeat constructor; lia)).
  apply Permutation_length in H. vm_compute in H. discriminate.
Qed.
Print Assumptions c28_number_zero_refuted.

(** * C29 *)
(** The identifier of each record: the serial number, or season and number, or number. *)
Definition keys (c : cols) : option (list (Z * Z)) :=
  match c_serial c, c_num c, c_season c with
  | Col s, _, _ => Some (map (fun x => (x, 0%Z)) s)
  | _, Col n, Col s => Some (combine s n)
  | _, Col n, _ => Some (map (fun x => (x, 0%Z)) n)
  | _, _, _ => None
  end.
Lemma pairEqb_spec a b : pairEqb a b = true <-> a = b.
Proof. unfold pairEqb. destruct a as [x y], b as [z t]. cbn. rewrite andb_true_iff, !Z.eqb_eq. split; intros H; [destruct H; congruence|injection H; auto]. Qed.
Lemma runFlags_pair (l : list Z) : runFlags Z.eqb l = runFlags pairEqb (map (fun x => (x, 0%Z)) l).
Proof.
  destruct l as [|a l]; auto. cbn. f_equal. revert a. induction l as [|b l IH]; intros a; auto. cbn. rewrite IH.
  unfold pairEqb. cbn. now rewrite andb_true_r.
Qed.
Lemma keys_flags c ks : (forall l, c_index c <> Col l) -> keys c = Some ks -> getInitialPositions c = Some (runFlags pairEqb ks).
Proof.
  unfold keys, getInitialPositions. intros Hi Hk.
  destruct (c_index c); [| |exfalso; eapply Hi; reflexivity];
    destruct (c_serial c); try (injection Hk as <-; now rewrite runFlags_pair);
    destruct (c_num c); try discriminate; destruct (c_season c); injection Hk as <-; now rewrite ?runFlags_pair.
Qed.
Theorem c29_flags : forall c ks, (forall l, c_index c <> Col l) -> keys c = Some ks ->
  exists fl, getInitialPositions c = Some fl /\ length fl = length ks /\ binary fl /\
    forall i, i < length ks -> (nth i fl 0%Z = 1%Z <-> i = 0 \/ nth i ks (0, 0)%Z <> nth (i - 1) ks (0, 0)%Z).
Proof.
  intros c ks Hi Hk. exists (runFlags pairEqb ks). split; [now apply keys_flags|]. split; [apply runFlags_len|].
  split; [apply runFlags_binary|]. intros i Hlt. rewrite (runFlags_nth _ (0, 0)%Z) by auto. destruct i as [|j]; [tauto|].
  replace (S j - 1) with j by lia. destruct (pairEqb _ _) eqn:E.
  - apply pairEqb_spec in E. split; [discriminate|]. intros [H|H]; [lia|contradiction].
  - split; auto. intros _. right. intros H. apply pairEqb_spec in H. congruence.
Qed.
Print Assumptions c29_flags.
(** A table without an index, serial number or cyclone number is refused, not guessed at. *)
Theorem c29_refused : forall c, (forall l, c_index c <> Col l) -> (forall l, c_serial c <> Col l) ->
  (forall l, c_num c <> Col l) -> getInitialPositions c = None.
Proof.
  intros c I S N. unfold getInitialPositions. destruct (c_index c); try (now destruct (I l)).
  all: destruct (c_serial c); try (now destruct (S l)); destruct (c_num c); try (now destruct (N l)); reflexivity.
Qed.
Print Assumptions c29_refused.
Theorem c29_tracks : forall (R : Type) fl (recs : list R), length fl = length recs -> binary fl -> nth 0 fl 0%Z = 1%Z ->
  exists ts, tracksOf fl recs = Some ts /\ concat ts = recs /\ Forall (fun t => t <> []) ts /\
    fl = flat_map (fun t => 1%Z :: repeat 0%Z (length t - 1)) ts.
Proof. exact (fun R => tracks_partition). Qed.
Print Assumptions c29_tracks.
Example c29_ex :
  let c := {| c_index := Absent; c_serial := Absent; c_num := Col [1; 1; 2; 1]%Z; c_season := Col [1990; 1990; 1990; 1991]%Z |} in
  getInitialPositions c = Some [1; 0; 1; 1]%Z /\ tracksOf [1; 0; 1; 1]%Z [10; 11; 12; 13] = Some [[10; 11]; [12]; [13]].
Proof. split; reflexivity. Qed.
(** An index column is used unchecked: values other than 0 and 1 give empty tracks, records before the first
    flag are lost. *)
Theorem c29_index_column_refuted :
  (exists fl (recs : list nat) ts, getInitialPositions {| c_index := Col fl; c_serial := Absent; c_num := Absent; c_season := Absent |} = Some fl /\
     tracksOf fl recs = Some ts /\ In [] ts) /\
  (exists fl (recs : list nat) ts, getInitialPositions {| c_index := Col fl; c_serial := Absent; c_num := Absent; c_season := Absent |} = Some fl /\
     tracksOf fl recs = Some ts /\ ~ Permutation (concat ts) recs).
Proof.
  split.
  - exists [1; 2]%Z, [10; 11], [[10]; []; [11]]. repeat split. cbn. auto.
  - exists [0; 1; 0]%Z, [10; 11; 12], [[11; 12]]. repeat split. intros H. apply Permutation_length in H. discriminate.
Qed.
Print Assumptions c29_index_column_refuted.

(** * C30 *)
Theorem c30_elapsed_partial : forall fl dates, length fl = length dates -> nth 0 fl 0%Z = 1%Z ->
  exists el, getTimeElapsed fl dates = Some el /\ length el = length dates /\
    forall j, j < length dates -> exists s, s <= j /\ nth s fl 0%Z = 1%Z /\ (forall k, s < k <= j -> nth k fl 0%Z <> 1%Z) /\
      (nth j el 0 == inject_Z (nth j dates 0%Z - nth s dates 0%Z) / 60)%Q /\
      ((forall k, s < k <= j -> ((nth k dates 0 - nth (k - 1) dates 0) mod 60 = 0)%Z) ->
       (nth j el 0 == fold_right Qplus 0 (map (fun k => nth k (getTimeDelta dates) 0) (seq (S s) (j - s))))%Q).
Proof.
  intros fl dates Hl H1. destruct (elapsed_start fl dates H1) as [el He]. exists el. split; [exact He|].
  destruct (elapsed_nth fl dates None el Hl He) as (L1 & L2 & _). split; [exact L1|]. intros j Hj.
  destruct (start_exists fl H1 j) as (s & S1 & S2 & S3). exists s. split; auto. split; auto. split; auto.
  pose proof (L2 s j ltac:(lia) S2 S3) as He'. split; [exact He'|]. intros Hm.
  rewrite He'. symmetry. apply steps_sum; auto.
Qed.
Print Assumptions c30_elapsed_partial.
Example c30_ex : getTimeElapsed [1; 0; 0; 1; 0]%Z [0; 360; 720; 100; 160]%Z = Some [0; 360 / 60; 720 / 60; 0; 60 / 60]%Q.
Proof. reflexivity. Qed.
(** The step of a start record is the time since the last record of the previous cyclone. *)
Theorem c30_start_step_refuted : ~ (forall fl dates i, length fl = length dates -> nth i fl 0%Z = 1%Z ->
  (nth i (getTimeDelta dates) 0 == 0)%Q).
Proof. intros H. specialize (H [1; 0; 1]%Z [0; 360; 9000]%Z 2 eq_refl eq_refl). vm_compute in H. discriminate. Qed.
Print Assumptions c30_start_step_refuted.
(** Steps are rounded to whole hours: 90 minutes and 90 minutes give 2 + 2 hours, elapsed 3 hours. *)
Theorem c30_rounded_steps_refuted : ~ (forall fl dates el, length fl = length dates -> getTimeElapsed fl dates = Some el ->
  fl = [1; 0; 0]%Z -> (nth 2 el 0 == nth 1 (getTimeDelta dates) 0 + nth 2 (getTimeDelta dates) 0)%Q).
Proof. intros H. specialize (H [1; 0; 0]%Z [0; 90; 180]%Z _ eq_refl eq_refl eq_refl). vm_compute in H. discriminate. Qed.
Print Assumptions c30_rounded_steps_refuted.
(** Tracks split at a jump after the times were computed do not start at zero. *)
Theorem c30_split_track_refuted : ~ (forall c dates pts (recs : list nat) ts t r e, loadTrackFile c dates pts recs = Some ts ->
  In t ts -> nth_error t 0 = Some (r, e) -> (e == 0)%Q).
Proof.
  intros H.
  specialize (H {| c_index := Absent; c_serial := Col [7; 7]%Z; c_num := Absent; c_season := Absent |} [0; 360]%Z
                [(100, -15); (160, -15)]%Q [1; 2] _ _ 2 (360 / 60)%Q eq_refl (or_intror (or_introl eq_refl)) eq_refl).
  vm_compute in H. discriminate.
Qed.
Print Assumptions c30_split_track_refuted.

(** * C31 *)
Theorem c31_bearing_rate : forall junk bear dt fl i,
  length bear = length fl -> length dt = length fl -> S i < length fl ->
  (forall k, k < length fl -> (0 <= nth k bear 0 < 360)%Q) ->
  let r := nth (S i) (bearingRate junk (maskedBearings fl bear) dt fl) 0%Q in
  (nth (S i) fl 0%Z <> 0%Z -> r = maxsize) /\
  (nth i fl 0%Z <> 0%Z -> r = maxsize) /\
  (nth (S i) fl 0%Z = 0%Z -> nth i fl 0%Z = 0%Z ->
     (r = maxsize /\ (nth (S i) dt 0 < 1)%Q) \/
     exists k : Z, (-180 <= r * nth (S i) dt 0 <= 180)%Q /\
       (r * nth (S i) dt 0 == nth (S i) bear 0 - nth i bear 0 + 360 * inject_Z k)%Q).
Proof. exact c31_l. Qed.
Print Assumptions c31_bearing_rate.
Example c31_ex : nth 3 (bearingRate 5 (maskedBearings [1; 0; 0; 0]%Z [0; 10; 350; 20]) [0; 6; 6; 6] [1; 0; 0; 0]%Z)%Q 0%Q = ((20 - 350 + 360) / 6)%Q.
Proof. reflexivity. Qed.

(** * C32 *)
Theorem c32_range : forall k miss l p, In p (filterPressure k miss l) -> p = miss \/ (600 <= p /\ p <= 1100)%Q.
Proof. exact filter_in. Qed.
Print Assumptions c32_range.
Theorem c32_unchanged : forall k miss l i p, nth_error l i = Some p -> ~ (p == miss)%Q -> (600 <= p * k <= 1100)%Q ->
  nth_error (filterPressure k miss l) i = Some (p * k)%Q.
Proof. exact filter_keep. Qed.
Print Assumptions c32_unchanged.
Example c32_ex : filterPressure 1 0 [990; 0; -999; 9999]%Q = [990 * 1; 0; 0; 0]%Q.
Proof. reflexivity. Qed.

(** * C33 *)
Theorem c33_contains_wind_domain_partial : forall wf recs p, within wf p = true -> within (calcDomain wf recs) p = true.
Proof. exact c33_contains_l. Qed.
Print Assumptions c33_contains_wind_domain_partial.
(** Every position up to the last one inside the wind field domain is covered. *)
Theorem c33_covers_partial : forall wf recs i j ri rj, sameCyclone recs i j -> nth_error recs i = Some ri ->
  nth_error recs j = Some rj -> within wf (snd rj) = true -> within (calcDomain wf recs) (snd ri) = true.
Proof. exact c33_cover_l. Qed.
Print Assumptions c33_covers_partial.
(** Each limit is that of the wind field domain, or of such a position, taken outwards to a whole degree. *)
Theorem c33_tight_partial : forall wf recs, recs <> [] ->
  (forall r, In r recs -> (-9999 <= fst (snd r) <= 9999 /\ -9999 <= snd (snd r) <= 9999)%Q) ->
  let d := calcDomain wf recs in
  ((b_x0 d == inject_Z (Qfloor (b_x0 wf)))%Q \/ exists p, leadsIn wf recs p /\ (b_x0 d == inject_Z (Qfloor (fst p)))%Q) /\
  ((b_x1 d == inject_Z (Qceiling (b_x1 wf)))%Q \/ exists p, leadsIn wf recs p /\ (b_x1 d == inject_Z (Qceiling (fst p)))%Q) /\
  ((b_y0 d == inject_Z (Qfloor (b_y0 wf)))%Q \/ exists p, leadsIn wf recs p /\ (b_y0 d == inject_Z (Qfloor (snd p)))%Q) /\
  ((b_y1 d == inject_Z (Qceiling (b_y1 wf)))%Q \/ exists p, leadsIn wf recs p /\ (b_y1 d == inject_Z (Qceiling (snd p)))%Q).
Proof. exact c33_tight_l. Qed.
Print Assumptions c33_tight_partial.
Definition wfx : box := {| b_x0 := 110; b_x1 := 120; b_y0 := -20; b_y1 := -10 |}.
Definition recsx : list (Z * (Q * Q)) := [(1%Z, (1301 # 10, -12)); (0%Z, (115, -15)); (0%Z, (105, -25)); (1%Z, (150, -12))]%Q.
Example c33_ex : sameCyclone recsx 0 1 /\ within wfx (115, -15)%Q = true /\ (b_x1 (calcDomain wfx recsx) == 131)%Q.
Proof.
  split; [|split; vm_compute; reflexivity]. split; [cbn; lia|].
  intros k r Hk E. assert (k = 1) by lia. subst k. cbn in E. injection E as <-. cbn. lia.
Qed.
(** Positions after the last one inside the wind field domain need not be covered. *)
Theorem c33_later_positions_refuted : ~ (forall wf recs i j ri rj, sameCyclone recs i j -> nth_error recs i = Some ri ->
  nth_error recs j = Some rj -> within wf (snd ri) = true -> within (calcDomain wf recs) (snd rj) = true).
Proof.
  intros H. specialize (H wfx recsx 1 2 (0%Z, (115, -15)%Q) (0%Z, (105, -25)%Q)).
  assert (S : sameCyclone recsx 1 2).
  { split; [cbn; lia|]. intros k r Hk E. assert (k = 2) by lia. subst k. cbn in E. injection E as <-. cbn. lia. }
  specialize (H S eq_refl eq_refl eq_refl). vm_compute in H. discriminate.
Qed.
Print Assumptions c33_later_positions_refuted.

(** * C34 *)
Theorem c34_frequency : forall d os ymin ymax,
  In ymin (map fst os) -> In ymax (map fst os) -> Forall (fun o => ymin <= fst o <= ymax)%Z os ->
  (0 <= ymin)%Z -> (ymin < ymax <= 3000)%Z ->
  exists q, calcFrequency d os = FOk q /\
    (Qabs (q - inject_Z (Z.of_nat (length (filter (fun o => (fst o <? ymax)%Z && strictly d (snd o)) os))) / inject_Z (ymax - ymin)) <= 1 # 200)%Q /\
    exists z : Z, (q * 100 == inject_Z z)%Q.
Proof. exact c34_l. Qed.
Print Assumptions c34_frequency.
(** No frequency when all the cyclones are of one year. *)
Theorem c34_single_year : forall d os y, os <> [] -> Forall (fun o => fst o = y) os -> calcFrequency d os = FNan.
Proof.
  intros d os y Hne HF. unfold calcFrequency. destruct (map fst os) as [|a r] eqn:E; [now destruct os|].
  assert (HF' : Forall (fun x => x = y) (a :: r)) by (rewrite <- E, Forall_map; exact HF).
  inversion HF' as [|x z Ha Hr]; subst.
  assert (E1 : fold_left Z.min r y = y).
  { clear -Hr. induction r as [|b r IH]; auto. inversion Hr; subst. cbn. rewrite Z.min_id. auto. }
  assert (E2 : fold_left Z.max r y = y).
  { clear -Hr. induction r as [|b r IH]; auto. inversion Hr; subst. cbn. rewrite Z.max_id. auto. }
  rewrite E1, E2. replace (y - 1 <? y)%Z with true by lia. reflexivity.
Qed.
Print Assumptions c34_single_year.
Example c34_ex : calcFrequency wfx [(1990%Z, (115, -15)); (1990%Z, (116, -15)); (1991%Z, (100, -15)); (1993%Z, (115, -15))]%Q = FOk (67 # 100).
Proof. reflexivity. Qed.

(** * C75 *)
(** Records start a track where the identifier changes or after a step of more than the limit eastwards or
    northwards. *)
Theorem c75_split_partial : forall c ks pts fl i, (forall l, c_index c <> Col l) -> keys c = Some ks ->
  length pts = length ks -> getInitialPositions c = Some fl -> S i < length ks ->
  let p := nth i pts (0, 0)%Q in let q := nth (S i) pts (0, 0)%Q in
  (nth (S i) (splitJumps 10 5 fl pts) 0%Z = 1%Z <->
   nth (S i) ks (0, 0)%Z <> nth i ks (0, 0)%Z \/ (10 < fst q - fst p)%Q \/ (5 < snd q - snd p)%Q).
Proof.
  intros c ks pts fl i Hi Hk Hl Hf Hlt p q.
  destruct (c29_flags c ks Hi Hk) as (fl' & E & L & B & F). rewrite Hf in E. injection E as <-.
  rewrite (splitJumps_nth 10 5 (0, 0)%Q) by lia. fold p q. unfold jump.
  specialize (F (S i) Hlt). replace (S i - 1) with i in F by lia.
  destruct (qlt 10 (fst q - fst p)) eqn:E1; [apply qlt_iff in E1; cbn [orb]; tauto|].
  destruct (qlt 5 (snd q - snd p)) eqn:E2; [apply qlt_iff in E2; cbn [orb]; tauto|].
  apply GenProofs.qlt_false_iff in E1. apply GenProofs.qlt_false_iff in E2. cbn [orb]. rewrite F.
  split; [intros [H|H]; [lia|auto]|]. intros [H|[H|H]]; auto; exfalso; lra.
Qed.
Print Assumptions c75_split_partial.
Definition serials (l : list Z) : cols := {| c_index := Absent; c_serial := Col l; c_num := Absent; c_season := Absent |}.
Example c75_ex : splitJumps 10 5 [1; 0; 0]%Z [(100, -10); (111, -10); (112, -10)]%Q = [1; 1; 0]%Z.
Proof. reflexivity. Qed.
(** A jump westwards or southwards is not split. *)
Theorem c75_west_south_refuted : ~ (forall l pts i fl, getInitialPositions (serials l) = Some fl -> length pts = length l -> S i < length l ->
  (20 < Qabs (fst (nth (S i) pts (0, 0)%Q) - fst (nth i pts (0, 0)%Q)) < 180 \/
   20 < Qabs (snd (nth (S i) pts (0, 0)%Q) - snd (nth i pts (0, 0)%Q)))%Q ->
  nth (S i) (splitJumps 10 5 fl pts) 0%Z = 1%Z).
Proof.
  intros H. specialize (H [7; 7]%Z [(160, -10); (100, -40)]%Q 0 _ eq_refl eq_refl ltac:(cbn; lia)).
  assert (A : (20 < Qabs (100 - 160) < 180 \/ 20 < Qabs (-40 - -10))%Q) by (left; split; reflexivity).
  specialize (H A). vm_compute in H. discriminate.
Qed.
Print Assumptions c75_west_south_refuted.
(** A cyclone moving two degrees west across the Greenwich meridian (longitudes modulo 360) is split. *)
Theorem c75_greenwich_refuted : ~ (forall l pts fl, getInitialPositions (serials l) = Some fl -> l = [7; 7]%Z ->
  pts = [(1, 30); (359, 30)]%Q -> nth 1 (splitJumps 10 5 fl pts) 0%Z = 0%Z).
Proof. intros H. specialize (H [7; 7]%Z _ _ eq_refl eq_refl eq_refl). vm_compute in H. discriminate. Qed.
Print Assumptions c75_greenwich_refuted.

(** * C76, C77, C80 *)
Theorem c76_pressure_rate : forall junk p dt fl i, length p = length fl -> length dt = length fl -> S i < length fl ->
  (forall k, k < length fl -> nth k p 0%Q = maxsize \/ (600 <= nth k p 0 <= 1100)%Q) ->
  (forall k, k < length fl -> (0 <= nth k dt 0 <= 1000000)%Q) ->
  let r := nth (S i) (pressureRate junk p dt fl) 0%Q in
  r = maxsize \/
  (nth (S i) fl 0%Z = 0%Z /\ (600 <= nth i p 0 <= 1100)%Q /\ (600 <= nth (S i) p 0 <= 1100)%Q /\
   (-10 <= r <= 10)%Q /\ (r * nth (S i) dt 0 == nth (S i) p 0 - nth i p 0)%Q).
Proof. exact c76_l. Qed.
Print Assumptions c76_pressure_rate.
Example c76_ex : pressureRate 3 [1000; 988; maxsize; 990]%Q [0; 6; 6; 6]%Q [1; 0; 0; 0]%Z = [maxsize; (988 - 1000) / 6; maxsize; maxsize]%Q.
Proof. reflexivity. Qed.
Theorem c77_size_rate_partial : forall junk p dt fl i, length p = length fl -> length dt = length fl -> S i < length fl ->
  let r := nth (S i) (rmaxRate junk p dt fl) 0%Q in
  r = maxsize \/
  (nth (S i) fl 0%Z = 0%Z /\ (nth (S i) p 0 < maxsize)%Q /\ (r * nth (S i) dt 0 == nth (S i) p 0 - nth i p 0)%Q).
Proof. exact c77_l. Qed.
Print Assumptions c77_size_rate_partial.
Example c77_ex : rmaxRate 3 [30; 42]%Q [0; 6]%Q [1; 0]%Z = [maxsize; (42 - 30) / 6]%Q.
Proof. reflexivity. Qed.
(** The rate after a missing radius is not masked: about -1.5e18 km per hour. *)
Theorem c77_after_missing_refuted : ~ (forall junk p dt fl i, length p = length fl -> length dt = length fl -> S i < length fl ->
  nth i p 0%Q = maxsize -> nth (S i) (rmaxRate junk p dt fl) 0%Q = maxsize).
Proof.
  intros H. specialize (H 0%Q [30; maxsize; 40]%Q [0; 6; 6]%Q [1; 0; 0]%Z 1 eq_refl eq_refl ltac:(cbn; lia) eq_refl).
  vm_compute in H. discriminate.
Qed.
Print Assumptions c77_after_missing_refuted.
Theorem c80_speed : forall dist dt fl i, length dist = length fl -> length dt = length fl -> i < length fl ->
  let v := nth i (speeds dist dt fl) 0%Q in
  v = maxsize \/ (nth i fl 0%Z = 0%Z /\ (0 <= v <= 200)%Q /\ (v * nth i dt 0 == nth i dist 0)%Q).
Proof. exact speeds_l. Qed.
Print Assumptions c80_speed.
Example c80_ex : speeds [0; 120; 1500]%Q [0; 6; 6]%Q [1; 0; 0]%Z = [maxsize; 120 / 6; maxsize]%Q.
Proof. reflexivity. Qed.

(** * C78 *)
Theorem c78_entering_cyclones_kept : forall lo hi wf recs s j k rs rj, (forall q, lo q <= q)%Q -> (forall q, q <= hi q)%Q ->
  sameCyclone recs s j -> sameCyclone recs s k -> nth_error recs s = Some rs -> fst rs = 1%Z ->
  nth_error recs j = Some rj -> within wf (snd rj) = true ->
  In k (extractTracks lo hi (calcDomain wf recs) recs).
Proof. exact c78_l. Qed.
Print Assumptions c78_entering_cyclones_kept.
Theorem c78_whole_cyclones : forall lo hi d recs s k rs, sameCyclone recs s k -> nth_error recs s = Some rs -> fst rs = 1%Z ->
  (In k (extractTracks lo hi d recs) <-> In s (extractTracks lo hi d recs)).
Proof.
  intros lo hi d recs s k rs Hs Hn Hf. rewrite (extract_iff lo hi d recs s k rs Hs Hn Hf).
  assert (H0 : sameCyclone recs s s) by (destruct Hs as [H _]; split; [lia|intros; lia]).
  now rewrite (extract_iff lo hi d recs s s rs H0 Hn Hf).
Qed.
Print Assumptions c78_whole_cyclones.
Example c78_ex : extractTracks (fun q => q) (fun q => q) (calcDomain wfx recsx) recsx = [0; 1; 2].
Proof. vm_compute. reflexivity. Qed.

(** * C79 *)
Theorem c79_values : forall (R : Type) fl (l : list R), length fl = length l -> binary fl -> nth 0 fl 0%Z = 1%Z ->
  exists ts, tracksOf fl l = Some ts /\ origins fl l = flat_map (firstn 1) ts /\
    initValues fl l = flat_map (fun t => firstn 1 (skipn 1 t)) ts /\ noInitValues fl l = flat_map (skipn 2) ts.
Proof. exact (fun R => c79_l). Qed.
Print Assumptions c79_values.
Example c79_ex : let fl := [1; 0; 0; 1; 1; 0]%Z in let l := [10; 11; 12; 20; 30; 31] in
  origins fl l = [10; 20; 30] /\ initValues fl l = [11; 31] /\ noInitValues fl l = [12].
Proof. repeat split. Qed.

(** * C81 *)
(** A cyclone that starts on the edge of the automatic domain is kept for the statistics but is not counted in the
    frequency. *)
Theorem c81_edge_genesis_refuted : ~ (forall wf recs s rs, nth_error recs s = Some rs -> fst rs = 1%Z ->
  In s (extractTracks (fun q => q) (fun q => q) (calcDomain wf recs) recs) -> strictly (calcDomain wf recs) (snd rs) = true).
Proof.
  intros H. specialize (H wfx [(1%Z, (130, -12)); (0%Z, (115, -15))]%Q 0 _ eq_refl eq_refl).
  assert (A : In 0 (extractTracks (fun q => q) (fun q => q) (calcDomain wfx [(1%Z, (130, -12)); (0%Z, (115, -15))]%Q) [(1%Z, (130, -12)); (0%Z, (115, -15))]%Q)).
  { vm_compute. auto. }
  specialize (H A). vm_compute in H. discriminate.
Qed.
Print Assumptions c81_edge_genesis_refuted.
Theorem c81_counted_partial : forall lo hi d recs s rs, (forall q, lo q <= q)%Q -> (forall q, q <= hi q)%Q ->
  nth_error recs s = Some rs -> fst rs = 1%Z -> strictly d (snd rs) = true -> In s (extractTracks lo hi d recs).
Proof.
  intros lo hi d recs s rs Hlo Hhi Hn Hf Hs.
  assert (H0 : sameCyclone recs s s).
  { assert (s < length recs) by (apply nth_error_Some; congruence). split; [lia|intros; lia]. }
  apply (extract_iff lo hi d recs s s rs H0 Hn Hf). unfold strictly in Hs. rewrite !andb_true_iff, !qlt_iff in Hs.
  unfold starts, between. rewrite !andb_true_iff, !Qle_bool_iff.
  pose proof (Hlo (b_x0 d)). pose proof (Hlo (b_y0 d)). pose proof (Hhi (b_x1 d)). pose proof (Hhi (b_y1 d)).
  repeat split; lra.
Qed.
Print Assumptions c81_counted_partial.

(** * C82 *)
(** One cyclone inside a table without years: first record in month [m0], the others [tl] = (month, true year). *)
Theorem c82_year_differences_partial : forall pre post ys m0 y0 tl, (1 <= m0)%Z ->
  fillYears None (pre ++ ((1%Z, m0) :: map (fun r => (0%Z, fst r)) tl) ++ post) = Some ys ->
  follows y0 (m0 =? 1)%Z m0 y0 tl ->
  forall i, i < length tl ->
    (nth (length pre + S i) ys 0 - nth (length pre) ys 0 = snd (nth i tl (0, 0)) - y0)%Z.
Proof.
  intros pre post ys m0 y0 tl Hm H Hf i Hi.
  destruct (fillYears_app pre _ None ys H) as (ya & yb & fy & H1 & H2 & ->).
  destruct (fillYears_app _ post fy yb H2) as (yc & yd & fz & H3 & H4 & ->).
  cbn [fillYears] in H3. change (0 <? 1)%Z with true in H3. cbv iota in H3.
  set (c := if (m0 =? 1)%Z then 2001%Z else 2000%Z).
  assert (E : (if (m0 =? 1)%Z then Some 2001%Z else Some 2000%Z) = Some c) by (subst c; destruct (m0 =? 1)%Z; reflexivity).
  rewrite E in H3. destruct (fillYears (Some c) _) as [r|] eqn:Er; [|discriminate]. injection H3 as <-.
  pose proof (fill_tail y0 (m0 =? 1)%Z tl m0 y0 c r Hm (or_introl eq_refl) (fun _ => eq_refl)) as Ht.
  rewrite Ht; [| subst c; destruct (m0 =? 1)%Z; lia | intros ->; reflexivity | exact Hf | exact Er].
  rewrite <- (fillYears_le _ _ _ H1). rewrite (app_nth2 ya) by lia. rewrite (app_nth2 ya) by lia.
  replace (length ya + S i - length ya) with (S i) by lia. replace (length ya - length ya) with 0 by lia. cbn [app nth].
  rewrite app_nth1 by (rewrite map_length; lia). rewrite (map_nth' _ (0, 0)%Z) by auto. subst c.
  destruct (m0 =? 1)%Z; lia.
Qed.
Print Assumptions c82_year_differences_partial.
Example c82_ex : fillYears None [(1, 12); (0, 12); (0, 1); (1, 2)]%Z = Some [2000; 2000; 2001; 2000]%Z /\
  follows 1990 false 12 1990 [(12, 1990); (1, 1991)]%Z.
Proof. split; [reflexivity|]. cbn. repeat split; lia. Qed.
(** A cyclone of January and February of a leap year: its 29 February is given the year 2001. *)
Theorem c82_leap_day_refuted : ~ (forall recs ys, fillYears None (map (fun r => (fst (fst r), snd (fst r))) recs) = Some ys ->
  Forall (fun r => validDate 2000 (snd (fst r)) (snd r) = true) recs ->
  Forall (fun p => validDate (fst p) (snd (fst (snd p))) (snd (snd p)) = true) (combine ys recs)).
Proof.
  intros H. specialize (H [(1, 1, 31); (0, 2, 29)]%Z _ eq_refl ltac:(repeat constructor)).
  inversion H as [|x l _ H2]. inversion H2 as [|x' l' H3 _]. vm_compute in H3. discriminate.
Qed.
Print Assumptions c82_leap_day_refuted.
