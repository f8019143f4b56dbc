(** Further details of the tables of events and tracks, the location queries, the empirical fit, the threads of the
    multipliers and the wet bulb globe temperature. *)
From Coq Require Import Reals List Arith ZArith Bool QArith String Lia Lra.
From Verif Require Import Base CellModel CellProofs CircleModel HumidModel HumidProofs HumidProps DbProps.
From Verif Require Import FitModel NamesModel DbModel MultModel MultProps DensityModel DensityProofs LoadModel.
Import ListNotations.
Close Scope Q_scope. Close Scope R_scope. Close Scope string_scope. Open Scope nat_scope.

(** * C11 *)
(** The rows of a track file: the distance to every location, for each track with records. *)
Theorem c11_track_rows : forall locations load f rows r, processTrack locations load f = Some rows ->
  (In r rows <-> exists ts id dist l, load f = Some ts /\ In (false, id, dist) ts /\ In l locations /\
     t_loc r = l /\ t_id r = id /\ t_dist r = dist l).
Proof.
  intros locations load f rows r H. unfold processTrack in H. destruct (load f) as [ts|] eqn:L; [|discriminate].
  apply (f_equal (fun o => match o with Some x => x | None => [] end)) in H. subst rows. rewrite in_flat_map. split.
  - intros ([[empty id] dist] & T & R). destruct empty; [destruct R|]. apply in_map_iff in R. destruct R as (l & <- & Hl).
    exists ts, id, dist, l. cbn. auto 9.
  - intros (ts' & id & dist & l & E & T & Hl & A & B & C). injection E as <-. exists (false, id, dist). split; [exact T|].
    apply in_map_iff. exists l. destruct r as [a b c]. cbn in *. subst. auto.
Qed.
Example c11_track_rows_example : exists rows, processTrack [1; 2] (fun _ => Some [(true, (1, 1), fun _ => 3%Q); (false, (1, 2), fun _ => 4%Q)]) [] = Some rows /\
  length rows = 2.
Proof. eexists. split; reflexivity. Qed.

(** * C67 *)
(** The events of a return period are the records of that location above its return level for that period. *)
Theorem c67_return_period : forall d loc period,
  (forall rs, locationReturnPeriodEvents d loc period = Some rs ->
     exists h, In h (hazards d) /\ h_loc h = loc /\ h_period h = period /\
       forall r, In r rs <-> exists w, In w (winds d) /\ w_loc w = loc /\ (h_wspd h < w_wspd w)%Q /\ r = (loc, w_wspd w, w_id w)) /\
  (locationReturnPeriodEvents d loc period = None <->
     ~ (In loc (locs d) /\ exists h, In h (hazards d) /\ h_loc h = loc /\ h_period h = period)).
Proof.
  intros d loc period. unfold locationReturnPeriodEvents.
  assert (I : forall x, In x (flat_map (fun l => flat_map (fun h => if (l =? h_loc h) && (h_period h =? period) && (l =? loc) then [h_wspd h] else []) (hazards d)) (locs d)) <->
    In loc (locs d) /\ exists h, In h (hazards d) /\ h_loc h = loc /\ h_period h = period /\ x = h_wspd h).
  { intros x. rewrite in_flat_map. split.
    - intros (l & L & H). apply in_flat_map in H. destruct H as (h & H & X).
      destruct (Nat.eqb_spec l (h_loc h)); [|destruct X]. destruct (Nat.eqb_spec (h_period h) period); [|destruct X].
      destruct (Nat.eqb_spec l loc); [|destruct X]. destruct X as [<-|[]]. subst l. split; [congruence|]. exists h. auto.
    - intros (L & h & H & <- & <- & ->). exists (h_loc h). split; [exact L|]. apply in_flat_map. exists h. split; [exact H|].
      rewrite !Nat.eqb_refl. now left. }
  destruct (flat_map _ (locs d)) as [|level r0] eqn:E.
  - split; [discriminate|]. split; [|reflexivity]. intros _ (L & h & H & A & B). apply (I (h_wspd h)). split; [exact L|]. exists h. auto.
  - destruct (proj1 (I level) (or_introl eq_refl)) as (L & h & H & A & B & ->). split.
    + intros rs X. injection X as <-. exists h. split; [exact H|]. split; [exact A|]. split; [exact B|].
      intros r. rewrite DbProps.c67_exceeding. intuition.
    + split; [discriminate|]. intros N. exfalso. apply N. split; [exact L|]. exists h. auto.
Qed.
Example c67_return_period_example : exists d rs, locationReturnPeriodEvents d 1 100 = Some rs /\ rs <> [].
Proof.
  exists {| events := []; winds := [{| w_loc := 1; w_id := (1, 2); w_wspd := 60%Q |}]; tracks := [];
            hazards := [{| h_loc := 2; h_period := 100; h_wspd := 70%Q |}; {| h_loc := 1; h_period := 100; h_wspd := 50%Q |}]; locs := [1; 2] |}.
  eexists. split; [reflexivity|discriminate].
Qed.

(** * C50 *)
(** No records, or more records than days, have no empirical return levels. *)
Theorem c50_counts : forall data intervals numsim nodata,
  data = [] \/ empDays numsim < length data -> empfit data intervals numsim nodata = FitModel.FErr.
Proof.
  intros data intervals numsim nodata H. unfold empfit.
  replace ((empDays numsim <? length data) || (length data =? 0)) with true; [reflexivity|].
  symmetry. apply orb_true_iff. destruct H as [->|H]; [now right|left; now apply Nat.ltb_lt].
Qed.

(** * C13 *)
(** With one worker thread, the worker has returned in every final state. *)
Theorem c13_one_thread_done : forall wind bear (file : Z -> Z -> string -> option Q) cols rows size,
  (0 < cols)%Z -> (0 < rows)%Z -> (0 < size)%Z ->
  forall s, star (tstep wind bear (fun y x => source_separate (file y x) dirns) 1) (tinit (segments cols rows size)) s ->
    (forall s', ~ tstep wind bear (fun y x => source_separate (file y x) dirns) 1 s s') -> th s 1 = TDone.
Proof.
  intros wind bear file cols rows size H1 H2 H3 s S F.
  destruct (c13_one_thread wind bear file cols rows size H1 H2 H3) as [_ B]. apply (B s S F). lia.
Qed.

(** * C129 *)
(** A missing pressure, as the loader marks it, belongs to no cell. *)
Theorem c129_missing : forall d tracks k l, ~ In LoadModel.maxsize (cellValues d tracks k l).
Proof.
  intros d tracks k l H. unfold cellValues in H. apply in_flat_map in H. destruct H as (t & _ & H).
  apply filter_In in H. destruct H as [H _]. apply filter_In in H. destruct H as [_ H]. discriminate H.
Qed.
(** Every smaller positive pressure does. *)
Theorem c129_present : forall d tracks k l t r, In t tracks -> In r t -> (0 < rp r)%Q -> (rp r <= LoadModel.maxsize - 1)%Q ->
  (nth k (lonRange d) 0 <= rlon r)%Q -> (rlon r < nth k (lonRange d) 0 + ddx d)%Q ->
  (nth l (latRange d) 0 <= rlat r)%Q -> (rlat r < nth l (latRange d) 0 + ddy d)%Q -> In (rp r) (cellValues d tracks k l).
Proof.
  intros d tracks k l t r T R P0 P1 X0 X1 Y0 Y1. unfold cellValues. apply in_flat_map. exists t. split; [exact T|].
  assert (L : forall a b, (a < b)%Q -> qlt a b = true) by (intros; now apply qlt_iff).
  apply filter_In. split; [|now apply L]. apply filter_In. split.
  2:{ apply L. change DensityModel.maxsize with LoadModel.maxsize. generalize dependent LoadModel.maxsize. intros m P1. Lqa.lra. }
  apply in_map, filter_In. split; [exact R|]. rewrite !L by assumption. apply Qle_bool_iff in X0, Y0. now rewrite X0, Y0.
Qed.
Example c129_present_example : (rp (mkRec 0 0 990 2000) <= LoadModel.maxsize - 1)%Q /\
  cellValues (mkDom 0 2 0 2 1 1) [[mkRec 0 0 990 2000; mkRec (1 # 2) 0 LoadModel.maxsize 2000]] 0 0 = [990%Q].
Proof. split; [discriminate|reflexivity]. Qed.

(** * C154, C155 *)
Open Scope R_scope.
(** The wet bulb globe temperature rises with the temperature and with the dew point. *)
Theorem c154_globe : forall td td' t t', - (2373 / 10) < td -> td <= td' -> t <= t' ->
  wetBulbGlobeTemp td t <= wetBulbGlobeTemp td' t' /\ ((td < td' \/ t < t') -> wetBulbGlobeTemp td t < wetBulbGlobeTemp td' t').
Proof.
  intros td td' t t' H D T. unfold wetBulbGlobeTemp.
  assert (L : td < td' -> dewPointToVapPr td KPa < dewPointToVapPr td' KPa) by (intros X; exact (sat_lt KPa td td' H X)).
  assert (E : dewPointToVapPr td KPa <= dewPointToVapPr td' KPa) by (destruct D as [D|D]; [left; auto|subst; lra]).
  split; [lra|]. intros [X|X]; [specialize (L X)|]; lra.
Qed.
(** The formula with these coefficients takes the vapour pressure in hectopascals (the Bureau of Meteorology's
    approximation); the code puts in kilopascals, so that its temperatures are too low. *)
Definition globe (t e : R) : R := 567 / 1000 * t + 393 / 1000 * e + 394 / 100.
Theorem c155_globe_refuted : forall td t,
  wetBulbGlobeTemp td t = globe t (dewPointToVapPr td HPa) - 393 / 1000 * (9 * dewPointToVapPr td KPa) /\
  wetBulbGlobeTemp td t < globe t (dewPointToVapPr td HPa) /\
  (11690 / 1678 <= td -> wetBulbGlobeTemp td t + 35 / 10 < globe t (dewPointToVapPr td HPa)).
Proof.
  intros td t. assert (E : dewPointToVapPr td HPa = dewPointToVapPr td KPa * 10) by reflexivity.
  pose proof (sat_pos KPa td) as P. change (satVapPr td KPa) with (dewPointToVapPr td KPa) in P.
  unfold wetBulbGlobeTemp, globe. rewrite E. split; [lra|]. split; [lra|]. intros H.
  assert (W : satVapPr (11690 / 1678) KPa = 1).
  { unfold satVapPr. cbn [fromKPa]. replace (1678 / 100 * (11690 / 1678) - 1169 / 10) with 0 by field. unfold Rdiv. rewrite Rmult_0_l. apply exp_0. }
  assert (1 <= dewPointToVapPr td KPa).
  { rewrite <- W. destruct H as [H|H]; [left; apply sat_lt; lra|rewrite <- H; right; reflexivity]. }
  lra.
Qed.
(** The saturation vapour pressure of [vapour] is 6.112 hPa at the freezing point and increases with the temperature. *)
Theorem c154_vapour : vapour 0 = 6112 / 1000 /\ forall a b, - (2435 / 10) < a -> a < b -> vapour a < vapour b.
Proof.
  split.
  - unfold vapour. replace (1767 / 100 * 0 / (2435 / 10 + 0)) with 0 by field. rewrite exp_0. lra.
  - intros a b A B. unfold vapour. apply Rmult_lt_compat_l; [lra|]. apply exp_increasing.
    assert (E : forall x, - (2435 / 10) < x -> 1767 / 100 * x / (2435 / 10 + x) = 1767 / 100 - 1767 / 100 * (2435 / 10) * / (2435 / 10 + x)) by (intros; field; lra).
    rewrite !E by lra. assert (/ (2435 / 10 + b) < / (2435 / 10 + a)) by (apply Rinv_lt_contravar; [apply Rmult_lt_0_compat; lra|lra]). lra.
Qed.
Print Assumptions c11_track_rows.
Print Assumptions c67_return_period.
Print Assumptions c50_counts.
Print Assumptions c13_one_thread_done.
Print Assumptions c129_missing.
Print Assumptions c129_present.
Print Assumptions c154_globe.
Print Assumptions c155_globe_refuted.
Print Assumptions c154_vapour.
