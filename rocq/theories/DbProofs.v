From Coq Require Import Ascii String QArith.
From Verif Require Import Base MWModel MWProofs TileSpec TileProofs NamesModel NamesProofs DbModel.
Close Scope Q_scope. Close Scope string_scope. Open Scope list_scope. Open Scope nat_scope.

  Lemma nth_work files w f : nth_error files w = Some f -> nth_error (work files) w = Some (w, f).
  Proof.
    unfold work. change (Some (w, f)) with (Some (0 + w, f)). generalize 0 as k. revert w.
    induction files as [|g fs IH]; intros [|w] k H; cbn in *; try discriminate.
    - rewrite Nat.add_0_r. congruence.
    - rewrite (IH _ (S k) H). f_equal. f_equal. lia.
  Qed.
  Lemma work_length files : length (work files) = length files.
  Proof. unfold work. rewrite combine_length, seq_length. lia. Qed.

Section Ev.
  Variable read : str -> option (Q * (nat -> Q)).
  Variable locations : list nat.
  Notation pe := (processEvent read locations).

  Lemma fold_store_events rs : forall d,
    NoDup (map e_num (events d) ++ map (fun r => e_num (fst r)) rs) ->
    let d' := fold_left storeEvent rs d in
    events d' = events d ++ map fst rs /\ winds d' = winds d ++ concat (map snd rs) /\
    tracks d' = tracks d /\ hazards d' = hazards d /\ locs d' = locs d.
  Proof.
    induction rs as [|[e ws] rs IH]; intros d Hn; cbn [fold_left map concat].
    - rewrite !app_nil_r. auto.
    - assert (E : existsb (fun x => e_num x =? e_num e) (events d) = false).
      { destruct (existsb _ _) eqn:E; [exfalso|reflexivity].
        apply existsb_exists in E as (x & Hx & Ex). apply Nat.eqb_eq in Ex.
        cbn [map fst] in Hn. apply NoDup_remove_2 in Hn. apply Hn. apply in_app_iff. left.
        rewrite <- Ex. now apply in_map. }
      destruct (IH (storeEvent d (e, ws))) as (A & B & C & D & F).
      { unfold storeEvent, insertEvents. cbn [fst snd]. rewrite E. cbn [insertWindSpeeds events].
        rewrite map_app, <- app_assoc. exact Hn. }
      rewrite A, B, C, D, F. unfold storeEvent, insertEvents. cbn [fst snd]. rewrite E. cbn.
      rewrite <- !app_assoc. auto.
  Qed.

  Lemma work_fst files : map fst (work files) = seq 0 (length files).
  Proof.
    unfold work. generalize 0 as k. induction files as [|f fs IH]; intros k; cbn; [reflexivity|].
    now rewrite IH.
  Qed.
  Lemma pe_num wf r : pe wf = Some r -> e_num (fst r) = fst wf /\ e_file (fst r) = snd wf /\
    event_id (snd wf) = Some (e_id (fst r)) /\
    exists info at_loc, read (snd wf) = Some (info, at_loc) /\ e_info (fst r) = info /\
      snd r = map (fun l => {| w_loc := l; w_id := e_id (fst r); w_wspd := at_loc l |}) locations.
  Proof.
    destruct wf as [w f]. unfold processEvent. cbn [fst snd]. destruct (event_id f), (read f) as [[info at_loc]|]; try discriminate.
    intros [= <-]. cbn [fst snd e_num e_id e_file e_info]. split; [reflexivity|]. split; [reflexivity|]. split; [reflexivity|]. exists info, at_loc. auto.
  Qed.

  Lemma nums_rs rs ts : Forall2 (fun t r => pe t = Some r) ts rs ->
    map (fun r => e_num (fst r)) rs = map fst ts.
  Proof.
    induction 1 as [|t r ts rs H _ IH]; [reflexivity|]. cbn. rewrite IH. f_equal. now apply pe_num in H.
  Qed.

  Lemma work_nodup files rs h d : Forall2 (fun t r => pe t = Some r) (work files) rs ->
    Permutation h rs -> events d = [] ->
    NoDup (map e_num (events d) ++ map (fun r => e_num (fst r)) h).
  Proof.
    intros F P ->. cbn. eapply Permutation_NoDup.
    - apply Permutation_map. symmetry. exact P.
    - rewrite (nums_rs _ _ F), work_fst. apply seq_NoDup.
  Qed.

  Definition event_tables (files : list str) (d0 d : db) : Prop :=
    exists rows : list (event_row * list wind_row),
    length rows = length files /\    (forall w f, nth_error files w = Some f -> exists e info at_loc,
       event_id f = Some (e_id e) /\ read f = Some (info, at_loc) /\       e_num e = w /\ e_file e = f /\ e_info e = info /\       nth_error rows w = Some (e, map (fun l => {| w_loc := l; w_id := e_id e; w_wspd := at_loc l |}) locations)) /\    Permutation (events d) (map fst rows) /\    Permutation (winds d) (winds d0 ++ concat (map snd rows)) /\    tracks d = tracks d0 /\ hazards d = hazards d0 /\ locs d = locs d0.

  Lemma tables_of files rs h d0 : Forall2 (fun t r => pe t = Some r) (work files) rs ->
    Permutation h rs -> events d0 = [] -> event_tables files d0 (fold_left storeEvent h d0).
  Proof.
    intros F P E0. exists rs.
    destruct (fold_store_events h d0 (work_nodup files rs h d0 F P E0)) as (A & B & C & D & L).
    split; [rewrite <- (Forall2_len _ _ _ F); apply work_length|]. split.
    - intros w f Hw. apply nth_work in Hw.
      destruct (Forall2_nth _ _ _ F w _ Hw) as ([e ws] & Hr & Hp).
      destruct (pe_num _ _ Hp) as (H1 & H2 & H3 & info & al & H4 & H5 & H6). cbn [fst snd] in *.
      exists e, info, al. rewrite Hr, H6. auto 8.
    - rewrite A, B, C, D, L, E0. cbn [app].
      split; [now apply Permutation_map|]. split; [|auto].
      apply Permutation_app_head. rewrite <- !flat_map_concat_map.
      now apply Permutation_flat_map.
  Qed.
End Ev.

Lemma mw_all {T R S} (calc : T -> option R) (store : S -> R -> S) tiles nw (s0 : S) :
  (forall t, In t tiles -> calc t <> None) -> (1 <= nw)%nat ->
  exists rs, Forall2 (fun t r => calc t = Some r) tiles rs /\  serial calc store s0 tiles = Some (fold_left store rs s0) /\  always_ends_in (init nw s0) (step calc store tiles nw) (fun s =>
    finished nw s /\ Permutation (comp s) tiles /\    (exists h, Permutation h rs /\ out s = fold_left store h s0) /\    (forall i, (1 <= i <= nw)%nat -> down s i = [] /\ up s i = [])).
Proof.
  intros Hok Hnw.
  destruct (results_of calc tiles) as (rs & Ers & F).
  { intros t Ht. destruct (calc t) eqn:E; [eauto|]. exfalso. eapply Hok; eauto. }
  exists rs. split; [exact F|]. split; [now apply serial_fold|].
  split; [apply no_infinite_run|].
  intros s Hst Hstuck.
  pose proof (inv_reach calc store tiles nw s0 s Hst) as HI.
  destruct (progress calc store tiles nw s0 s HI) as [Hf|[(B1 & B2 & B3 & i & t & B4 & B5 & B6 & B7)|[s' Hs']]].
  - destruct (final_facts calc store tiles nw s0 s Hnw HI Hf) as (F1 & F2 & F3 & F4).
    split; [exact Hf|]. split; [exact F1|]. split; [|exact F4].
    exists (hist s). split; [|exact F3]. apply Permutation_map_Some. now rewrite <- Ers.
  - exfalso. eapply Hok; [|exact B6]. exact B7.
  - exfalso. eapply Hstuck; eauto.
Qed.

Lemma c11_events_l read locations files d0 nw :
  events d0 = [] -> (1 <= nw)%nat ->
  (forall f, In f files -> event_id f <> None /\ read f <> None) ->
  exists d, processEvents read locations files d0 = Some d /\ event_tables read locations files d0 d /\
  always_ends_in (init nw d0) (step (processEvent read locations) storeEvent (work files) nw) (fun s =>
    finished nw s /\ Permutation (comp s) (work files) /\
    event_tables read locations files d0 (out s) /\
    (forall i, (1 <= i <= nw)%nat -> down s i = [] /\ up s i = [])).
Proof.
  intros E0 Hnw Hok.
  destruct (mw_all (processEvent read locations) storeEvent (work files) nw d0) as (rs & F & S & A).
  - intros [w f] Hin. apply in_combine_r in Hin. destruct (Hok f Hin) as [H1 H2]. cbn.
    destruct (event_id f); [|congruence]. destruct (read f) as [[? ?]|]; congruence.
  - exact Hnw.
  - exists (fold_left storeEvent rs d0). split; [exact S|].
    split; [apply tables_of with (rs := rs); auto|].
    destruct A as [A1 A2]. split; [exact A1|]. intros s H1 H2.
    destruct (A2 s H1 H2) as (B1 & B2 & (h & B3 & ->) & B4).
    split; [exact B1|]. split; [exact B2|]. split; [|exact B4].
    now apply tables_of with (rs := rs).
Qed.

Lemma fold_tracks rs : forall d, let d' := fold_left insertTracks rs d in
  tracks d' = tracks d ++ concat rs /\ events d' = events d /\ winds d' = winds d /\ hazards d' = hazards d /\ locs d' = locs d.
Proof.
  induction rs as [|r rs IH]; intros d; cbn [fold_left concat].
  - rewrite app_nil_r. auto.
  - destruct (IH (insertTracks d r)) as (A & B & C & D & E). rewrite A, B, C, D, E.
    cbn. rewrite <- app_assoc. auto.
Qed.
Definition same_tables (d d' : db) : Prop :=
  Permutation (tracks d) (tracks d') /\ events d = events d' /\ winds d = winds d' /\
  hazards d = hazards d' /\ locs d = locs d'.
Lemma c11_tracks_l load locations files d0 nw : (1 <= nw)%nat ->
  (forall f, In f files -> load f <> None) ->
  exists d, serial (processTrack locations load) insertTracks d0 files = Some d /\
  always_ends_in (init nw d0) (step (processTrack locations load) insertTracks files nw) (fun s =>
    finished nw s /\ Permutation (comp s) files /\ same_tables (out s) d /\
    (forall i, (1 <= i <= nw)%nat -> down s i = [] /\ up s i = [])).
Proof.
  intros Hnw Hok.
  destruct (mw_all (processTrack locations load) insertTracks files nw d0) as (rs & F & S & A).
  - intros f Hf. unfold processTrack. specialize (Hok f Hf). destruct (load f); congruence.
  - exact Hnw.
  - eexists. split; [exact S|]. destruct A as [A1 A2]. split; [exact A1|]. intros s H1 H2.
    destruct (A2 s H1 H2) as (B1 & B2 & (h & B3 & ->) & B4).
    split; [exact B1|]. split; [exact B2|]. split; [|exact B4].
    destruct (fold_tracks h d0) as (T1 & T2 & T3 & T4 & T5).
    destruct (fold_tracks rs d0) as (U1 & U2 & U3 & U4 & U5).
    unfold same_tables. rewrite T1, T2, T3, T4, T5, U1, U2, U3, U4, U5.
    split; [|auto]. apply Permutation_app_head.
    rewrite <- (map_id h), <- (map_id rs), <- !flat_map_concat_map. now apply Permutation_flat_map.
Qed.

(** ** Files that are not gust files *)
Lemma serial_fails {T R S} (calc : T -> option R) (store : S -> R -> S) ts : forall s0 t,
  In t ts -> calc t = None -> serial calc store s0 ts = None.
Proof.
  induction ts as [|x ts IH]; intros s0 t H E; [destruct H|]. destruct H as [->|H]; cbn.
  - now rewrite E.
  - destruct (calc x); [eauto|reflexivity].
Qed.
Lemma in_work files f : In f files -> exists w, In (w, f) (work files).
Proof.
  intros H. apply In_nth_error in H as (w & Hw). apply nth_work in Hw.
  exists w. eapply nth_error_In; eauto.
Qed.
Lemma c65_l read locations files f d0 nw : In f files -> event_id f = None -> (1 <= nw)%nat ->
  processEvents read locations files d0 = None /\
  always_ends_in (init nw d0) (step (processEvent read locations) storeEvent (work files) nw) (fun s =>
    pc s = MLoop /\ (term s < pn s)%nat /\ (forall i, (1 <= i <= nw)%nat -> up s i = [])).
Proof.
  intros Hf He Hnw. destruct (in_work files f Hf) as (w & Hw).
  assert (E : processEvent read locations (w, f) = None) by (cbn; now rewrite He).
  split; [eapply serial_fails; eauto|].
  destruct (failure_hangs _ _ _ (processEvent read locations) storeEvent (work files) nw d0 (w, f) Hw E Hnw) as [A B].
  split; [exact A|]. intros s H1 H2. destruct (B s H1 H2) as (C1 & C2 & C3 & _). auto.
Qed.

(** ** Running again *)
Lemma fold_store_again rs : forall d,
  (forall r, In r rs -> exists e, In e (events d) /\ e_num e = e_num (fst r)) ->
  let d' := fold_left storeEvent rs d in
  events d' = events d /\ winds d' = winds d ++ concat (map snd rs).
Proof.
  induction rs as [|[e ws] rs IH]; intros d H; cbn [fold_left map concat].
  - now rewrite app_nil_r.
  - assert (E : existsb (fun x => e_num x =? e_num e) (events d) = true).
    { destruct (H (e, ws) (or_introl eq_refl)) as (x & Hx & Ex). apply existsb_exists. exists x.
      split; [exact Hx|]. now apply Nat.eqb_eq. }
    destruct (IH (storeEvent d (e, ws))) as (A & B).
    { unfold storeEvent, insertEvents. cbn [fst snd]. rewrite E. cbn. intros r Hr. apply H. now right. }
    rewrite A, B. unfold storeEvent, insertEvents. cbn [fst snd]. rewrite E. cbn.
    now rewrite <- app_assoc.
Qed.
Lemma c66_l read locations files d0 d1 : events d0 = [] ->
  processEvents read locations files d0 = Some d1 ->
  exists added d2, winds d1 = winds d0 ++ added /\
    length added = (length files * length locations)%nat /\
    processEvents read locations files d1 = Some d2 /\
    events d2 = events d1 /\ winds d2 = winds d1 ++ added.
Proof.
  intros E0 H.
  assert (Hall : forall t, In t (work files) -> exists r, processEvent read locations t = Some r).
  { intros t Ht. destruct (processEvent read locations t) eqn:E; [eauto|].
    unfold processEvents in H. rewrite (serial_fails _ _ _ _ _ Ht E) in H. discriminate. }
  destruct (results_of _ _ Hall) as (rs & _ & F).
  unfold processEvents in *. rewrite (serial_fold _ _ _ _ _ F) in H. injection H as <-.
  destruct (fold_store_events rs d0 (work_nodup read locations files rs rs d0 F (Permutation_refl _) E0))
    as (A & B & _).
  exists (concat (map snd rs)), (fold_left storeEvent rs (fold_left storeEvent rs d0)).
  split; [exact B|]. split.
  - rewrite <- work_length. clear -F. induction F as [|t r ts rs H _ IH]; [reflexivity|].
    cbn. rewrite app_length, IH. apply pe_num in H as (_ & _ & _ & i & a & _ & _ & ->).
    rewrite map_length. lia.
  - split; [now rewrite (serial_fold _ _ _ _ _ F)|].
    destruct (fold_store_again rs (fold_left storeEvent rs d0)) as (C & D); [|auto].
    intros r Hr. exists (fst r). split; [|reflexivity]. rewrite A. apply in_app_iff. right. now apply in_map.
Qed.

(** ** Queries *)
Lemma evid_eqb_iff a b : evid_eqb a b = true <-> a = b.
Proof.
  destruct a as [a1 a2], b as [b1 b2]. unfold evid_eqb. cbn.
  rewrite andb_true_iff, !Nat.eqb_eq. intuition congruence.
Qed.
Lemma qgt_iff a b : qgt a b = true <-> (b < a)%Q.
Proof.
  unfold qgt. destruct (Qle_bool a b) eqn:E; cbn.
  - apply Qle_bool_iff in E. split; [discriminate|]. intros H. exfalso. eapply Qlt_not_le; eauto.
  - split; [|reflexivity]. intros _. apply Qnot_le_lt. intros C. apply Qle_bool_iff in C. congruence.
Qed.
Lemma in_if {A} (c : bool) (x y : A) : In x (if c then [y] else []) <-> c = true /\ x = y.
Proof. destruct c; cbn; intuition congruence. Qed.
Lemma in_if' {A} (c : bool) (x : A) l : In x (if c then l else []) <-> c = true /\ In x l.
Proof. destruct c; cbn; intuition congruence. Qed.
Lemma exceeding_l d loc speed r :
  In r (locationRecordsExceeding d loc speed) <->
  In loc (locs d) /\ exists w, In w (winds d) /\ w_loc w = loc /\ (speed < w_wspd w)%Q /\
    r = (loc, w_wspd w, w_id w).
Proof.
  unfold locationRecordsExceeding. rewrite in_flat_map. split.
  - intros (l & Hl & H). apply in_flat_map in H as (w & Hw & H). apply in_if in H as [H ->].
    rewrite !andb_true_iff, !Nat.eqb_eq, qgt_iff in H. destruct H as [[H1 H] H2]. subst l.
    split; [congruence|]. exists w. rewrite H2. auto.
  - intros (Hl & w & Hw & <- & Hs & ->). exists (w_loc w). split; [exact Hl|].
    apply in_flat_map. exists w. split; [exact Hw|]. apply in_if. split; [|reflexivity].
    rewrite !andb_true_iff, !Nat.eqb_eq, qgt_iff. auto.
Qed.
Lemma passage_wind_l d loc speed dist r :
  In r (locationPassageWindSpeed d loc speed dist) <->
  In loc (locs d) /\ exists w e t, In w (winds d) /\ In e (events d) /\ In t (tracks d) /\
    w_loc w = loc /\ t_loc t = loc /\ e_id e = w_id w /\ t_id t = w_id w /\
    (speed < w_wspd w)%Q /\ (t_dist t <= dist)%Q /\ r = (w_wspd w, w_id w, t_dist t).
Proof.
  unfold locationPassageWindSpeed. rewrite in_flat_map. split.
  - intros (l & Hl & H). apply in_flat_map in H as (w & Hw & H). apply in_if' in H as [H0 H].
    apply in_flat_map in H as (e & He & H). apply in_if' in H as [H1 H].
    apply in_flat_map in H as (t & Ht & H). apply in_if' in H as [H2 H].
    apply in_if in H as [H ->].
    rewrite !andb_true_iff, ?Nat.eqb_eq, ?qgt_iff, ?evid_eqb_iff, ?Qle_bool_iff in *.
    destruct H2 as [H2 H2'], H as [[H3 H] H']. subst l.
    split; [congruence|]. exists w, e, t. do 7 (split; [solve [assumption|congruence]|]). auto.
  - intros (Hl & w & e & t & Hw & He & Ht & E1 & E2 & E3 & E4 & Hs & Hd & ->).
    exists loc. split; [exact Hl|]. apply in_flat_map. exists w. split; [exact Hw|].
    apply in_if'. split; [now apply Nat.eqb_eq|].
    apply in_flat_map. exists e. split; [exact He|]. apply in_if'. split; [now apply evid_eqb_iff|].
    apply in_flat_map. exists t. split; [exact Ht|]. apply in_if'. split.
    { apply andb_true_iff. rewrite Nat.eqb_eq, evid_eqb_iff. split; congruence. }
    apply in_if. split; [|reflexivity].
    rewrite !andb_true_iff, Nat.eqb_eq, qgt_iff, Qle_bool_iff. auto.
Qed.
Lemma passage_all_l d loc dist w t e : In loc (locs d) -> In t (tracks d) -> In w (winds d) -> In e (events d) ->
  t_loc t = loc -> (t_dist t < dist)%Q -> w_id w = t_id t -> e_id e = t_id t ->
  In (loc, t_id t, t_dist t, w_wspd w, e_file e) (locationPassage d loc dist).
Proof.
  intros Hl Ht Hw He E1 Hd E2 E3. unfold locationPassage.
  apply in_flat_map. exists loc. split; [exact Hl|].
  apply in_flat_map. exists t. split; [exact Ht|]. apply in_if'. split; [now apply Nat.eqb_eq|].
  apply in_flat_map. exists w. split; [exact Hw|]. apply in_if'. split; [now apply evid_eqb_iff|].
  apply in_flat_map. exists e. split; [exact He|]. apply in_if'. split; [now apply evid_eqb_iff|].
  apply in_if. split; [|reflexivity]. rewrite andb_true_iff, Nat.eqb_eq, qgt_iff. auto.
Qed.
