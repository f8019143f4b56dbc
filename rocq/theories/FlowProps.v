(** What is proved about the files passed between the parts of a run (C164, C165). *)
From Coq Require Import List Arith Bool String Lia.
From Verif Require Import FlowModel.
Import ListNotations.
Open Scope nat_scope.

(** * The store *)
Lemma file_eqb_iff : forall a b, file_eqb a b = true <-> a = b.
Proof.
  intros [x | i | k i |] [y | j | l j |]; cbn [file_eqb]; try (split; [discriminate | intros H; inversion H]); try tauto.
  - rewrite String.eqb_eq. split; [intros -> | intros [= ->]]; reflexivity.
  - rewrite Nat.eqb_eq. split; [intros -> | intros [= ->]]; reflexivity.
  - rewrite andb_true_iff, !Nat.eqb_eq. split; [intros [-> ->] | intros [= -> ->]]; auto.
Qed.
Lemma file_eqb_refl : forall a, file_eqb a a = true.
Proof. intros a. apply file_eqb_iff. reflexivity. Qed.
Lemma file_eqb_neq : forall a b, a <> b -> file_eqb a b = false.
Proof. intros a b H. destruct (file_eqb a b) eqn:E; auto. apply file_eqb_iff in E. congruence. Qed.

Lemma get_same : forall s f v, get (put s f v) f = Some v.
Proof. intros s f v. cbn. rewrite file_eqb_refl. reflexivity. Qed.
Lemma get_other : forall s f g v, g <> f -> get (put s f v) g = get s g.
Proof.
  intros s f g v N. unfold put. cbn [get]. rewrite (file_eqb_neq g f N).
  induction s as [| [h w] s IH]; [reflexivity |].
  cbn [filter fst]. destruct (file_eqb f h) eqn:E; cbn [negb].
  - rewrite IH. cbn [get]. apply file_eqb_iff in E. subst h. rewrite (file_eqb_neq g f N). reflexivity.
  - cbn [get]. rewrite IH. reflexivity.
Qed.
Lemma get_in : forall s f v, get s f = Some v -> In (f, v) s.
Proof.
  induction s as [| [g w] s IH]; intros f v H; [discriminate |].
  cbn [get] in H. destruct (file_eqb f g) eqn:E.
  - apply file_eqb_iff in E. injection H as ->. subst. left. reflexivity.
  - right. apply IH, H.
Qed.
Lemma put_in : forall s f v gw, In gw (put s f v) -> gw = (f, v) \/ In gw s.
Proof. intros s f v gw [H | H]; [left; auto | right]. apply filter_In in H. tauto. Qed.
Lemma put_present : forall s f v g, get s g <> None -> get (put s f v) g <> None.
Proof.
  intros s f v g H. destruct (file_eqb g f) eqn:E.
  - apply file_eqb_iff in E. subst. rewrite get_same. discriminate.
  - rewrite get_other; auto. intros ->. rewrite file_eqb_refl in E. discriminate.
Qed.

Lemma in_join : forall a b x, In x (join a b) <-> In x a \/ In x b.
Proof. intros a b x. unfold join. rewrite nodup_In. apply in_app_iff. Qed.
Lemma Forall_join : forall (good : nat -> Prop) a b, Forall good a -> Forall good b -> Forall good (join a b).
Proof.
  intros good a b A B. rewrite Forall_forall in *. intros x H. apply in_join in H. destruct H; auto.
Qed.

(** * Reading and writing *)
Definition mem (n : string) (l : list string) : bool := existsb (String.eqb n) l.
Lemma mem_in : forall n l, mem n l = true <-> In n l.
Proof.
  intros n l. unfold mem. rewrite existsb_exists. split.
  - intros [x [H E]]. apply String.eqb_eq in E. subst. auto.
  - intros H. exists n. split; auto. apply String.eqb_refl.
Qed.
(** A check of a list of operations: everything read is known to be there. *)
Fixpoint check (strict : bool) (kn ab : list string) (ops : list op) : option (list string) :=
  match ops with
  | [] => Some kn
  | Rd n :: r => if mem n kn then check strict kn ab r else None
  | RdCdf n :: r => if mem (n ++ ".nc") kn then check strict kn ab r else None
  | RdOpt n :: r =>
      if negb strict || mem (n ++ ".nc") kn || (mem n ab && mem (n ++ ".nc") ab) then check strict kn ab r else None
  | Wr n :: r => check strict (n :: kn) (filter (fun m => negb (String.eqb n m)) ab) r
  | Fail :: _ => None
  end.
Definition known (good : nat -> Prop) (s : store) (kn ab : list string) : Prop :=
  (forall n, In n kn -> exists v, get s (P n) = Some v /\ Forall good (prov v)) /\
  (forall n, In n ab -> get s (P n) = None).

Lemma exec_check : forall (good : nat -> Prop) strict ops kn ab acc s kn',
  (strict = false -> forall t, good t) -> check strict kn ab ops = Some kn' ->
  known good s kn ab -> Forall good acc ->
  exists s' acc', exec ops acc s = (s', acc', true) /\ known good s' kn' [] /\ Forall good acc' /\
    (forall n, In n kn -> In n kn').
Proof.
  intros good strict. induction ops as [| o ops IH]; intros kn ab acc s kn' G C [K A] F.
  - injection C as <-. exists s, acc. repeat split; auto. intros n [].
  - destruct o as [n | n | n | n |]; cbn [check] in C.
    + destruct (mem n kn) eqn:M; [| discriminate]. apply mem_in in M. destruct (K n M) as [v [V PV]].
      cbn [exec]. rewrite V. apply (IH kn ab); auto; [split; auto | apply Forall_join; auto].
    + destruct (mem _ kn) eqn:M; [| discriminate]. apply mem_in in M. destruct (K _ M) as [v [V PV]].
      cbn [exec]. rewrite V. apply (IH kn ab); auto; [split; auto | apply Forall_join; auto].
    + destruct (negb strict || _ || _) eqn:M; [| discriminate]. cbn [exec].
      assert (E : (forall t, good t) \/ In (n ++ ".nc")%string kn \/ (In n ab /\ In (n ++ ".nc")%string ab)).
      { apply orb_true_iff in M. destruct M as [M | M].
        - apply orb_true_iff in M. destruct M as [M | M].
          + left. apply G. destruct strict; [discriminate | reflexivity].
          + right. left. apply mem_in, M.
        - right. right. apply andb_true_iff in M. split; apply mem_in; tauto. }
      destruct E as [E | [E | [E1 E2]]].
      * assert (FF : forall l, Forall good l) by (intros l; apply Forall_forall; auto).
        destruct (get s (P (n ++ ".nc"))) as [v |]; [apply (IH kn ab); auto; split; auto |].
        destruct (get s (P n)) as [v |]; apply (IH kn ab); auto; split; auto.
      * destruct (K _ E) as [v [V PV]]. rewrite V. apply (IH kn ab); auto; [split; auto | apply Forall_join; auto].
      * rewrite (A _ E2), (A _ E1). apply (IH kn ab); auto. split; auto.
    + cbn [exec].
      destruct (IH _ _ acc (put s (P n) {| prov := acc; size := 0 |}) kn' G C) as [s' [acc' [X [Y [Z W]]]]]; auto.
      { split.
        - intros m Hm. destruct (string_dec n m) as [-> | N].
          + exists {| prov := acc; size := 0 |}. rewrite get_same. auto.
          + destruct Hm as [Hm | Hm]; [congruence |]. rewrite get_other by congruence. auto.
        - intros m Hm. apply filter_In in Hm. destruct Hm as [Hm N].
          rewrite get_other; auto. intros [= ->]. rewrite String.eqb_refl in N. discriminate. }
      exists s', acc'. repeat split; auto; try apply Y. intros m Hm. apply W. right. auto.
    + discriminate.
Qed.

Lemma exec_tag : forall ops acc s x, In x acc -> In x (snd (fst (exec ops acc s))).
Proof.
  induction ops as [| o ops IH]; intros acc s x H; [exact H |].
  destruct o as [n | n | n | n |]; cbn [exec]; auto.
  - destruct (get s (P n)); auto. apply IH, in_join. auto.
  - destruct (get s (P (n ++ ".nc"))); [apply IH, in_join; auto |].
    destruct (get s (P n)); auto. apply IH, in_join. auto.
  - destruct (get s (P (n ++ ".nc"))); [apply IH, in_join; auto |].
    destruct (get s (P n)); auto. apply IH, in_join. auto.
Qed.

(** A property of the store kept by every writing of a process file. *)
Lemma exec_keeps : forall (Q : store -> Prop), (forall s n v, Q s -> Q (put s (P n) v)) ->
  forall ops acc s, Q s -> Q (fst (fst (exec ops acc s))).
Proof.
  intros Q HQ. induction ops as [| o ops IH]; intros acc s H; [exact H |].
  destruct o as [n | n | n | n |]; cbn [exec]; auto.
  - destruct (get s (P n)); auto.
  - destruct (get s (P (n ++ ".nc"))); auto. destruct (get s (P n)); auto.
  - destruct (get s (P (n ++ ".nc"))); auto. destruct (get s (P n)); auto.
Qed.

Lemma fold_keeps : forall (A B : Type) (Q : A -> Prop) (f : A -> B -> A) (l : list B),
  (forall a b, In b l -> Q a -> Q (f a b)) -> forall a, Q a -> Q (fold_left f l a).
Proof.
  intros A B Q f. induction l as [| b l IH]; intros H a Ha; [exact Ha |].
  cbn [fold_left]. apply IH; [intros; apply H; auto; right; auto | apply H; auto; left; auto].
Qed.

Lemma gust_present : forall tag v i s k g, get s g <> None -> get (gust tag v i s k) g <> None.
Proof. intros. unfold gust. destruct (get s (Gst k i)); auto. apply put_present; auto. Qed.
Lemma gusts_present : forall tag s fv g, get s g <> None -> get (windTrackFile tag s fv) g <> None.
Proof.
  intros tag s [f v] g H. unfold windTrackFile. cbn [fst snd]. destruct f; auto.
  apply (fold_keeps _ _ (fun s => get s g <> None)); auto. intros. apply gust_present; auto.
Qed.
Lemma wind_present : forall tag s g, get s g <> None -> get (windfields tag s) g <> None.
Proof.
  intros tag s g H. unfold windfields. apply (fold_keeps _ _ (fun s => get s g <> None)); auto.
  intros. apply gusts_present; auto.
Qed.
Lemma tracks_present : forall acc tcs l s g, get s g <> None -> get (saveTracks acc tcs l s) g <> None.
Proof.
  intros acc tcs l s g H. unfold saveTracks. apply (fold_keeps _ _ (fun s => get s g <> None)); auto.
  intros. apply put_present; auto.
Qed.

Lemma act_present : forall tag c tcs a s g, get s g <> None -> get (fst (act tag c tcs a s)) g <> None.
Proof.
  intros tag c tcs a s g H.
  assert (E : forall ops acc, get (fst (fst (exec ops acc s))) g <> None).
  { intros. apply (exec_keeps (fun s => get s g <> None)); auto. intros. apply put_present; auto. }
  destruct a; cbn [act].
  - specialize (E (dataProcess c) [tag]). destruct (exec _ _ s) as [[s' acc] ok]. exact E.
  - specialize (E (statistics c) [tag]). destruct (exec _ _ s) as [[s' acc] ok]. exact E.
  - specialize (E (trackSetup c) [tag]). destruct (exec _ _ s) as [[s' acc] ok]. cbn [fst] in *.
    destruct ok; auto. cbn [fst]. apply tracks_present, E.
  - apply wind_present, H.
  - unfold hazard. destruct (existsb isGust s); auto. cbn [fst]. apply put_present, H.
  - specialize (E dataPlots [tag]). destruct (exec _ _ s) as [[s' acc] ok]. exact E.
  - exact H.
Qed.
Lemma acts_present : forall tag c tcs l s g, get s g <> None -> get (fst (acts tag c tcs l s)) g <> None.
Proof.
  intros tag c tcs. induction l as [| a l IH]; intros s g H; [exact H |].
  cbn [acts]. pose proof (act_present tag c tcs a s g H) as Q.
  destruct (act tag c tcs a s) as [s' ok]. cbn [fst] in Q. destruct ok; auto.
Qed.

(** A run deletes nothing. *)
Theorem c164_keeps : forall tag c tcs wanted s f,
  get s f <> None -> get (fst (main tag c tcs wanted s)) f <> None.
Proof. intros. apply acts_present. auto. Qed.
Print Assumptions c164_keeps.

(** * What is needed *)
(** Settings and input with which the processing of the input files works. *)
Definition usable (c : cfg) : Prop := fmt c = Txt /\ hasAge c = false.

Definition basics : list string :=
  ["jdays"; "jday_obs"; "jday_genesis"; "wind_speed"; "pressure_rate"; "pressure_no_init"; "init_pressure"; "all_pressure";
   "speed_rate"; "speed_no_init"; "init_speed"; "all_speed"; "bearing_rate"; "bearing_no_init"; "init_bearing";
   "all_bearing"; "cyclone_tracks"; "all_lon_lat"; "init_lon_lat"; "origin_lon_lat"; "origin_year"]%string.
Definition products : list string :=
  ["bearing_rate_stats.nc"; "bearing_stats.nc"; "pressure_rate_stats.nc"; "pressure_stats.nc"; "speed_rate_stats.nc";
   "speed_stats.nc"; "all_cell_cdf_init_pressure.nc"; "all_cell_cdf_init_pressure"; "all_cell_cdf_init_speed.nc";
   "all_cell_cdf_init_speed"; "all_cell_cdf_init_bearing.nc"; "all_cell_cdf_init_bearing"; "originPDF.nc";
   "all_cell_cdf_init_day.nc"; "all_cell_cdf_init_day"]%string.
Definition sizes : list string := ["all_cell_cdf_init_rmax"; "all_cell_cdf_init_rmax.nc"]%string.

Definition covers (o : option (list string)) (need : list string) : bool :=
  match o with Some k => forallb (fun n => mem n k) need | None => false end.
Lemma covers_spec : forall o need, covers o need = true -> exists k, o = Some k /\ forall n, In n need -> In n k.
Proof.
  intros [k |] need H; [| discriminate]. exists k. split; auto. intros n Hn.
  cbn [covers] in H. rewrite forallb_forall in H. apply mem_in, H, Hn.
Qed.
Lemma known_sub : forall good s k k' ab, (forall n, In n k' -> In n k) -> known good s k ab -> known good s k' ab.
Proof. intros good s k k' ab H [K A]. split; auto. Qed.

Lemma stage : forall (good : nat -> Prop) strict kn ab need ops,
  covers (check strict kn ab ops) need = true -> (strict = false -> forall t, good t) ->
  forall tag s, good tag -> known good s kn ab ->
  exists s' acc, exec ops [tag] s = (s', acc, true) /\ known good s' need [] /\ Forall good acc /\ In tag acc.
Proof.
  intros good strict kn ab need ops H G tag s T K. apply covers_spec in H. destruct H as [k [H N]].
  destruct (exec_check good strict ops kn ab [tag] s k G H K) as [s' [acc [E [K' [F _]]]]]; auto.
  exists s', acc. repeat split; auto; try (apply (known_sub good s' k need []); auto).
  assert (I : In tag (snd (fst (exec ops [tag] s)))) by (apply exec_tag; left; auto).
  rewrite E in I. exact I.
Qed.

Definition extraDP (c : cfg) : list string :=
  (if hasRmax c then ["init_rmax"%string] else []) ++ (if oneYear c then [] else ["frequency"%string]).
Lemma dataProcess_ok : forall c, usable c -> covers (check true [] [] (dataProcess c)) (basics ++ extraDP c) = true.
Proof.
  intros [f a r o w l q n] [F A]. cbn in F, A. subst.
  destruct r, o; vm_compute; reflexivity.
Qed.
Lemma dataProcess_sizes : forall c, usable c ->
  covers (check false [] [] (dataProcess c)) (basics ++ extraDP c) = true.
Proof.
  intros [f a r o w l q n] [F A]. cbn in F, A. subst.
  destruct r, o; vm_compute; reflexivity.
Qed.

Lemma tracks_get : forall acc tcs n s i, i < n ->
  get (saveTracks acc tcs (seq 0 n) s) (Trk i) = Some {| prov := acc; size := tcs i |}.
Proof.
  intros acc tcs n s i H. unfold saveTracks. induction n as [| n IH]; [lia |].
  rewrite seq_S, fold_left_app. cbn [fold_left]. cbn [Nat.add].
  destruct (Nat.eq_dec i n) as [-> | N].
  - apply get_same.
  - rewrite get_other by congruence. apply IH. lia.
Qed.
Lemma tracks_in : forall acc tcs l s f v, In (f, v) (saveTracks acc tcs l s) ->
  In (f, v) s \/ exists i, In i l /\ f = Trk i /\ prov v = acc.
Proof.
  intros acc tcs. unfold saveTracks. induction l as [| i l IH]; intros s f v H; [left; auto |].
  cbn [fold_left] in H. apply IH in H. destruct H as [H | [j [J [E F]]]].
  - apply put_in in H. destruct H as [[= -> ->] | H]; auto. right. exists i. repeat split; auto. left. auto.
  - right. exists j. repeat split; auto. right. auto.
Qed.
Lemma tracks_other : forall acc tcs l s f, (forall i, f <> Trk i) -> get (saveTracks acc tcs l s) f = get s f.
Proof.
  intros acc tcs. unfold saveTracks. induction l as [| i l IH]; intros s f H; [auto |].
  cbn [fold_left]. rewrite IH; auto. apply get_other. auto.
Qed.

(** Wind fields: a gust file for every track of every track file. *)
Lemma gusts_made : forall tag v i n s k, k < n -> get (fold_left (gust tag v i) (seq 0 n) s) (Gst k i) <> None.
Proof.
  intros tag v i n s k H. induction n as [| n IH]; [lia |].
  rewrite seq_S, fold_left_app. cbn [fold_left]. cbn [Nat.add].
  destruct (Nat.eq_dec k n) as [-> | N].
  - unfold gust at 1. destruct (get (fold_left _ _ s) (Gst n i)) eqn:E; [rewrite E; discriminate |].
    rewrite get_same. discriminate.
  - apply gust_present, IH. lia.
Qed.
Theorem c164_winds : forall tag s i v k,
  In (Trk i, v) s -> k < size v -> get (windfields tag s) (Gst k i) <> None.
Proof.
  intros tag s i v k H L. unfold windfields. generalize s at 2. revert H.
  induction s as [| fv r IH]; intros H s0; [destruct H |].
  cbn [fold_left]. destruct H as [-> | H].
  - apply (fold_keeps _ _ (fun s => get s (Gst k i) <> None)).
    + intros. apply gusts_present; auto.
    + unfold windTrackFile. cbn [fst snd]. apply gusts_made, L.
  - apply IH, H.
Qed.
Print Assumptions c164_winds.

Lemma gusts_in : forall tag v i l s f w, In (f, w) (fold_left (gust tag v i) l s) ->
  In (f, w) s \/ exists k, f = Gst k i /\ prov w = join [tag] (prov v).
Proof.
  intros tag v i. induction l as [| k l IH]; intros s f w H; [left; auto |].
  cbn [fold_left] in H. apply IH in H. destruct H as [H | H]; auto.
  unfold gust in H. destruct (get s (Gst k i)); auto. apply put_in in H. destruct H as [[= -> ->] | H]; auto.
  right. exists k. auto.
Qed.
Lemma wind_in : forall tag s f w, In (f, w) (windfields tag s) ->
  In (f, w) s \/ exists k i v, f = Gst k i /\ In (Trk i, v) s /\ prov w = join [tag] (prov v).
Proof.
  intros tag s f w. unfold windfields.
  enough (G : forall l s0, In (f, w) (fold_left (windTrackFile tag) l s0) ->
    In (f, w) s0 \/ exists k i v, f = Gst k i /\ In (Trk i, v) l /\ prov w = join [tag] (prov v)) by apply G.
  induction l as [| [g u] l IH]; intros s0 H; [left; auto |].
  cbn [fold_left] in H. apply IH in H. destruct H as [H | [k [i [v [E [I F]]]]]].
  - unfold windTrackFile in H. cbn [fst snd] in H. destruct g; auto.
    apply gusts_in in H. destruct H as [H | [k [E F]]]; auto.
    right. exists k, sim, u. repeat split; auto. left. auto.
  - right. exists k, i, v. repeat split; auto. right. auto.
Qed.

Lemma gust_exists : forall s k i, get s (Gst k i) <> None -> existsb isGust s = true.
Proof.
  intros s k i H. destruct (get s (Gst k i)) as [v |] eqn:E; [| congruence].
  apply existsb_exists. exists (Gst k i, v). split; [apply get_in, E | reflexivity].
Qed.

(** * A complete run *)
Definition anything (t : nat) : Prop := True.
Lemma get_present : forall s f v, get s f = Some v -> get s f <> None.
Proof. intros s f v ->. discriminate. Qed.
Lemma known_present : forall good s kn ab n, known good s kn ab -> In n kn -> get s (P n) <> None.
Proof. intros good s kn ab n [K _] H. destruct (K n H) as [v [V _]]. congruence. Qed.
Lemma present_known : forall s kn, (forall n, In n kn -> get s (P n) <> None) -> known anything s kn [].
Proof.
  intros s kn H. split; [| intros n []]. intros n Hn. specialize (H n Hn).
  destruct (get s (P n)) as [v |]; [| congruence]. exists v. split; auto. apply Forall_forall. intros; exact I.
Qed.

Definition everything (rm : bool) : list string :=
  (basics ++ ["frequency"%string] ++ products ++ (if rm then ["init_rmax"%string] else []))%list.
Definition ready (rm : bool) (s : store) : Prop :=
  (forall n, In n (everything rm) -> get s (P n) <> None) /\ (exists k i, get s (Gst k i) <> None) /\ get s Haz <> None.

Lemma statistics_ok : forall c kn, (kn = basics ++ extraDP c)%list \/ (kn = everything (hasRmax c)) ->
  (rmwFromInput c = true -> hasRmax c = true) ->
  covers (check false kn [] (statistics c)) (kn ++ products)%list = true.
Proof.
  intros [f a r o w l q n] kn [-> | ->] H; cbn in H; destruct r, o, w; try (discriminate (H eq_refl)); vm_compute; reflexivity.
Qed.
Lemma setup_ok : forall c kn, (kn = (basics ++ extraDP c) ++ products)%list \/ (exists rm, kn = everything rm) ->
  covers (check false kn [] (trackSetup c)) kn = true.
Proof.
  intros [f a r o w l q n] kn [-> | [rm ->]]; [destruct r, o, l, q | destruct rm, l, q]; vm_compute; reflexivity.
Qed.
Lemma plots_ok : forall rm, covers (check false (everything rm) [] dataPlots) (everything rm) = true.
Proof. intros []; vm_compute; reflexivity. Qed.

Lemma anything_all : false = false -> forall t, anything t.
Proof. intros _ t. exact I. Qed.

(** With usable settings and at least one cyclone, a run of all parts works in any output directory, whatever is in
    it, and the hazard is computed by this run. *)
Theorem c164_complete : forall tag c tcs s i,
  usable c -> (rmwFromInput c = true -> hasRmax c = true) -> oneYear c = false -> i < nsim c -> 0 < tcs i ->
  exists s' v, main tag c tcs (fun _ => true) s = (s', true) /\ get s' Haz = Some v /\ In tag (prov v) /\
    ready (hasRmax c) s' /\ (forall j, j < nsim c -> exists w, get s' (Trk j) = Some w /\ size w = tcs j).
Proof.
  intros tag c tcs s i U RM OY Hi Ht. unfold main, order. cbn [filter].
  destruct (stage anything false [] [] _ _ (dataProcess_sizes c U) anything_all tag s I) as [s1 [a1 [E1 [K1 _]]]].
  { split; intros n []. }
  destruct (stage anything false _ [] _ _ (statistics_ok c _ (or_introl eq_refl) RM) anything_all tag s1 I K1)
    as [s2 [a2 [E2 [K2 _]]]].
  destruct (stage anything false _ [] _ _ (setup_ok c _ (or_introl eq_refl)) anything_all tag s2 I K2)
    as [s3 [a3 [E3 [K3 _]]]].
  cbn [acts act]. rewrite E1, E2, E3.
  set (s4 := saveTracks a3 tcs (seq 0 (nsim c)) s3). set (s5 := windfields tag s4).
  assert (G : get s5 (Gst 0 i) <> None).
  { apply c164_winds with (v := {| prov := a3; size := tcs i |}); auto. apply get_in, tracks_get, Hi. }
  unfold hazard at 1. rewrite (gust_exists _ _ _ G).
  set (v := {| prov := _; size := 0 |}). set (s6 := put s5 Haz v).
  assert (Pr : forall n, In n (everything (hasRmax c)) -> get s6 (P n) <> None).
  { intros n Hn. unfold s6. apply put_present. unfold s5. apply wind_present. unfold s4. apply tracks_present.
    apply (known_present _ _ _ _ _ K3). unfold everything in Hn. unfold extraDP. rewrite OY.
    rewrite !in_app_iff in *. tauto. }
  destruct (stage anything false _ [] _ _ (plots_ok (hasRmax c)) anything_all tag s6 I (present_known _ _ Pr))
    as [s7 [a7 [E7 [K7 _]]]].
  rewrite E7.
  assert (Same : forall f, (forall n, f <> P n) -> get s7 f = get s6 f).
  { intros f Hf. assert (Q : get (fst (fst (exec dataPlots [tag] s6))) f = get s6 f).
    { apply (exec_keeps (fun x => get x f = get s6 f)); auto. intros x n w <-. apply get_other, Hf. }
    rewrite E7 in Q. exact Q. }
  assert (HH : get s7 Haz = Some v) by (rewrite Same by discriminate; apply get_same).
  rewrite HH. exists s7, v. repeat split; auto.
  - apply in_join. left. left. auto.
  - intros n Hn. apply (known_present _ _ _ _ _ K7 Hn).
  - exists 0, i. rewrite Same by discriminate. unfold s6. apply put_present, G.
  - congruence.
  - intros j Hj. exists {| prov := a3; size := tcs j |}. split; auto.
    rewrite Same by discriminate. unfold s6. rewrite get_other by discriminate.
    assert (W : get s5 (Trk j) = get s4 (Trk j)).
    { unfold s5, windfields. generalize s4 at 1. intros l.
      apply (fold_keeps _ _ (fun x => get x (Trk j) = get s4 (Trk j)) (windTrackFile tag) l); auto.
      intros x [f w] _ <-. unfold windTrackFile. cbn [fst snd]. destruct f; auto.
      match goal with |- get (fold_left ?g ?l x) _ = _ =>
        apply (fold_keeps _ _ (fun y => get y (Trk j) = get x (Trk j)) g l) end; auto.
      intros y k _ <-. unfold gust. destruct (get y (Gst k sim)); auto. apply get_other. discriminate. }
    rewrite W. apply tracks_get, Hj.
Qed.
Print Assumptions c164_complete.

Definition example_cfg : cfg :=
  {| fmt := Txt; hasAge := false; hasRmax := true; oneYear := false; rmwFromInput := true; limitGiven := false;
     freqGiven := false; nsim := 2 |}.
Example c164_complete_example :
  usable example_cfg /\ snd (main 1 example_cfg (fun _ => 1) (fun _ => true) []) = true.
Proof. split; [split; reflexivity | vm_compute; reflexivity]. Qed.

(** * Parts of a run *)
Lemma act_ready : forall tag c tcs a s rm,
  ready rm s -> (a = DataProcess -> usable c) -> (a = ExecuteStat -> rmwFromInput c = true -> rm = true) ->
  snd (act tag c tcs a s) = true /\ ready rm (fst (act tag c tcs a s)).
Proof.
  intros tag c tcs a s rm R U RM.
  assert (K : ready rm (fst (act tag c tcs a s))).
  { destruct R as [R1 [[k [i R2]] R3]]. repeat split.
    - intros n Hn. apply act_present. auto.
    - exists k, i. apply act_present. auto.
    - apply act_present. auto. }
  split; auto. clear K. destruct R as [R1 [[k [i R2]] R3]].
  pose proof (present_known s _ R1) as KN.
  destruct a; cbn [act]; auto.
  - destruct (stage anything false [] [] _ _ (dataProcess_sizes c (U eq_refl)) anything_all tag s I) as [s1 [a1 [E1 _]]].
    { split; intros n []. }
    rewrite E1. reflexivity.
  - assert (C : covers (check false (everything rm) [] (statistics c)) (everything rm) = true).
    { specialize (RM eq_refl). destruct c as [f a r o w l q n]. cbn in RM. destruct w.
      - rewrite (RM eq_refl). vm_compute. reflexivity.
      - destruct rm; vm_compute; reflexivity. }
    destruct (stage anything false _ [] _ _ C anything_all tag s I KN) as [s1 [a1 [E1 _]]]. rewrite E1. reflexivity.
  - destruct (stage anything false _ [] _ _ (setup_ok c _ (or_intror (ex_intro _ rm eq_refl))) anything_all tag s I KN)
      as [s1 [a1 [E1 _]]]. rewrite E1. reflexivity.
  - unfold hazard. rewrite (gust_exists _ _ _ R2). reflexivity.
  - destruct (stage anything false _ [] _ _ (plots_ok rm) anything_all tag s I KN) as [s1 [a1 [E1 _]]].
    rewrite E1. reflexivity.
  - cbn [snd]. destruct (get s Haz); congruence.
Qed.

(** After a complete run, any selection of the parts can be run again by itself, with other settings, any number of
    cyclones and any number of simulations. *)
Theorem c164_parts : forall tag c tcs s i, usable c -> (rmwFromInput c = true -> hasRmax c = true) ->
  oneYear c = false -> i < nsim c -> 0 < tcs i ->
  forall tag' c' tcs' wanted, (wanted DataProcess = true -> usable c') ->
  (wanted ExecuteStat = true -> rmwFromInput c' = true -> hasRmax c = true) ->
  snd (main tag' c' tcs' wanted (fst (main tag c tcs (fun _ => true) s))) = true.
Proof.
  intros tag c tcs s i U RM OY Hi Ht tag' c' tcs' wanted U' RM'.
  destruct (c164_complete tag c tcs s i U RM OY Hi Ht) as [s' [v [E [_ [_ [R _]]]]]]. rewrite E. cbn [fst].
  unfold main. assert (W : forall a, In a (filter wanted order) -> wanted a = true) by (intros a H; apply filter_In in H; tauto).
  clear E. revert s' R W. induction (filter wanted order) as [| a l IH]; intros s' R W; [reflexivity |].
  cbn [acts].
  destruct (act_ready tag' c' tcs' a s' (hasRmax c) R) as [A1 A2].
  { intros ->. apply U', W. left. auto. }
  { intros ->. apply RM', W. left. auto. }
  destruct (act tag' c' tcs' a s') as [s2 ok]. cbn [fst snd] in *. subst ok.
  apply IH; auto. intros b Hb. apply W. right. auto.
Qed.
Print Assumptions c164_parts.

Lemma acts_app : forall tag c tcs l1 l2 s s', acts tag c tcs l1 s = (s', true) -> acts tag c tcs (l1 ++ l2) s = acts tag c tcs l2 s'.
Proof.
  intros tag c tcs. induction l1 as [| a l1 IH]; intros l2 s s' H; [injection H as ->; reflexivity |].
  cbn [acts app] in *. destruct (act tag c tcs a s) as [s1 ok]. destruct ok; [auto | discriminate].
Qed.

(** * Where the data come from *)
Lemma statistics_own : forall c kn ab, kn = (basics ++ extraDP c)%list -> (rmwFromInput c = true -> hasRmax c = true) ->
  covers (check true kn ab (statistics c)) (kn ++ products ++ if rmwFromInput c then sizes else []) = true.
Proof.
  intros [f a r o w l q n] kn ab -> H; cbn in H; destruct r, o, w; try (discriminate (H eq_refl)); vm_compute; reflexivity.
Qed.
Lemma exec_absent : forall ops acc s n, ~ In (Wr n) ops -> get (fst (fst (exec ops acc s))) (P n) = get s (P n).
Proof.
  induction ops as [| o ops IH]; intros acc s n H; [reflexivity |].
  assert (H' : ~ In (Wr n) ops) by (intros I; apply H; right; auto).
  destruct o as [m | m | m | m |]; cbn [exec]; auto.
  - destruct (get s (P m)); auto.
  - destruct (get s (P (m ++ ".nc"))); auto. destruct (get s (P m)); auto.
  - destruct (get s (P (m ++ ".nc"))); auto. destruct (get s (P m)); auto.
  - rewrite IH by auto. apply get_other. intros [= ->]. apply H. left. auto.
Qed.
Lemma setup_own : forall c kn ab,
  (kn = (basics ++ extraDP c) ++ products ++ if rmwFromInput c then sizes else [])%list ->
  ab = (if rmwFromInput c then [] else sizes) ->
  covers (check true kn ab (trackSetup c)) [] = true.
Proof.
  intros [f a r o w l q n] kn ab -> ->; destruct r, o, l, q, w; vm_compute; reflexivity.
Qed.
Ltac not_written := intros H; vm_compute in H; repeat (destruct H as [H | H]; [discriminate |]); exact H.
Lemma dp_sizes : forall c n, In n sizes -> ~ In (Wr n) (dataProcess c).
Proof.
  intros [f a r o w l q m] n [<- | [<- | []]]; destruct f, a, r, o; not_written.
Qed.
Lemma st_sizes : forall c n, rmwFromInput c = false -> In n sizes -> ~ In (Wr n) (statistics c).
Proof.
  intros [f a r o w l q m] n H. cbn in H. subst w. intros [<- | [<- | []]]; not_written.
Qed.

Definition calibration : list action := [DataProcess; ExecuteStat; ExecuteTrackGenerator].
(** The tracks of a run with the input processing and the statistics depend on nothing in the output directory from
    earlier runs, if either the distribution of the radius is computed by this run too or there is no such file. *)
Theorem c164_tracks : forall tag c tcs s,
  usable c -> (rmwFromInput c = true -> hasRmax c = true) ->
  (rmwFromInput c = true \/
   (get s (P "all_cell_cdf_init_rmax") = None /\ get s (P "all_cell_cdf_init_rmax.nc") = None)) ->
  exists s', acts tag c tcs calibration s = (s', true) /\
    forall i, i < nsim c -> exists v, get s' (Trk i) = Some v /\ size v = tcs i /\ In tag (prov v) /\ Forall (eq tag) (prov v).
Proof.
  intros tag c tcs s U RM AB. unfold calibration.
  assert (Y : true = false -> forall t, tag = t) by discriminate.
  destruct (stage (eq tag) true [] [] _ _ (dataProcess_ok c U) Y tag s eq_refl) as [s1 [a1 [E1 [K1 _]]]].
  { split; intros n []. }
  destruct (stage (eq tag) true _ [] _ _ (statistics_own c _ [] eq_refl RM) Y tag s1 eq_refl K1)
    as [s2 [a2 [E2 [K2 _]]]].
  assert (K3 : known (eq tag) s2 ((basics ++ extraDP c) ++ products ++ if rmwFromInput c then sizes else [])
                 (if rmwFromInput c then [] else sizes)).
  { split; [apply K2 |]. destruct (rmwFromInput c) eqn:W; [intros n [] |].
    intros n Hn. destruct AB as [AB | [B1 B2]]; [discriminate |].
    pose proof (exec_absent (dataProcess c) [tag] s n (dp_sizes c n Hn)) as Q1. rewrite E1 in Q1. cbn [fst] in Q1.
    pose proof (exec_absent (statistics c) [tag] s1 n (st_sizes c n W Hn)) as Q2. rewrite E2 in Q2. cbn [fst] in Q2.
    rewrite Q2, Q1. destruct Hn as [<- | [<- | []]]; auto. }
  destruct (stage (eq tag) true _ _ _ _ (setup_own c _ _ eq_refl eq_refl) Y tag s2 eq_refl K3) as [s3 [a3 [E3 [_ [F3 T3]]]]].
  cbn [acts act]. rewrite E1, E2, E3. eexists. split; [reflexivity |].
  intros i Hi. exists {| prov := a3; size := tcs i |}. repeat split; auto. apply tracks_get, Hi.
Qed.
Print Assumptions c164_tracks.
Example c164_tracks_example :
  get [] (P "all_cell_cdf_init_rmax") = None /\ usable example_cfg /\
  snd (acts 1 example_cfg (fun _ => 1) calibration [(P "all_cell_cdf_init_rmax", {| prov := [0]; size := 0 |})]) = true.
Proof. vm_compute. repeat split; reflexivity. Qed.

(** If the directory has no tracks and no wind fields yet, the hazard too is from this run alone. *)
Theorem c164_hazard : forall tag c tcs s i,
  usable c -> (rmwFromInput c = true -> hasRmax c = true) ->
  (rmwFromInput c = true \/
   (get s (P "all_cell_cdf_init_rmax") = None /\ get s (P "all_cell_cdf_init_rmax.nc") = None)) ->
  (forall f v, In (f, v) s -> match f with Trk _ | Gst _ _ => False | _ => True end) ->
  i < nsim c -> 0 < tcs i ->
  exists s' v, acts tag c tcs (calibration ++ [ExecuteWindfield; ExecuteHazard]) s = (s', true) /\
    get s' Haz = Some v /\ Forall (eq tag) (prov v).
Proof.
  intros tag c tcs s i U RM AB NT Hi Ht.
  destruct (c164_tracks tag c tcs s U RM AB) as [s' [E T]].
  rewrite (acts_app _ _ _ _ _ _ _ E).
  (* the track files are those of this run, and there is no gust file *)
  assert (O : forall f v, In (f, v) s' -> match f with
     | Trk j => Forall (eq tag) (prov v) | Gst _ _ => False | _ => True end).
  { unfold calibration in E. cbn [acts act] in E.
    assert (KP : forall ops acc s0, (forall f v, In (f, v) s0 -> match f with Trk _ | Gst _ _ => False | _ => True end) ->
      forall f v, In (f, v) (fst (fst (exec ops acc s0))) -> match f with Trk _ | Gst _ _ => False | _ => True end).
    { intros ops acc s0 H0.
      apply (exec_keeps (fun x => forall f v, In (f, v) x -> match f with Trk _ | Gst _ _ => False | _ => True end)); auto.
      intros x n w Hx f v Hf. apply put_in in Hf. destruct Hf as [[= -> ->] | Hf]; [exact I | apply (Hx f v Hf)]. }
    pose proof (KP (dataProcess c) [tag] s NT) as N1. destruct (exec (dataProcess c) [tag] s) as [[s1 a1] o1]. cbn [fst] in N1.
    destruct o1; [| discriminate].
    pose proof (KP (statistics c) [tag] s1 N1) as N2. destruct (exec (statistics c) [tag] s1) as [[s2 a2] o2]. cbn [fst] in N2.
    destruct o2; [| discriminate].
    pose proof (KP (trackSetup c) [tag] s2 N2) as N3. destruct (exec (trackSetup c) [tag] s2) as [[s3 a3] o3]. cbn [fst] in N3.
    destruct o3; [| discriminate]. apply (f_equal fst) in E. cbn [fst] in E. subst s'.
    destruct (T i Hi) as [v0 [V0 [_ [_ F0]]]]. rewrite tracks_get in V0 by exact Hi. injection V0 as <-. cbn [prov] in F0.
    intros f v Hf. apply tracks_in in Hf. destruct Hf as [Hf | [j [_ [-> ->]]]]; [| exact F0].
    specialize (N3 f v Hf). destruct f; auto. destruct N3. }
  cbn [acts act].
  destruct (T i Hi) as [v0 [V0 [S0 _]]].
  assert (G : get (windfields tag s') (Gst 0 i) <> None).
  { apply c164_winds with (v := v0); [apply get_in, V0 | rewrite S0; exact Ht]. }
  unfold hazard. rewrite (gust_exists _ _ _ G). eexists. eexists. split; [reflexivity |]. split; [apply get_same |].
  cbn [prov]. apply Forall_join; [constructor; auto |]. apply Forall_forall. intros x Hx. apply in_flat_map in Hx.
  destruct Hx as [[f w] [Hf Hx]]. cbn [snd] in Hx. apply filter_In in Hf. destruct Hf as [Hf Hu].
  apply wind_in in Hf. destruct Hf as [Hf | [k [j [v [-> [Hv Ep]]]]]].
  - specialize (O f w Hf). destruct f; try discriminate. destruct O.
  - rewrite Ep in Hx. apply in_join in Hx. destruct Hx as [[Hx | []] | Hx]; auto. specialize (O _ _ Hv). cbn in O.
    rewrite Forall_forall in O. apply O, Hx.
Qed.
Print Assumptions c164_hazard.
Example c164_hazard_example : exists s' v,
  acts 1 example_cfg (fun _ => 1) (calibration ++ [ExecuteWindfield; ExecuteHazard]) [] = (s', true) /\
  get s' Haz = Some v /\ Forall (eq 1) (prov v).
Proof.
  apply (c164_hazard 1 example_cfg (fun _ => 1) [] 0); try (left; reflexivity); auto; cbn; auto; try lia.
  split; reflexivity.
Qed.

Lemma exec_fails : forall ops acc s, In Fail ops -> snd (exec ops acc s) = false.
Proof.
  induction ops as [| o ops IH]; intros acc s H; [destruct H |].
  destruct H as [-> | H]; [reflexivity |].
  destruct o as [n | n | n | n |]; cbn [exec]; auto.
  - destruct (get s (P n)); auto.
  - destruct (get s (P (n ++ ".nc"))); auto. destruct (get s (P n)); auto.
  - destruct (get s (P (n ++ ".nc"))); auto. destruct (get s (P n)); auto.
Qed.

(** * The conditions are necessary in an empty directory *)
Lemma exec_reads : forall ops acc s n, In (Rd n) ops -> ~ In (Wr n) ops -> snd (exec ops acc s) = true -> get s (P n) <> None.
Proof.
  induction ops as [| o ops IH]; intros acc s n H W E; [destruct H |].
  assert (W' : ~ In (Wr n) ops) by (intros I; apply W; right; auto).
  destruct H as [-> | H].
  - cbn [exec] in E. destruct (get s (P n)); [discriminate | discriminate E].
  - destruct o as [m | m | m | m |]; cbn [exec] in E.
    + destruct (get s (P m)); [apply (IH _ _ _ H W' E) | discriminate E].
    + destruct (get s (P (m ++ ".nc"))); [apply (IH _ _ _ H W' E) |].
      destruct (get s (P m)); [apply (IH _ _ _ H W' E) | discriminate E].
    + destruct (get s (P (m ++ ".nc"))); [apply (IH _ _ _ H W' E) |].
      destruct (get s (P m)); apply (IH _ _ _ H W' E).
    + apply (IH _ _ _ H W') in E. rewrite get_other in E; auto.
      intros [= ->]. apply W. left. auto.
    + discriminate E.
Qed.
Lemma wind_get : forall tag s n, get (windfields tag s) (P n) = get s (P n).
Proof.
  intros tag s n. unfold windfields. generalize s at 1. intros l.
  apply (fold_keeps _ _ (fun x => get x (P n) = get s (P n))); auto.
  intros x [f w] _ Hx. unfold windTrackFile. cbn [fst snd]. destruct f; auto.
  apply (fold_keeps _ _ (fun y => get y (P n) = get s (P n))); auto.
  intros y j _ Hy. unfold gust. destruct (get y (Gst j sim)) eqn:E; auto.
  rewrite get_other; auto. discriminate.
Qed.
Lemma gust_needs : forall tag s k i w, In (Gst k i, w) (windfields tag s) ->
  In (Gst k i, w) s \/ exists v, In (Trk i, v) s /\ 0 < size v.
Proof.
  intros tag s k i w. unfold windfields.
  enough (G : forall l s0, In (Gst k i, w) (fold_left (windTrackFile tag) l s0) ->
    In (Gst k i, w) s0 \/ exists v, In (Trk i, v) l /\ 0 < size v) by apply G.
  induction l as [| [g u] l IH]; intros s0 H; [left; auto |].
  cbn [fold_left] in H. apply IH in H. destruct H as [H | [v [I F]]].
  - unfold windTrackFile in H. cbn [fst snd] in H. destruct g as [| j | |]; auto.
    destruct (size u) as [| m] eqn:S0; [left; exact H |].
    pose proof (gusts_in _ _ _ _ _ _ _ H) as Q. destruct Q as [Q | [k' [[= -> ->] F]]]; auto.
    right. exists u. split; [left; auto | lia].
  - right. exists v. split; auto. right. auto.
Qed.
Lemma tracks_size : forall acc tcs l s i v, In (Trk i, v) (saveTracks acc tcs l s) ->
  In (Trk i, v) s \/ (In i l /\ size v = tcs i).
Proof.
  intros acc tcs. unfold saveTracks. induction l as [| j l IH]; intros s i v H; [left; auto |].
  cbn [fold_left] in H. apply IH in H. destruct H as [H | [J E]].
  - apply put_in in H. destruct H as [[= -> ->] | H]; auto. right. split; [left |]; auto.
  - right. split; [right |]; auto.
Qed.

Theorem c164_exactly : forall tag c tcs,
  snd (main tag c tcs (fun _ => true) []) = true <->
  fmt c = Txt /\ hasAge c = false /\ (rmwFromInput c = true -> hasRmax c = true) /\ oneYear c = false /\
  exists i, i < nsim c /\ 0 < tcs i.
Proof.
  intros tag c tcs. split.
  2: { intros [F [A [R [O [i [Hi Ht]]]]]].
       destruct (c164_complete tag c tcs [] i (conj F A) R O Hi Ht) as [s' [v [E _]]]. rewrite E. reflexivity. }
  unfold main, order. cbn [filter acts act].
  assert (Z : forall n, get [] (P n) = None) by reflexivity.
  pose proof (fun n => exec_absent (dataProcess c) [tag] [] n) as D0.
  assert (F1 : snd (exec (dataProcess c) [tag] []) = true -> fmt c = Txt /\ hasAge c = false).
  { intros H. destruct (fmt c) eqn:F.
    - split; auto. destruct (hasAge c) eqn:A; auto. rewrite exec_fails in H; [discriminate |].
      unfold dataProcess. rewrite F, A. apply in_or_app. right. apply in_or_app. right. apply in_or_app. right. left. auto.
    - unfold dataProcess in H. rewrite F in H. discriminate.
    - unfold dataProcess in H. rewrite F in H. discriminate. }
  set (notrack := fun x : store => forall f v, In (f, v) x -> match f with Trk _ | Gst _ _ => False | _ => True end).
  assert (KP : forall ops acc s0, notrack s0 -> notrack (fst (fst (exec ops acc s0)))).
  { intros ops acc s0 H0. apply (exec_keeps notrack); auto.
    intros x n w Hx f v Hf. apply put_in in Hf. destruct Hf as [[= -> ->] | Hf]; [exact I | apply (Hx f v Hf)]. }
  assert (N0 : notrack []) by (intros f v []).
  pose proof (KP (dataProcess c) [tag] [] N0) as N1.
  destruct (exec (dataProcess c) [tag] []) as [[s1 a1] o1]. cbn [fst snd] in *. destruct o1; [| discriminate].
  destruct (F1 eq_refl) as [F A]. clear F1.
  pose proof (fun n => exec_absent (statistics c) [tag] s1 n) as D1.
  pose proof (fun n => exec_reads (statistics c) [tag] s1 n) as R1.
  pose proof (KP (statistics c) [tag] s1 N1) as N2.
  destruct (exec (statistics c) [tag] s1) as [[s2 a2] o2]. cbn [fst snd] in *. destruct o2; [| discriminate].
  pose proof (fun n => exec_absent (trackSetup c) [tag] s2 n) as D2.
  pose proof (KP (trackSetup c) [tag] s2 N2) as N3.
  destruct (exec (trackSetup c) [tag] s2) as [[s3 a3] o3]. cbn [fst snd] in *. destruct o3; [| discriminate].
  set (s4 := saveTracks a3 tcs (seq 0 (nsim c)) s3).
  unfold hazard. destruct (existsb isGust (windfields tag s4)) eqn:G; [| discriminate].
  match goal with |- context [exec dataPlots [tag] ?x] =>
    set (s6 := x); pose proof (exec_reads dataPlots [tag] s6 "frequency") as R6 end.
  destruct (exec dataPlots [tag] s6) as [[s7 a7] o7]. cbn [fst snd] in *. destruct o7; [| discriminate].
  intros _. repeat split; auto.
  - intros W. destruct (hasRmax c) eqn:HR; auto. exfalso.
    apply (R1 "init_rmax"%string); auto.
    + unfold statistics. rewrite W. repeat (apply in_or_app; right). right. left. reflexivity.
    + unfold statistics. rewrite W. not_written.
    + rewrite D0; [apply Z |]. unfold dataProcess. rewrite F, HR, A. destruct (oneYear c); not_written.
  - destruct (oneYear c) eqn:OY; auto. exfalso. apply R6; auto.
    + vm_compute. tauto.
    + not_written.
    + unfold s6. rewrite get_other by discriminate. rewrite wind_get. unfold s4. rewrite tracks_other by discriminate.
      rewrite D2, D1, D0; [apply Z | | |].
      * unfold dataProcess. rewrite F, A, OY. destruct (hasRmax c); not_written.
      * unfold statistics. destruct (rmwFromInput c); not_written.
      * unfold trackSetup. destruct (limitGiven c), (freqGiven c); not_written.
  - apply existsb_exists in G. destruct G as [[f w] [Hf Hg]]. unfold isGust in Hg. cbn [fst] in Hg.
    destruct f; try discriminate. apply gust_needs in Hf.
    destruct Hf as [Hf | [v [Hv Hs]]].
    + unfold s4 in Hf. apply tracks_in in Hf. destruct Hf as [Hf | [j [_ [E _]]]]; [| discriminate].
      destruct (N3 _ _ Hf).
    + unfold s4 in Hv. apply tracks_size in Hv. destruct Hv as [Hv | [Hv E]]; [destruct (N3 _ _ Hv) |].
      exists sim. apply in_seq in Hv. split; lia.
Qed.
Print Assumptions c164_exactly.

(** * C165 *)
(** The output format must be text: with any other, the processing of the input stops before writing anything. *)
Theorem c165_format_refuted : forall tag c tcs wanted s,
  wanted DataProcess = true -> fmt c <> Txt -> main tag c tcs wanted s = (s, false).
Proof.
  intros tag c tcs wanted s W F. unfold main, order. cbn [filter]. rewrite W. cbn [acts act].
  unfold dataProcess. destruct (fmt c); [congruence | reflexivity | reflexivity].
Qed.
Print Assumptions c165_format_refuted.

(** With a column age in the input the run always stops, with most files already overwritten. *)
Theorem c165_age_refuted : forall tag c tcs wanted s,
  wanted DataProcess = true -> hasAge c = true -> snd (main tag c tcs wanted s) = false /\
  (fmt c = Txt -> exists v, get (fst (main tag c tcs wanted s)) (P "origin_year") = Some v /\ prov v = [tag]).
Proof.
  intros tag c tcs wanted s W A. unfold main, order. cbn [filter]. rewrite W. cbn [acts act].
  assert (F : In Fail (dataProcess c)).
  { destruct c as [f a r o w l q n]. cbn in A. subst. destruct f, r; vm_compute; tauto. }
  pose proof (exec_fails _ [tag] s F) as Q.
  assert (G : fmt c = Txt -> get (fst (fst (exec (dataProcess c) [tag] s))) (P "origin_year") = Some {| prov := [tag]; size := 0 |}).
  { intros T. unfold dataProcess. rewrite T, A.
    match goal with |- context [exec ([Wr ?n] ++ ?r) _ _] => change (exec ([Wr n] ++ r) [tag] s)
      with (exec r [tag] (put s (P n) {| prov := [tag]; size := 0 |})); rewrite (exec_absent r) end.
    - apply get_same.
    - destruct (hasRmax c); not_written. }
  destruct (exec (dataProcess c) [tag] s) as [[s' acc] ok]. cbn [fst snd] in *. subst ok. cbn [fst snd].
  split; [reflexivity |]. intros T. eexists. split; [apply G, T | reflexivity].
Qed.
Print Assumptions c165_age_refuted.

Definition plain_cfg (n : nat) (one rm : bool) : cfg :=
  {| fmt := Txt; hasAge := false; hasRmax := false; oneYear := one; rmwFromInput := rm; limitGiven := true;
     freqGiven := true; nsim := n |}.
Definition all_actions (a : action) : bool := true.
Definition sources (s : store) (f : file) : option (list nat) := option_map prov (get s f).

(** Input of a single year: the plots of the input fail for want of the file of yearly numbers - or show those of an
    earlier run. *)
Theorem c165_year_refuted :
  snd (main 1 (plain_cfg 1 true false) (fun _ => 1) all_actions []) = false /\
  snd (main 1 (plain_cfg 1 true false) (fun _ => 1) (fun a => match a with PlotData => false | _ => true end) []) = true /\
  (let s := fst (main 1 (plain_cfg 1 false false) (fun _ => 1) all_actions []) in
   let '(s', ok) := main 2 (plain_cfg 1 true false) (fun _ => 1) all_actions s in
   ok = true /\ sources s' (P "frequency") = Some [1]).
Proof. vm_compute. repeat split; reflexivity. Qed.
Print Assumptions c165_year_refuted.

(** The distribution of the radius asked for without such a column: the statistics stop at their last step. *)
Theorem c165_radius_refuted :
  let '(s, ok) := main 1 (plain_cfg 1 false true) (fun _ => 1) all_actions [] in
  ok = false /\ sources s (P "bearing_rate_stats.nc") = Some [1] /\ sources s (Trk 0) = None.
Proof. vm_compute. repeat split; reflexivity. Qed.
Print Assumptions c165_radius_refuted.

(** Switching the distribution of the radius off does not switch it off: the file of the earlier run is used. *)
Theorem c165_leftover_refuted :
  let s := fst (main 1 example_cfg (fun _ => 1) all_actions []) in
  let '(s', ok) := main 2 (plain_cfg 2 false false) (fun _ => 1) all_actions s in
  ok = true /\ sources s' (Trk 0) = Some [1; 2].
Proof. vm_compute. split; reflexivity. Qed.
Print Assumptions c165_leftover_refuted.

(** A second complete run keeps the wind fields of the first, and its hazard is that of the first tracks. *)
Theorem c165_again_refuted :
  let s := fst (main 1 (plain_cfg 1 false false) (fun _ => 2) all_actions []) in
  let '(s', ok) := main 2 (plain_cfg 1 false false) (fun _ => 2) all_actions s in
  ok = true /\ sources s' (Trk 0) = Some [2] /\ sources s' (Gst 0 0) = Some [1] /\ sources s' (Gst 1 0) = Some [1].
Proof. vm_compute. repeat split; reflexivity. Qed.
Print Assumptions c165_again_refuted.
(** This is so for every track of any second run: a wind field that is there is never computed anew. *)
Theorem c165_kept_refuted : forall tag s k i v, get s (Gst k i) = Some v -> get (windfields tag s) (Gst k i) = Some v.
Proof.
  intros tag s k i v H. unfold windfields. generalize s at 1. intros l.
  apply (fold_keeps _ _ (fun x => get x (Gst k i) = Some v)); auto.
  intros x [f w] _ Hx. unfold windTrackFile. cbn [fst snd]. destruct f; auto.
  apply (fold_keeps _ _ (fun y => get y (Gst k i) = Some v)); auto.
  intros y j _ Hy. unfold gust. destruct (get y (Gst j sim)) eqn:E; auto.
  rewrite get_other; auto. intros [= -> ->]. congruence.
Qed.
Print Assumptions c165_kept_refuted.

(** Fewer simulations than before: the further track files stay, and winds are computed for them. *)
Theorem c165_fewer_refuted :
  let s := fst (main 1 (plain_cfg 3 false false) (fun _ => 1)
                  (fun a => match a with DataProcess | ExecuteStat | ExecuteTrackGenerator => true | _ => false end) []) in
  let '(s', ok) := main 2 (plain_cfg 1 false false) (fun _ => 1) all_actions s in
  ok = true /\ sources s' (Trk 2) = Some [1] /\ sources s' (Gst 0 2) = Some [2; 1] /\ sources s' Haz = Some [2].
Proof. vm_compute. repeat split; reflexivity. Qed.
Print Assumptions c165_fewer_refuted.

(** More cyclones before than now: the wind fields of cyclones that no longer exist enter the hazard. *)
Theorem c165_ghosts_refuted :
  let s := fst (main 1 (plain_cfg 1 false false) (fun _ => 2) all_actions []) in
  let '(s', ok) := main 2 (plain_cfg 1 false false) (fun _ => 0) all_actions s in
  ok = true /\ option_map size (get s' (Trk 0)) = Some 0 /\ sources s' Haz = Some [2; 1].
Proof. vm_compute. repeat split; reflexivity. Qed.
Print Assumptions c165_ghosts_refuted.

(** A run without any cyclone fails at the hazard. *)
Theorem c165_none_refuted :
  let '(s, ok) := main 1 (plain_cfg 1 false false) (fun _ => 0) all_actions [] in
  ok = false /\ sources s (Trk 0) = Some [1] /\ sources s Haz = None.
Proof. vm_compute. repeat split; reflexivity. Qed.
Print Assumptions c165_none_refuted.
