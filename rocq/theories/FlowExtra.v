(** Which files each part of a run needs: exactly. *)
From Coq Require Import List Arith Bool String.
From Verif Require Import FlowModel FlowProps.
Import ListNotations.
Open Scope string_scope.

Definition present (s : store) (n : string) : Prop := get s (P n) <> None.
(** what must be there for the operations to succeed; [w]: what has been written so far *)
Fixpoint needs (w : list string) (ops : list op) (s : store) : Prop :=
  match ops with
  | [] => True
  | Rd n :: r => (if mem n w then True else present s n) /\ needs w r s
  | RdCdf n :: r => (if mem n w || mem (n ++ ".nc") w then True else present s (n ++ ".nc") \/ present s n) /\ needs w r s
  | RdOpt _ :: r => needs w r s
  | Wr n :: r => needs (n :: w) r s
  | Fail :: _ => False
  end.
Lemma needs_exec : forall ops w acc s0 s, (forall n, present s n <-> In n w \/ present s0 n) ->
  (snd (exec ops acc s) = true <-> needs w ops s0).
Proof.
  induction ops as [| o ops IH]; intros w acc s0 s H; [cbn; tauto|].
  assert (Y : forall n v, get s (P n) = Some v -> present s n) by (unfold present; congruence).
  assert (Z : forall n, get s (P n) = None -> ~ present s n) by (unfold present; congruence).
  assert (M : forall n, mem n w = true -> present s n) by (intros n E; apply H; left; now apply mem_in).
  assert (N : forall n, mem n w = false -> (present s n <-> present s0 n)).
  { intros n E. rewrite H. split; [|tauto]. intros [I|I]; [|exact I]. apply mem_in in I. congruence. }
  destruct o as [n | n | n | n |]; cbn [exec needs].
  - destruct (get s (P n)) as [v|] eqn:E.
    + rewrite (IH w _ s0 s H). destruct (mem n w) eqn:D; [tauto|]. pose proof (N n D). pose proof (Y n v E). tauto.
    + destruct (mem n w) eqn:D; [destruct (Z n E (M n D))|]. pose proof (N n D). pose proof (Z n E).
      cbn. split; [discriminate | tauto].
  - destruct (get s (P (n ++ ".nc"))) as [v|] eqn:E; [|destruct (get s (P n)) as [v|] eqn:F].
    + rewrite (IH w _ s0 s H). destruct (mem n w) eqn:D; [cbn; tauto|]. cbn.
      destruct (mem (n ++ ".nc") w) eqn:D'; [tauto|]. pose proof (N _ D'). pose proof (Y _ v E). tauto.
    + rewrite (IH w _ s0 s H). destruct (mem n w) eqn:D; [cbn; tauto|]. cbn.
      destruct (mem (n ++ ".nc") w) eqn:D'; [tauto|]. pose proof (N _ D). pose proof (Y _ v F). tauto.
    + destruct (mem n w) eqn:D; [destruct (Z n F (M n D))|]. destruct (mem (n ++ ".nc") w) eqn:D'; [destruct (Z _ E (M _ D'))|].
      pose proof (N n D). pose proof (N _ D'). pose proof (Z _ E). pose proof (Z _ F). cbn. split; [discriminate | tauto].
  - destruct (get s (P (n ++ ".nc"))); [|destruct (get s (P n))]; now apply IH.
  - apply IH. intros m. unfold present in *. destruct (string_dec m n) as [->|D].
    + rewrite get_same. split; intros; [left; now left | discriminate].
    + rewrite get_other by congruence. rewrite H. cbn. intuition congruence.
  - cbn. split; [discriminate | contradiction].
Qed.
Lemma needs_from : forall ops acc s, snd (exec ops acc s) = true <-> needs [] ops s.
Proof. intros. apply needs_exec. cbn. tauto. Qed.

(** The statistics need the processed observations, and of the radii only if they are asked for. *)
Theorem c164_statistics : forall tag c tcs s,
  snd (act tag c tcs ExecuteStat s) = true <->
  (forall n, In n ["cyclone_tracks"; "origin_lon_lat"; "jdays"; "init_lon_lat"; "init_bearing"; "init_speed";
                   "init_pressure"; "all_lon_lat"; "all_speed"; "speed_rate"; "all_pressure"; "pressure_rate";
                   "all_bearing"; "bearing_rate"] -> present s n) /\
  (rmwFromInput c = true -> present s "init_rmax").
Proof.
  intros tag c tcs s. transitivity (needs [] (statistics c) s).
  - rewrite <- (needs_from _ [tag]). cbn [act]. destruct (exec (statistics c) [tag] s) as [[s' acc] ok]. cbn. tauto.
  - unfold statistics. destruct (rmwFromInput c); cbn [app cellCdf cellStats needs mem existsb String.eqb Ascii.eqb Bool.eqb append orb].
    + split.
      * intros H. split; [|tauto]. intros n I. cbn [In] in I. intuition (subst; tauto).
      * intros [H R]. specialize (R eq_refl). assert (X := fun n => H n). repeat split; try exact R; apply H; cbn; tauto.
    + split.
      * intros H. split; [|discriminate]. intros n I. cbn [In] in I. intuition (subst; tauto).
      * intros [H _]. repeat split; apply H; cbn; tauto.
Qed.
Print Assumptions c164_statistics.

(** Tracks need the distributions and statistics, in either form for the distributions, and observations only for the
    settings that are not given. *)
Theorem c164_setup : forall tag c tcs s,
  snd (act tag c tcs ExecuteTrackGenerator s) = true <->
  (forall n, In n ["originPDF.nc"; "speed_stats.nc"; "pressure_stats.nc"; "bearing_stats.nc"; "pressure_rate_stats.nc"] -> present s n) /\
  (forall n, In n ["all_cell_cdf_init_bearing"; "all_cell_cdf_init_speed"; "all_cell_cdf_init_pressure"; "all_cell_cdf_init_day"] ->
     present s (n ++ ".nc") \/ present s n) /\
  (limitGiven c = false -> present s "cyclone_tracks") /\
  (freqGiven c = false -> present s "origin_year" /\ present s "origin_lon_lat").
Proof.
  intros tag c tcs s. transitivity (needs [] (trackSetup c) s).
  - rewrite <- (needs_from _ [tag]). cbn [act]. destruct (exec (trackSetup c) [tag] s) as [[s' acc] ok]. cbn [snd]. destruct ok; cbn; tauto.
  - unfold trackSetup. destruct (limitGiven c), (freqGiven c); cbn [app needs mem existsb String.eqb Ascii.eqb Bool.eqb append orb].
    all: split; [intros H; repeat split; try discriminate; try tauto; intros n I; cbn [In] in I; intuition (subst; cbn [append]; tauto)|].
    all: intros (A & B & C & D).
    all: pose proof (B "all_cell_cdf_init_bearing" ltac:(cbn; tauto)) as B1; pose proof (B "all_cell_cdf_init_speed" ltac:(cbn; tauto)) as B2;
         pose proof (B "all_cell_cdf_init_pressure" ltac:(cbn; tauto)) as B3; pose proof (B "all_cell_cdf_init_day" ltac:(cbn; tauto)) as B4.
    all: cbn [append] in B1, B2, B3, B4.
    all: repeat split; try assumption; try (apply A; cbn; tauto); try (apply C; reflexivity); try (apply D; reflexivity).
Qed.
Print Assumptions c164_setup.

(** Plots of the observations need their files, the yearly frequencies included. *)
Theorem c164_plots : forall tag c tcs s,
  snd (act tag c tcs PlotData s) = true <->
  forall n, In n ["pressure_rate"; "all_pressure"; "bearing_rate"; "all_bearing"; "speed_rate"; "all_speed"; "frequency";
                  "cyclone_tracks"; "jday_obs"; "jday_genesis"] -> present s n.
Proof.
  intros tag c tcs s. transitivity (needs [] dataPlots s).
  - rewrite <- (needs_from _ [tag]). cbn [act]. destruct (exec dataPlots [tag] s) as [[s' acc] ok]. cbn. tauto.
  - unfold dataPlots. cbn [map needs mem existsb]. split.
    + intros H n I. cbn [In] in I. intuition (subst; tauto).
    + intros H. repeat split; apply H; cbn; tauto.
Qed.
Print Assumptions c164_plots.
Example c164_needs_example : snd (act 1 (plain_cfg 1 false false) (fun _ => 1) PlotData
  (fst (main 1 (plain_cfg 1 false false) (fun _ => 1) (fun _ => true) []))) = true /\
  snd (act 1 (plain_cfg 1 false false) (fun _ => 1) PlotData []) = false.
Proof. vm_compute. split; reflexivity. Qed.

(** ** What each part leaves behind *)
Fixpoint writes (ops : list op) : list string :=
  match ops with [] => [] | Wr n :: r => n :: writes r | _ :: r => writes r end.
Lemma exec_writes : forall ops acc s, snd (exec ops acc s) = true ->
  forall n, present (fst (fst (exec ops acc s))) n <-> In n (writes ops) \/ present s n.
Proof.
  induction ops as [| o ops IH]; intros acc s H n; [cbn; tauto|].
  destruct o as [m | m | m | m |]; cbn [exec writes] in *.
  - destruct (get s (P m)); [now apply IH | discriminate].
  - destruct (get s (P (m ++ ".nc"))); [now apply IH|]. destruct (get s (P m)); [now apply IH | discriminate].
  - destruct (get s (P (m ++ ".nc"))); [now apply IH|]. destruct (get s (P m)); now apply IH.
  - rewrite (IH _ _ H n). cbn [In]. unfold present. destruct (string_dec n m) as [->|D].
    + rewrite get_same. split; [tauto|]. intros _. right. discriminate.
    + rewrite get_other by congruence. intuition congruence.
  - discriminate.
Qed.
Definition op_dec : forall a b : op, {a = b} + {a <> b}.
Proof. decide equality; apply string_dec. Defined.
Definition radii : list string := ["all_rmax"; "init_rmax"; "rmax_no_init"; "rmax_rate"].
Definition processed : list string :=
  ["origin_year"; "origin_lon_lat"; "init_lon_lat"; "all_lon_lat"; "cyclone_tracks"; "all_bearing"; "init_bearing"; "bearing_no_init";
   "bearing_rate"; "all_speed"; "init_speed"; "speed_no_init"; "speed_rate"; "all_pressure"; "init_pressure"; "pressure_no_init";
   "pressure_rate"; "wind_speed"; "jday_genesis"; "jday_obs"; "jdays"].
(** Processing the observations leaves one file for each quantity, those of the radii if there are any, and the frequencies
    if there is more than one year. *)
Theorem c164_products : forall tag c tcs s n, snd (act tag c tcs DataProcess s) = true ->
  (present (fst (act tag c tcs DataProcess s)) n <->
   In n processed \/ (hasRmax c = true /\ In n radii) \/ (oneYear c = false /\ n = "frequency") \/ present s n).
Proof.
  intros tag c tcs s n. cbn [act]. pose proof (exec_writes (dataProcess c) [tag] s) as H.
  destruct (in_dec op_dec Fail (dataProcess c)) as [F|F].
  { pose proof (exec_fails _ [tag] s F) as X. destruct (exec (dataProcess c) [tag] s) as [[s' acc] ok]. cbn in *. congruence. }
  destruct (exec (dataProcess c) [tag] s) as [[s' acc] ok]. cbn [fst snd] in *. intros ->. rewrite (H eq_refl n). clear H.
  revert F. unfold dataProcess, processed, radii. destruct (fmt c); [|intros []; now left..].
  destruct (hasAge c); [intros []; apply in_or_app; right; apply in_or_app; right; apply in_or_app; right; now left|].
  intros _. destruct (hasRmax c), (oneYear c); cbn [app writes In]; split; intros; intuition (subst; try discriminate; tauto).
Qed.
Print Assumptions c164_products.
(** The statistics leave the distributions in both forms and the statistics of the cells. *)
Theorem c164_statistics_products : forall tag c tcs s n, snd (act tag c tcs ExecuteStat s) = true ->
  (present (fst (act tag c tcs ExecuteStat s)) n <->
   In n ["all_cell_cdf_init_day"; "all_cell_cdf_init_day.nc"; "originPDF.nc"; "all_cell_cdf_init_bearing"; "all_cell_cdf_init_bearing.nc";
         "all_cell_cdf_init_speed"; "all_cell_cdf_init_speed.nc"; "all_cell_cdf_init_pressure"; "all_cell_cdf_init_pressure.nc";
         "speed_stats.nc"; "speed_rate_stats.nc"; "pressure_stats.nc"; "pressure_rate_stats.nc"; "bearing_stats.nc"; "bearing_rate_stats.nc"] \/
   (rmwFromInput c = true /\ In n ["all_cell_cdf_init_rmax"; "all_cell_cdf_init_rmax.nc"]) \/ present s n).
Proof.
  intros tag c tcs s n. cbn [act]. pose proof (exec_writes (statistics c) [tag] s) as H.
  destruct (exec (statistics c) [tag] s) as [[s' acc] ok]. cbn [fst snd] in *. intros ->. rewrite (H eq_refl n). clear H.
  unfold statistics. destruct (rmwFromInput c); cbn [app cellCdf cellStats writes append In]; split; intros; intuition (discriminate || tauto).
Qed.
Print Assumptions c164_statistics_products.
(** The hazard plots need the hazard file and change nothing. *)
Theorem c164_hazard_plots : forall tag c tcs s, fst (act tag c tcs PlotHazard s) = s /\
  (snd (act tag c tcs PlotHazard s) = true <-> get s Haz <> None).
Proof. intros. cbn. split; [reflexivity|]. destruct (get s Haz); split; congruence. Qed.
Print Assumptions c164_hazard_plots.
Example c164_products_example : snd (act 1 (plain_cfg 1 false false) (fun _ => 1) DataProcess []) = true /\
  snd (act 1 (plain_cfg 1 false false) (fun _ => 1) ExecuteStat (fst (act 1 (plain_cfg 1 false false) (fun _ => 1) DataProcess []))) = true.
Proof. vm_compute. split; reflexivity. Qed.
