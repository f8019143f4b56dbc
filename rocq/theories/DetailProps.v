(** Details of properties stated elsewhere: settings, shape file formats, progress, directories. Each was added because a wrong
    version of a definition passed all the theorems there were (see seeded/LOG.jsonl). *)
From Coq Require Import QArith Qround ZArith List Bool Arith Ascii String Lia Lqa.
From Verif Require Import Base CellModel NamesModel UtilModel ShapeModel AppModel AppProps.
Import ListNotations.
Close Scope Q_scope. Open Scope list_scope. Open Scope nat_scope.

(** * C42 *)
Open Scope string_scope.
(** What getboolean accepts, in any case. *)
Theorem c42_getboolean : forall txt,
  (getboolean txt = Some true <-> In (lower txt) ["1"; "yes"; "true"; "on"]) /\
  (getboolean txt = Some false <-> In (lower txt) ["0"; "no"; "false"; "off"]).
Proof.
  intros txt. unfold getboolean. set (t := lower txt). clearbody t.
  assert (E : forall l, existsb (String.eqb t) l = true <-> In t l).
  { intros l. rewrite existsb_exists. split; [intros (x & I & H); apply String.eqb_eq in H; now subst|intros I; exists t; split; [exact I|apply String.eqb_refl]]. }
  destruct (existsb (String.eqb t) ["1"; "yes"; "true"; "on"]) eqn:A.
  - apply E in A. split; [tauto|]. split; [discriminate|]. cbn in *. intuition (subst; discriminate).
  - assert (NA : ~ In t ["1"; "yes"; "true"; "on"]) by (rewrite <- E; congruence).
    destruct (existsb (String.eqb t) ["0"; "no"; "false"; "off"]) eqn:B.
    + apply E in B. split; [split; [discriminate|tauto]|tauto].
    + assert (NB : ~ In t ["0"; "no"; "false"; "off"]) by (rewrite <- E; congruence). split; split; (discriminate || tauto).
Qed.
(** The settings that items(section) gives as booleans: those named here. The booleans SmoothPlots of Hazard and Extract and
    Windfields of Timeseries are registered under names with capitals, and come as text. *)
Definition booleans : list (string * string) :=
  [("Actions", "dataprocess"); ("Actions", "executehazard"); ("Actions", "executestat"); ("Actions", "executetrackgenerator");
   ("Actions", "executewindfield"); ("Actions", "plotdata"); ("Actions", "plothazard"); ("Actions", "createdatabase");
   ("Actions", "downloaddata"); ("Actions", "executeevaluate"); ("DataProcess", "filterseasons"); ("Hazard", "calculateci");
   ("Logging", "progressbar"); ("Logging", "verbose"); ("Logging", "datestamp"); ("Process", "excludepastprocessed");
   ("RMW", "getrmwdistfrominputdata"); ("WindfieldInterface", "plotoutput")].
Fixpoint has_us (s : string) : bool := match s with EmptyString => false | String c r => Ascii.eqb c "_" || has_us r end.
Lemma has_us_app : forall a b, has_us (a ++ b) = has_us a || has_us b.
Proof. induction a as [|c a IH]; intros b; [reflexivity|]. cbn. rewrite IH. apply orb_assoc. Qed.
Lemma split_us : forall s1 n1 s2 n2, has_us s2 = false -> has_us n2 = false -> s1 ++ "_" ++ n1 = s2 ++ "_" ++ n2 -> s1 = s2 /\ n1 = n2.
Proof.
  induction s1 as [|c s1 IH]; intros n1 [|d s2] n2 H2 N2 E.
  - cbn in E. injection E as E. now split.
  - cbn in E. injection E as E _. subst d. cbn in H2. discriminate.
  - cbn in E. injection E as -> E. exfalso. assert (has_us n2 = true); [|congruence]. rewrite <- E, has_us_app. cbn. now rewrite orb_true_r.
  - cbn in E. injection E as -> E. cbn in H2. apply orb_false_iff in H2. destruct H2 as [_ H2].
    destruct (IH n1 s2 n2 H2 N2 E) as [-> ->]. now split.
Qed.
Fixpoint lowercase (s : string) : bool := match s with EmptyString => true | String c r => negb ((65 <=? nat_of_ascii c) && (nat_of_ascii c <=? 90))%nat && lowercase r end.
Lemma lowerA_lower : forall c, negb ((65 <=? nat_of_ascii (lowerA c)) && (nat_of_ascii (lowerA c) <=? 90))%nat = true.
Proof. intros c. destruct c as [[|] [|] [|] [|] [|] [|] [|] [|]]; reflexivity. Qed.
Lemma lower_lowercase : forall s, lowercase (lower s) = true.
Proof. induction s as [|c s IH]; [reflexivity|]. cbn [lower lowercase]. rewrite lowerA_lower, IH. reflexivity. Qed.
Theorem c42_items_refuted : forall section name txt,
  (In (section, lower name) booleans -> cfgItem section name txt = IBool (parseBool txt)) /\
  (~ In (section, lower name) booleans -> cfgItem section name txt = IText txt).
Proof.
  intros section name txt. unfold cfgItem. pose proof (lower_lowercase name) as L. set (n := lower name) in *. clearbody n.
  assert (X : existsb (String.eqb (section ++ "_" ++ n)) boolKeys = true <-> In (section, n) booleans).
  { rewrite existsb_exists. split.
    - intros (k & I & E). apply String.eqb_eq in E. subst k.
      assert (S : forall s2 n2, has_us s2 = false -> has_us n2 = false -> s2 ++ "_" ++ n2 = section ++ "_" ++ n -> section = s2 /\ n = n2) by (intros; now apply split_us).
      cbn [In boolKeys] in I.
      repeat (destruct I as [I|I];
        [first [ solve [destruct (S "Hazard" "SmoothPlots" eq_refl eq_refl I) as [-> ->]; discriminate L]
               | solve [destruct (S "Timeseries" "Extract" eq_refl eq_refl I) as [-> ->]; discriminate L]
               | solve [destruct (S "Timeseries" "Windfields" eq_refl eq_refl I) as [-> ->]; discriminate L]
               | match goal with |- In _ ?l => let rec go l := match l with (?a, ?b) :: ?r => first [ destruct (S a b eq_refl eq_refl I) as [-> ->]; solve [cbn; tauto] | go r ] end in
                   let l' := eval unfold booleans in l in go l' end ]|]).
      contradiction.
    - intros I. exists (section ++ "_" ++ n). split; [|apply String.eqb_refl]. cbn [In booleans] in I.
      decompose [or] I; try contradiction; match goal with H : (_, _) = (_, _) |- _ => injection H as <- <- end; cbn; tauto. }
  split; intros H.
  - now rewrite (proj2 X H).
  - destruct (existsb _ boolKeys); [tauto|reflexivity].
Qed.
Example c42_items_ex : cfgItem "Hazard" "SmoothPlots" "True" = IText "True" /\ cfgItem "Hazard" "CalculateCI" "True" = IBool true.
Proof. split; reflexivity. Qed.

(** * C142, C143 *)
(** Which shapes are written for which name of a format. *)
Theorem c143_formats_refuted : forall fmt,
  (shpSaveTrackFile fmt = Some wPoint <-> fmt = "points") /\ (shpSaveTrackFile fmt = Some (wLine true) <-> fmt = "lines") /\
  (shpSaveTrackFile fmt = Some (wLine false) <-> fmt = "segments") /\ shpSaveTrackFile defaultFmt = None /\ defaultFmt = "point".
Proof.
  intros fmt. unfold shpSaveTrackFile. destruct (String.eqb_spec fmt "points") as [->|A]; [repeat split; congruence|].
  destruct (String.eqb_spec fmt "lines") as [->|B]; [repeat split; congruence|].
  destruct (String.eqb_spec fmt "segments") as [->|D]; repeat split; congruence.
Qed.
(** The description of a field: decimals only for numbers with decimals (type 2). *)
Theorem c142_fields : forall V (data : list (field V)), map fst (fst (parseData data)) = map f_name data /\
  forall k f, nth_error data k = Some f -> nth_error (map snd (fst (parseData data))) k = Some (if Nat.eqb (f_type f) 2 then f_prec f else 0%nat).
Proof.
  intros V data. unfold parseData. cbn [fst]. split.
  - rewrite map_map. reflexivity.
  - intros k f H. rewrite map_map. cbn [snd]. rewrite (map_nth_error _ _ _ H). destruct (f_type f) as [|[|[|?]]]; reflexivity.
Qed.

(** * C152 *)
Close Scope string_scope.
(** The progress of a part of the work, placed in the whole: from its start to its end, in proportion. *)
Theorem c152_position : forall s e p q : Q, (position 0 s e == s /\ position 1 s e == e /\
  position q s e - position p s e == (q - p) * (e - s))%Q.
Proof. intros. unfold position. repeat split; ring. Qed.
Theorem c152_times : forall p t : Q, ((p == 0)%Q -> timeStr p t = Unknown) /\ ((p == 1)%Q -> timeStr p t = Elapsed t) /\
  (~ (p == 0)%Q -> ~ (p == 1)%Q -> timeStr p t = Remaining (t / p - t)).
Proof.
  intros p t. unfold timeStr.
  destruct (Qeq_bool p 0) eqn:A; [apply Qeq_bool_iff in A|assert (NA : ~ (p == 0)%Q) by (rewrite <- Qeq_bool_iff; congruence)].
  - split; [reflexivity|]. split; [intros; exfalso; lra|tauto].
  - destruct (Qeq_bool p 1) eqn:B; [apply Qeq_bool_iff in B|assert (NB : ~ (p == 1)%Q) by (rewrite <- Qeq_bool_iff; congruence)];
      (split; [tauto|split; [tauto|tauto || reflexivity]]).
Qed.
(** Without a terminal, and with an empty setting, nothing is shown. *)
Theorem c152_silent : forall width ups setting, progressBar false setting width ups = [] /\ progressBar true (showSetting "") width ups = [].
Proof.
  intros width ups setting. unfold progressBar. assert (H : forall last, runBar false width last ups = []).
  { induction ups as [|[p t] ups IH]; intros last; [reflexivity|]. cbn. apply IH. }
  split; apply H.
Qed.
Open Scope string_scope.
Theorem c152_layout : forall (fs : fsys) out, out <> []%list ->
  (forall s q, s = []%list \/ In s (tcrmDirs ++ tceventDirs)%list -> isPrefix q (out ++ s)%list -> fs q <> File) ->
  exists g h : fsys, createOutput fs out tcrmDirs = Some g /\ createOutput fs out tceventDirs = Some h /\
    (forall s, In s [["tracks"]; ["hazard"]; ["windfield"]; ["plots"]; ["plots"; "hazard"]; ["plots"; "stats"]; ["log"]; ["process"];
                     ["process"; "timeseries"]; ["process"; "dat"]] -> g (out ++ s)%list = Dir) /\
    (forall s, In s [["tracks"]; ["windfield"]; ["plots"]; ["plots"; "timeseries"]; ["log"]; ["process"]; ["process"; "timeseries"]] ->
       h (out ++ s)%list = Dir).
Proof.
  intros fs out N H.
  destruct (c152_directories fs out tcrmDirs N) as (g & G & _ & DG & _); [intros s q [->|I]; apply H; [now left|right; apply in_or_app; now left]|].
  destruct (c152_directories fs out tceventDirs N) as (h & G' & _ & DH & _); [intros s q [->|I]; apply H; [now left|right; apply in_or_app; now right]|].
  exists g, h. split; [exact G|]. split; [exact G'|]. split; intros s I; [apply DG|apply DH]; exact I.
Qed.
(** * C153 *)
(** The tracks of a simulation are numbered from 0, so that none has the name the plot looks for; the sections of the
    configuration that are always there. *)
Theorem c153_numbers_refuted : forall n s id, (In id (simIds n s) <-> (fst id < n)%nat /\ snd id = s).
Proof.
  intros n s [i j]. unfold simIds. rewrite in_map_iff. cbn. split.
  - intros (k & E & I). injection E as <- <-. apply in_seq in I. split; [lia|reflexivity].
  - intros [L ->]. exists i. split; [reflexivity|]. apply in_seq. lia.
Qed.
Theorem c153_sections_refuted : forall sections s, hasSection sections s = true <->
  In s sections \/ In s ["Actions"; "Region"; "DataProcess"; "StatInterface"; "TrackGenerator"; "WindfieldInterface"; "Hazard"; "RMW"; "Input";
                         "Output"; "Timeseries"; "Logging"; "Source"; "IBTRACS"; "LTMSLP"].
Proof.
  intros sections s. unfold hasSection. rewrite existsb_exists. split.
  - intros (x & I & E). apply String.eqb_eq in E. subst x. apply in_app_or in I. tauto.
  - intros H. exists s. split; [apply in_or_app; tauto|apply String.eqb_refl].
Qed.

Print Assumptions c42_getboolean.
Print Assumptions c42_items_refuted.
Print Assumptions c143_formats_refuted.
Print Assumptions c142_fields.
Print Assumptions c152_position.
Print Assumptions c152_times.
Print Assumptions c152_silent.
Print Assumptions c152_layout.
Print Assumptions c153_numbers_refuted.
Print Assumptions c153_sections_refuted.
