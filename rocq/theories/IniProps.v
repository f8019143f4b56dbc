(** C194, C195: reading options through cnfGetIniValue. *)
From Coq Require Import List ZArith QArith Bool Ascii String Lia.
From Verif Require Import UtilModel UtilProofs UtilProofs2 IniModel.
Import ListNotations.
Close Scope Q_scope.
Open Scope list_scope.
Open Scope string_scope.

Section P.
Context {V : Type} (eval : string -> ev V) (toInt : string -> option Z) (toFloat : string -> option Q).
Notation ask := (cnfGetIniValue eval toInt toFloat).
Notation asks := (queries eval toInt toFloat).

(** The text in force for an option: that of the file, else that of the built-in defaults. *)
Definition inForce (defaults c : content) (sec o t : string) : Prop :=
  gives c sec o t \/ ((forall v, ~ gives c sec o v) /\ gives defaults sec o t).
Definition unset (defaults c : content) (sec o : string) : Prop :=
  forall v, ~ gives c sec o v /\ ~ gives defaults sec o v.

Lemma read_again files s f : readonce s = true -> cfgRead files s f = (s, COk tt).
Proof. unfold cfgRead. destruct f; [|reflexivity]. now intros ->. Qed.

Lemma asks_state files qs : forall s, readonce s = true -> fst (asks files s qs) = s.
Proof.
  induction qs as [|[[[f sec] o] d] qs IH]; intros s R; [reflexivity|]. cbn [queries].
  unfold cnfGetIniValue. rewrite (read_again files s f R).
  specialize (IH s R). destruct (asks files s qs). cbn in *. exact IH.
Qed.

Lemma empty_get sec o : cfgGet (mkCfg dempty false) sec o = CNoSection.
Proof. reflexivity. Qed.

Lemma text_in_force defaults c sec o t : wellFormed defaults -> wellFormed c ->
  inForce defaults c sec o t ->
  cfgGet (mkCfg (merge (secs (cfgNew defaults)) c) true) sec o = COk (VStr t).
Proof.
  intros W1 W2 [G|[N G]]; [now apply get_given|].
  apply (get_not_given _ c true false sec o (VStr t) W2 N). cbn [cfgNew secs].
  now apply get_given.
Qed.

Lemma text_unset defaults c sec o w : wellFormed defaults -> wellFormed c ->
  unset defaults c sec o ->
  cfgGet (mkCfg (merge (secs (cfgNew defaults)) c) true) sec o <> COk w.
Proof.
  intros W1 W2 U E.
  apply (proj1 (get_not_given (secs (cfgNew defaults)) c true false sec o w W2 (fun v => proj1 (U v)))) in E.
  cbn [cfgNew secs] in E.
  apply (proj1 (get_not_given dempty defaults false false sec o w W1 (fun v => proj2 (U v)))) in E.
  rewrite empty_get in E. discriminate.
Qed.

Lemma has_of_get s sec o w : cfgGet s sec o = COk w -> hasSection s sec = true /\ hasOption s sec o = true.
Proof.
  unfold cfgGet, hasSection, hasOption. destruct (secs s sec); [|discriminate].
  destruct (d (lower o)); [auto|discriminate].
Qed.
Lemma hasnt_of_get s sec o : (forall w, cfgGet s sec o <> COk w) ->
  hasSection s sec = false \/ hasOption s sec o = false.
Proof.
  unfold cfgGet, hasSection, hasOption. destruct (secs s sec); [|auto].
  destruct (d (lower o)) as [v|]; [|auto]. intros H. now specialize (H v).
Qed.

(** The state after the first call that names an existing file, followed by any calls. *)
Lemma state_after files defaults n c sec0 o0 d0 qs : files n = Some c ->
  fst (asks files (cfgNew defaults) ((Some n, sec0, o0, d0) :: qs))
  = mkCfg (merge (secs (cfgNew defaults)) c) true.
Proof.
  intros F. cbn [queries]. unfold cnfGetIniValue at 1.
  rewrite (read_first files (cfgNew defaults) n c eq_refl F).
  match goal with |- context [asks files ?s qs] => pose proof (asks_state files qs s eq_refl) as A;
    destruct (asks files s qs) end. exact A.
Qed.

(** * C194 *)
(** After a process has read a file, whatever else it has asked for and whatever file name
    the call gives: an option with a text in force comes back as the text itself for a text
    default, as the truth value the text spells for a truth value, as the number it spells
    for a number and as what it evaluates to for a dictionary.  A text that does not spell
    such a value is a ValueError. *)
Theorem c194_value files defaults n c sec0 o0 d0 qs f sec o t :
  files n = Some c -> wellFormed defaults -> wellFormed c -> inForce defaults c sec o t ->
  let s := fst (asks files (cfgNew defaults) ((Some n, sec0, o0, d0) :: qs)) in
  (forall x, snd (ask files s f sec o (PStr x)) = IVal (PStr t)) /\
  (forall x b, snd (ask files s f sec o (PBool x)) = IVal (PBool b) <->
     In (lower t) (if b then ["1"; "yes"; "true"; "on"] else ["0"; "no"; "false"; "off"])) /\
  (forall x z, snd (ask files s f sec o (PInt x)) = IVal (PInt z) <-> toInt t = Some z) /\
  (forall x q, snd (ask files s f sec o (PFloat x)) = IVal (PFloat q) <-> toFloat t = Some q) /\
  (forall x v, snd (ask files s f sec o (PDict x)) = IVal v <-> eval t = EvOk v) /\
  (forall v, eval t = EvOk v -> snd (ask files s f sec o PNone) = IVal v) /\
  (eval t = EvName \/ eval t = EvSyntax -> snd (ask files s f sec o PNone) = IVal (PStr t)) /\
  (forall d, snd (ask files s f sec o d) = IValueError <->
     match d with
     | PBool _ => getboolean t = None
     | PInt _ => toInt t = None
     | PFloat _ => toFloat t = None
     | _ => False
     end).
Proof.
  intros F W1 W2 T. cbv zeta.
  rewrite (state_after files defaults n c sec0 o0 d0 qs F).
  pose proof (text_in_force defaults c sec o t W1 W2 T) as G. revert G.
  set (s := mkCfg _ true). intros G. destruct (has_of_get s sec o _ G) as [H1 H2].
  assert (A : forall d, snd (ask files s f sec o d) = byDefault eval toInt toFloat s sec o d).
  { intros d. unfold cnfGetIniValue. rewrite (read_again files s f eq_refl), H1, H2. reflexivity. }
  repeat split; intros; rewrite ?A in *; cbn [byDefault] in *; unfold getRaw, getWith, evalText in *;
    rewrite ?G in *.
  - reflexivity.
  - unfold getboolean in H.
    destruct (existsb _ ["1"; "yes"; "true"; "on"]) eqn:E1.
    + injection H as <-. apply existsb_exists in E1 as (k & K1 & K2). apply String.eqb_eq in K2. now subst k.
    + destruct (existsb _ ["0"; "no"; "false"; "off"]) eqn:E2; [|discriminate].
      injection H as <-. apply existsb_exists in E2 as (k & K1 & K2). apply String.eqb_eq in K2. now subst k.
  - unfold getboolean. destruct b; cbn [In] in H; intuition (match goal with E : _ = lower t |- _ => rewrite <- E end; reflexivity).
  - destruct (toInt t); [|discriminate]. now injection H as <-.
  - now rewrite H.
  - destruct (toFloat t); [|discriminate]. now injection H as <-.
  - now rewrite H.
  - destruct (eval t); try discriminate. now injection H as <-.
  - now rewrite H.
  - now rewrite H.
  - now destruct H as [-> | ->].
  - destruct d; cbn [byDefault] in H; unfold getRaw, getWith, evalText in H; rewrite ?G in H;
      try discriminate H.
    + destruct (eval t); discriminate.
    + destruct (getboolean t); [discriminate|reflexivity].
    + destruct (toInt t); [discriminate|reflexivity].
    + destruct (toFloat t); [discriminate|reflexivity].
    + destruct (eval t); discriminate.
  - destruct d; try contradiction; cbn [byDefault]; unfold getWith; rewrite G, H; reflexivity.
Qed.

(** An option neither the file nor the built-in defaults set gives the default back, of
    whatever type, and never an exception. *)
Theorem c194_default files defaults n c sec0 o0 d0 qs f sec o d :
  files n = Some c -> wellFormed defaults -> wellFormed c -> unset defaults c sec o ->
  let s := fst (asks files (cfgNew defaults) ((Some n, sec0, o0, d0) :: qs)) in
  snd (ask files s f sec o d) = IVal d.
Proof.
  intros F W1 W2 U. cbv zeta.
  rewrite (state_after files defaults n c sec0 o0 d0 qs F).
  pose proof (fun w => text_unset defaults c sec o w W1 W2 U) as G. revert G.
  set (s := mkCfg _ true). intros G. unfold cnfGetIniValue. rewrite (read_again files s f eq_refl).
  destruct (hasnt_of_get s sec o G) as [-> | H2]; [reflexivity|]. rewrite H2.
  now destruct (hasSection s sec).
Qed.

(** A call in a process that has read no file fails for a file that does not exist, and leaves
    the parser as it was. *)
Theorem c194_no_file files s n sec o d : readonce s = false -> files n = None ->
  ask files s (Some n) sec o d = (s, IValueError).
Proof. intros R F. unfold cnfGetIniValue, cfgRead. now rewrite R, F. Qed.

(** The order of the questions does not matter: asking the same things in a longer
    sequence gives each the answer it gets alone. *)
Theorem c194_order files s qs : readonce s = true ->
  snd (asks files s qs) = map (fun q => let '(f, sec, o, d) := q in snd (ask files s f sec o d)) qs.
Proof.
  intros R. induction qs as [|[[[f sec] o] d] qs IH]; [reflexivity|]. cbn [queries map].
  unfold cnfGetIniValue at 1. unfold cnfGetIniValue at 1. rewrite (read_again files s f R).
  destruct (asks files s qs) as [s2 rs]. cbn [snd] in *. now rewrite IH.
Qed.

(** * C195 *)
(** The documented NoSectionError and NoOptionError do not come: without a default the call
    gives None.  (No result of the model stands for them; the claim is the value.) *)
Theorem c195_silent_refuted files defaults n c sec o :
  files n = Some c -> wellFormed defaults -> wellFormed c -> unset defaults c sec o ->
  snd (ask files (cfgNew defaults) (Some n) sec o PNone) = IVal PNone.
Proof.
  intros F W1 W2 U. pose proof (fun w => text_unset defaults c sec o w W1 W2 U) as G. revert G.
  unfold cnfGetIniValue. rewrite (read_first files (cfgNew defaults) n c eq_refl F).
  set (s := mkCfg _ true). intros G.
  destruct (hasnt_of_get s sec o G) as [-> | H2]; [reflexivity|]. rewrite H2. cbn [snd].
  now destruct (hasSection s sec).
Qed.

(** The default of the call is not used for an option the file does not set but the built-in
    defaults do. *)
Theorem c195_shadowed_refuted files defaults n c sec o t x :
  files n = Some c -> wellFormed defaults -> wellFormed c ->
  (forall v, ~ gives c sec o v) -> gives defaults sec o t -> x <> t ->
  snd (ask files (cfgNew defaults) (Some n) sec o (PStr x)) = IVal (PStr t) /\ t <> x.
Proof.
  intros F W1 W2 N G X. split; [|auto].
  pose proof (text_in_force defaults c sec o t W1 W2 (or_intror (conj N G))) as T. revert T.
  unfold cnfGetIniValue. rewrite (read_first files (cfgNew defaults) n c eq_refl F).
  set (s := mkCfg _ true). intros T. destruct (has_of_get s sec o _ T) as [-> ->].
  cbn [negb snd byDefault]. unfold getRaw. now rewrite T.
Qed.

(** With a default that is a list, a tuple or an array the value of the file is lost: the
    call gives None although the option is set. *)
Theorem c195_list_refuted files defaults n c sec o t d :
  files n = Some c -> wellFormed defaults -> wellFormed c -> gives c sec o t ->
  (exists l, d = PList l) \/ (exists v, d = PObj v) ->
  snd (ask files (cfgNew defaults) (Some n) sec o d) = IVal PNone.
Proof.
  intros F W1 W2 G D.
  pose proof (text_in_force defaults c sec o t W1 W2 (or_introl G)) as T. revert T.
  unfold cnfGetIniValue. rewrite (read_first files (cfgNew defaults) n c eq_refl F).
  set (s := mkCfg _ true). intros T. destruct (has_of_get s sec o _ T) as [-> ->].
  destruct D as [[l ->]|[v ->]]; reflexivity.
Qed.

(** Without a default, a text that happens to be an expression is not given back as it
    stands, and one whose evaluation fails otherwise ends the call. *)
Theorem c195_evaluated_refuted files defaults n c sec o t :
  files n = Some c -> wellFormed defaults -> wellFormed c -> gives c sec o t ->
  (eval t = EvOther -> snd (ask files (cfgNew defaults) (Some n) sec o PNone) = IEval) /\
  (forall v, eval t = EvOk v -> v <> PStr t ->
     snd (ask files (cfgNew defaults) (Some n) sec o PNone) <> IVal (PStr t)).
Proof.
  intros F W1 W2 G.
  pose proof (text_in_force defaults c sec o t W1 W2 (or_introl G)) as T. revert T.
  unfold cnfGetIniValue. rewrite (read_first files (cfgNew defaults) n c eq_refl F).
  set (s := mkCfg _ true). intros T. destruct (has_of_get s sec o _ T) as [-> ->].
  cbn [negb snd byDefault]. rewrite T. split.
  - now intros ->.
  - intros v -> N E. injection E as E. auto.
Qed.

(** The file named in a later call is not read, whether it sets the option otherwise or does
    not exist at all. *)
Theorem c195_other_file_refuted files defaults n c n2 c2 sec o t t2 x :
  files n = Some c -> files n2 = Some c2 -> wellFormed defaults -> wellFormed c ->
  gives c sec o t -> gives c2 sec o t2 -> t <> t2 ->
  let s := fst (ask files (cfgNew defaults) (Some n) sec o (PStr x)) in
  snd (ask files s (Some n2) sec o (PStr x)) <> IVal (PStr t2).
Proof.
  intros F F2 W1 W2 G G2 N. cbv zeta.
  pose proof (text_in_force defaults c sec o t W1 W2 (or_introl G)) as T. revert T.
  unfold cnfGetIniValue at 2. rewrite (read_first files (cfgNew defaults) n c eq_refl F). cbn [fst].
  set (s := mkCfg _ true). intros T. unfold cnfGetIniValue. rewrite (read_again files s _ eq_refl).
  destruct (has_of_get s sec o _ T) as [-> ->]. cbn [negb snd byDefault]. unfold getRaw. rewrite T.
  intros E. injection E as E. auto.
Qed.
End P.

(** * Examples *)
Definition iniDefaults : content := [("Logging", [("LogLevel", "INFO")]); ("IBTRACS", [("path", "input")])].
Definition iniFile : content :=
  [("Output", [("Path", "io.out")]); ("Hazard", [("CalculateCI", "Yes"); ("Years", "2,5"); ("SampleSize", "50")])].
Definition iniOther : content := [("Output", [("Path", "elsewhere")])].
Definition iniFiles : dict content := dput (dput dempty "main.ini" iniFile) "other.ini" iniOther.
(** A few texts as Python evaluates them: a builtin, an unknown attribute of a module config.py
    imports, a tuple, a number. *)
Definition iniEval (t : string) : ev nat :=
  if String.eqb t "input" then EvOk (PObj 1) else if String.eqb t "io.out" then EvOther
  else if String.eqb t "2,5" then EvOk (PObj 2) else if String.eqb t "50" then EvOk (PInt 50)
  else EvName.
Definition iniInt (t : string) : option Z := if String.eqb t "50" then Some 50%Z else None.
Definition iniFloat (t : string) : option Q := if String.eqb t "50" then Some 50%Q else None.

Lemma ini_wf : wellFormed iniFile /\ wellFormed iniDefaults.
Proof.
  split.
  - split; [|intros sec opts H]; [|cbn in H; destruct H as [H|[H|[]]]; injection H as <- <-];
      repeat constructor; cbn; intuition discriminate.
  - split; [|intros sec opts H]; [|cbn in H; destruct H as [H|[H|[]]]; injection H as <- <-];
      repeat constructor; cbn; intuition discriminate.
Qed.

Lemma ini_unset : unset iniDefaults iniFile "Region" "gridLimit".
Proof.
  intros v. split; intros (opts & o' & H1 & _); cbn in H1; destruct H1 as [H|[H|[]]]; discriminate H.
Qed.

Example c194_ex :
  iniFiles "main.ini" = Some iniFile /\ wellFormed iniFile /\ wellFormed iniDefaults /\
  inForce iniDefaults iniFile "Hazard" "calculateci" "Yes" /\
  unset iniDefaults iniFile "Region" "gridLimit" /\
  snd (queries iniEval iniInt iniFloat iniFiles (cfgNew iniDefaults)
    [(Some "main.ini", "Hazard", "SampleSize", PInt 10); (None, "Hazard", "calculateCI", PBool false);
     (Some "other.ini", "Output", "path", PStr "x"); (None, "Hazard", "SampleSize", PFloat 1);
     (None, "Hazard", "SampleSize", PBool false); (None, "Region", "gridLimit", PInt 7)])
  = [IVal (PInt 50); IVal (PBool true); IVal (PStr "io.out"); IVal (PFloat 50); IValueError; IVal (PInt 7)].
Proof.
  split; [reflexivity|]. split; [apply ini_wf|]. split; [apply ini_wf|].
  split; [|split; [apply ini_unset|reflexivity]].
  left. exists [("CalculateCI", "Yes"); ("Years", "2,5"); ("SampleSize", "50")], "CalculateCI".
  cbn; auto.
Qed.

Example c195_ex :
  (forall v, ~ gives iniFile "Logging" "LogLevel" v) /\ gives iniDefaults "Logging" "LogLevel" "INFO" /\
  gives iniFile "Output" "Path" "io.out" /\ gives iniOther "Output" "Path" "elsewhere" /\
  gives iniFile "Hazard" "Years" "2,5" /\
  map (fun q => let '(sec, o, d) := q in
         snd (cnfGetIniValue iniEval iniInt iniFloat iniFiles (cfgNew iniDefaults) (Some "main.ini") sec o d))
    [("Logging", "LogLevel", PStr "DEBUG"); ("Region", "gridLimit", PNone); ("Output", "Path", PNone);
     ("IBTRACS", "path", PNone); ("Hazard", "Years", PList ["1"])]
  = [IVal (PStr "INFO"); IVal PNone; IEval; IVal (PObj 1); IVal PNone].
Proof.
  split; [|split; [|split; [|split; [|split; [|reflexivity]]]]].
  - intros v (opts & o' & H1 & _). cbn in H1. destruct H1 as [H|[H|[]]]; discriminate H.
  - exists [("LogLevel", "INFO")], "LogLevel". cbn; auto.
  - exists [("Path", "io.out")], "Path". cbn; auto.
  - exists [("Path", "elsewhere")], "Path". cbn; auto.
  - exists [("CalculateCI", "Yes"); ("Years", "2,5"); ("SampleSize", "50")], "Years". cbn; auto.
Qed.
Print Assumptions c194_value.
Print Assumptions c194_default.
Print Assumptions c194_no_file.
Print Assumptions c194_order.
Print Assumptions c195_silent_refuted.
Print Assumptions c195_shadowed_refuted.
Print Assumptions c195_list_refuted.
Print Assumptions c195_evaluated_refuted.
Print Assumptions c195_other_file_refuted.
