(** C39-C44, C87: record arrays, processed-file ledger, configuration, master-only
    functions, barriers and parallel evaluation. *)
From Coq Require Import List Arith Lia Bool Ascii String QArith Permutation.
From Verif Require Import Base TileSpec UtilModel UtilProofs UtilProofs2 BarrierModel BarrierProofs
  MWModel EvalModel EvalProofs.
Import ListNotations.
Close Scope Q_scope.
Open Scope list_scope.
Open Scope nat_scope.

(** * C39 *)
(** Any sequence of appends and extends succeeds, whatever the uninitialised memory held,
    and leaves exactly the records given, in order. *)
Theorem c39_like_a_list {A} (junk : list A) (ops : list dynOp) : List.length junk = 10 ->
  exists s, dynRun (dynNew junk) ops = Some s /\
    dynData s = flat_map (fun o => match o with Append r => [r] | Extend rs => rs end) ops /\
    dlen s = List.length (dynData s).
Proof.
  intros H. destruct (dyn_all junk ops H) as (s & H1 & H2 & H3). exists s.
  split; [exact H1|]. split; [exact H2|]. now rewrite H2.
Qed.
Print Assumptions c39_like_a_list.

Example c39_ex : exists s, dynRun (dynNew (repeat 7 10)) [Append 1; Extend (seq 2 12); Append 20] = Some s /\
  dynData s = [1;2;3;4;5;6;7;8;9;10;11;12;13;20] /\ dsize s = 15.
Proof. eexists. vm_compute. auto. Qed.

(** * C40 *)
Open Scope string_scope.
(** Recording a file answers both attributes at once, and the call reports success. *)
Theorem c40_recorded s r n : datfile s = Some n -> n <> "" ->
  snd (pWrite s (Some r)) = PRet 1 /\
  forall v, (pAlready (pfiles (pDo s (OWrite r))) (sdir r) (sname r) "md5sum" v = true <-> v = smd5 r) /\
            (pAlready (pfiles (pDo s (OWrite r))) (sdir r) (sname r) "moddate" v = true <-> v = smod r).
Proof.
  intros H1 H2. destruct (pWrite_get s r n H1 H2) as (A & B & C). split; [exact A|].
  intros v. unfold pAlready. rewrite B, C. now rewrite !String.eqb_eq.
Qed.
Print Assumptions c40_recorded.

(** Nothing else changes: an answer about an attribute of a file is the same before and after
    any history that does not record that attribute of that file. *)
Theorem c40_others_unaffected s ops d f a v : Forall (fun o => ~ touches d f a o) ops ->
  pAlready (pfiles (fold_left pDo ops s)) d f a v = pAlready (pfiles s) d f a v.
Proof. intros H. unfold pAlready. now rewrite run_other. Qed.
Print Assumptions c40_others_unaffected.

(** Reading the ledger file in a new process, or again in the same one, gives the answers
    the writing process gives, for names without '|' and line ends. *)
Theorem c40_reload_partial n dk rs0 rs : n <> "" -> Forall cleanStat (rs0 ++ rs)%list ->
  ledgerFile dk n rs0 ->
  let s1 := fst (pGetFiles (mkP None dempty dk) (Some n)) in
  let s2 := fold_left pDo (map OWrite rs) s1 in
  forall d f a v,
    pAlready (pfiles (fst (pGetFiles (mkP None dempty (disk s2)) (Some n)))) d f a v
      = pAlready (pfiles s2) d f a v /\
    pAlready (pfiles (fst (pGetFiles s2 (Some n)))) d f a v = pAlready (pfiles s2) d f a v.
Proof.
  intros H1 H2 H3. cbv zeta. destruct (ledger_reload n dk rs0 rs H1 H2 H3) as [A B].
  intros d f a v. unfold pAlready. now rewrite A, B.
Qed.
Print Assumptions c40_reload_partial.

Example c40_ex :
  let r1 := mkStat "/data" "a.csv" "d41d8" "Mon Jan  1" in
  let r2 := mkStat "/data" "b.csv" "ffff0" "Tue Jan  2" in
  Forall cleanStat ([r1] ++ [r2])%list /\ ledgerFile (dput dempty "p.dat" (record r1)) "p.dat" [r1] /\
  (let s1 := fst (pGetFiles (mkP None dempty (dput dempty "p.dat" (record r1))) (Some "p.dat")) in
   let s2 := fold_left pDo [OWrite r2] s1 in
   pAlready (pfiles (fst (pGetFiles (mkP None dempty (disk s2)) (Some "p.dat")))) "/data" "a.csv" "md5sum" "d41d8" = true /\
   pAlready (pfiles (fst (pGetFiles (mkP None dempty (disk s2)) (Some "p.dat")))) "/data" "b.csv" "moddate" "Tue Jan  2" = true).
Proof.
  cbv zeta. split; [|split; [reflexivity|vm_compute; auto]].
  repeat constructor.
Qed.

(** A file name with '|' makes the ledger unreadable for the next process: the recorded
    file, and every file recorded after it, is forgotten and the call raises. *)
Theorem c40_bar_refuted : exists r n,
  let s1 := fst (pGetFiles (mkP None dempty dempty) (Some n)) in
  let s2 := pDo s1 (OWrite r) in
  pAlready (pfiles s2) (sdir r) (sname r) "md5sum" (smd5 r) = true /\
  let '(s3, res) := pGetFiles (mkP None dempty (disk s2)) (Some n) in
  res = PRaise /\ pAlready (pfiles s3) (sdir r) (sname r) "md5sum" (smd5 r) = false.
Proof. exists (mkStat "/data" "a|b.csv" "d41d8" "Mon"), "p.dat". vm_compute. auto. Qed.
Print Assumptions c40_bar_refuted.

(** * C41 *)
(** The first file read decides every option it gives, whatever the case of the option name;
    for every other option the built-in default (or its absence) remains. *)
Theorem c41_first_read files defaults n c : files n = Some c -> wellFormed c ->
  let s := fst (cfgRead files (cfgNew defaults) (Some n)) in
  (forall sec o v, gives c sec o v -> cfgGet s sec o = COk (VStr v)) /\
  (forall sec o, (forall v, ~ gives c sec o v) ->
     forall w, cfgGet s sec o = COk w <-> cfgGet (cfgNew defaults) sec o = COk w).
Proof.
  intros Hf W. cbv zeta. rewrite (read_first files (cfgNew defaults) n c eq_refl Hf). cbn [fst].
  split; intros.
  - now apply get_given.
  - now apply get_not_given.
Qed.
Print Assumptions c41_first_read.

Theorem c41_defaults defaults sec o v : wellFormed defaults -> gives defaults sec o v ->
  cfgGet (cfgNew defaults) sec o = COk (VStr v).
Proof. intros W G. now apply get_given. Qed.
Print Assumptions c41_defaults.

(** Once a file has been read, reading any other file (existing or not) changes nothing,
    at any point of any history. *)
Theorem c41_later_reads_ignored files s n ops : snd (cfgRead files s (Some n)) = COk tt ->
  let s1 := fst (cfgRead files s (Some n)) in
  cfgRun files s1 ops = cfgRun files s1 (filter (fun o => match o with CSet _ _ _ => true | _ => false end) ops).
Proof.
  intros H. cbv zeta. apply reads_ignored. revert H. unfold cfgRead.
  destruct (readonce s) eqn:E; [auto|]. destruct (files n); [reflexivity|discriminate].
Qed.
Print Assumptions c41_later_reads_ignored.

(** After the first read a value set is what get returns, until the option is set again;
    other options are not touched. *)
Theorem c41_set_get_partial files s ops sec o v : readonce s = true -> secs s sec <> None ->
  sec ++ "_" ++ o <> "Input_mslpgrid" -> sec ++ "_" ++ o <> "TCRM_columns" ->
  Forall (fun op => ~ sets sec o op) ops ->
  cfgGet (cfgRun files s (CSet sec o v :: ops)) sec o = COk v /\
  (forall sec' o', (sec', lower o') <> (sec, lower o) ->
     cfgGet (cfgDo files s (CSet sec o v)) sec' o' = cfgGet s sec' o').
Proof.
  intros H1 H2 H3 H4 H5. split.
  - rewrite set_persists by auto. now rewrite formatted_id.
  - intros. cbn [cfgDo]. now apply set_other.
Qed.
Print Assumptions c41_set_get_partial.

Definition exDefaults : content :=
  [("Actions", [("DataProcess", "True"); ("PlotData", "True")]);
   ("Hazard", [("Years", "2,5,10"); ("SmoothPlots", "True")]); ("Input", [("MSLPFile", "slp.nc")])].
Definition exFile : content := [("Actions", [("plotdata", "False")]); ("Region", [("gridLimit", "x")])].
Definition exFiles : dict content := dput dempty "main.ini" exFile.

Example c41_ex : wellFormed exFile /\ wellFormed exDefaults /\
  (let s := fst (cfgRead exFiles (cfgNew exDefaults) (Some "main.ini")) in
   cfgGet s "Actions" "PlotData" = COk (VStr "False") /\
   cfgGet s "Actions" "DataProcess" = COk (VStr "True") /\
   cfgGet s "Region" "GridLimit" = COk (VStr "x") /\
   cfgGet (cfgRun exFiles s [CSet "Hazard" "Years" (VStr "7"); CRead (Some "other.ini")]) "Hazard" "years"
     = COk (VStr "7") /\ secs s "Hazard" <> None /\ readonce s = true).
Proof.
  split; [|split; [|vm_compute; repeat split; discriminate]].
  - split; [|intros sec opts H]; [|cbn in H; destruct H as [H|[H|[]]]; injection H as <- <-];
      repeat constructor; cbn; intuition discriminate.
  - split; [|intros sec opts H]; [|cbn in H; destruct H as [H|[H|[H|[]]]]; injection H as <- <-];
      repeat constructor; cbn; intuition discriminate.
Qed.

(** A value set before the first read is replaced by the one in the file, and a string set for
    a list option comes back with commas between its characters. *)
Theorem c41_set_refuted :
  (exists files defaults n sec o v,
     secs (cfgNew defaults) sec <> None /\
     cfgGet (cfgRun files (cfgNew defaults) [CSet sec o (VStr v); CRead (Some n)]) sec o <> COk (VStr v)) /\
  (exists defaults sec o v,
     secs (cfgNew defaults) sec <> None /\
     cfgGet (cfgRun dempty (cfgNew defaults) [CSet sec o (VStr v)]) sec o <> COk (VStr v)).
Proof.
  split.
  - exists exFiles, exDefaults, "main.ini", "Actions", "PlotData", "True". vm_compute. split; discriminate.
  - exists exDefaults, "Input", "mslpgrid", "1,2". vm_compute. split; discriminate.
Qed.
Print Assumptions c41_set_refuted.

(** * C42 *)
Theorem c42_list_partial l : l <> [] -> Forall (fun s => occurs comma s = false) l ->
  parseList (formatList l) = l.
Proof. exact (parse_format l). Qed.
Print Assumptions c42_list_partial.

(** Text read from the file survives parsing and formatting, always. *)
Theorem c42_text txt : formatList (parseList txt) = txt.
Proof. exact (format_parse txt). Qed.
Print Assumptions c42_text.

(** Exactly the empty list and the lists with an element holding a comma are changed. *)
Theorem c42_list_refuted l : l = [] \/ Exists (fun s => occurs comma s = true) l ->
  parseList (formatList l) <> l.
Proof. exact (format_inj_fail l). Qed.
Print Assumptions c42_list_refuted.

Theorem c42_bool txt : parseBool txt = true <-> txt = "True".
Proof. apply String.eqb_eq. Qed.
Print Assumptions c42_bool.

(** The other way booleans are read, getboolean, accepts more: the two disagree. And the
    smoothing option of the hazard maps is never parsed by [items]. *)
Theorem c42_bool_refuted :
  (exists txt, getboolean txt = Some true /\ parseBool txt = false) /\
  (forall name txt, lower name = lower "SmoothPlots" -> cfgItem "Hazard" name txt = IText txt).
Proof. split; [exists "true"; auto|exact smooth_text]. Qed.
Print Assumptions c42_bool_refuted.

Example c42_ex : parseList (formatList ["2"; "5"; "10"]) = ["2"; "5"; "10"] /\
  parseList (formatList []) = [""] /\ cfgItem "Hazard" "CalculateCI" "True" = IBool true /\
  cfgItem "Hazard" "SmoothPlots" "False" = IText "False".
Proof. vm_compute. auto. Qed.

(** * C43 *)
Open Scope nat_scope.
Theorem c43_master_only {A B} (f : A -> B) size x : 1 <= size ->
  flat_map (fun r => snd (disableOnWorkers f size r x)) (seq 0 size) = [x] /\
  snd (disableOnWorkers f size 0 x) = [x] /\
  fst (disableOnWorkers f size 0 x) = Some (f x) /\
  forall r, 0 < r < size -> fst (disableOnWorkers f size r x) = None.
Proof.
  intros H. destruct (master_calls f size x H) as (A1 & A2 & A3).
  repeat split; auto. unfold disableOnWorkers. now rewrite andb_comm.
Qed.
Print Assumptions c43_master_only.
Example c43_ex : map (fun r => fst (disableOnWorkers S 4 r 7)) (seq 0 4) = [Some 8; None; None; None].
Proof. reflexivity. Qed.

(** * C44 *)
(** Without errors every process gets through every barrier to the end of main. *)
Theorem c44_no_failure_partial a n : 1 <= n ->
  always_ends_in (binit (mainProg a)) (bstep (fun _ _ => false) n) (fun s =>
    forall r, r < n -> procs s r = Run []).
Proof. exact (clean_run a n). Qed.
Print Assumptions c44_no_failure_partial.

(** A failure on one process only, in any piece of work of any run: every execution ends with
    all other processes waiting at a barrier. *)
Theorem c44_one_failure_refuted a n fails q w : q < n -> In (Do w) (mainProg a q) -> fails q w = true ->
  (forall r v, r <> q -> fails r v = false) ->
  always_ends_in (binit (mainProg a)) (bstep fails n) (fun s =>
    (procs s q = Run [] \/ procs s q = Dead) /\
    forall r, r < n -> r <> q -> exists l, procs s r = Run (Bar :: l)).
Proof. exact (one_fails a n fails q w). Qed.
Print Assumptions c44_one_failure_refuted.

(** A single process, and the exit for missing seeds that every process takes, leave nobody waiting. *)
Theorem c44_alone_partial a fails :
  always_ends_in (binit (mainProg a)) (bstep fails 1) (fun s => procs s 0 = Run [] \/ procs s 0 = Dead).
Proof. exact (alone_never_waits a fails). Qed.
Print Assumptions c44_alone_partial.

Theorem c44_seed_exit_partial a n : 1 <= n ->
  always_ends_in (binit (mainProg a))
    (bstep (fun _ w => match w with WTrackSetup => true | _ => false end) n) (fun s =>
    forall r, r < n -> procs s r = Run [] \/ procs s r = Dead).
Proof. exact (seed_exit a n). Qed.
Print Assumptions c44_seed_exit_partial.

Definition allActions := mkActions true true true true true true true true true true.
Example c44_ex : In (Do WDataProcess) (mainProg allActions 0) /\ ~ In (Do WDataProcess) (mainProg allActions 1) /\
  nbars (mainProg allActions 3) = 33.
Proof. split; [|split]; [cbn; auto 20|cbn; intuition discriminate|reflexivity]. Qed.

(** * C87 *)
(** With at least as many track files as workers, every execution ends with the rows a
    serial run computes, in some order; the mean of every cell is the serial mean. *)
Theorem c87_enough_files_partial {T C} (calc : T -> option (C -> Q)) files nw rs :
  1 <= nw <= List.length files -> Forall2 (fun t r => calc t = Some r) files rs ->
  serial calc (fun rows r => (rows ++ [r])%list) [] files = Some rs /\
  always_ends_in (init nw []) (estep calc files nw) (fun s =>
    finished nw s /\ Permutation (out s) rs /\ forall c, (cellMean (out s) c == cellMean rs c)%Q /\
      (cellMean (out s) c * inject_Z (Z.of_nat (List.length files)) == fold_right Qplus 0 (map (fun r => r c) rs))%Q).
Proof.
  intros H1 H2. destruct (enough calc files nw rs H1 H2) as [A [B1 B2]].
  split; [exact A|]. split; [exact B1|]. intros s Hs Hno. destruct (B2 s Hs Hno) as [D1 D2].
  split; [exact D1|]. split; [exact D2|]. intros c. split; [now apply mean_perm|].
  rewrite (mean_perm _ _ c D2). apply mean_times; [|lia].
  clear -H2. induction H2; cbn; congruence.
Qed.
Print Assumptions c87_enough_files_partial.

(** With fewer files than workers rank 0 stops on an IndexError and the workers that were sent
    nothing wait for a message. *)
Theorem c87_few_files_refuted {T R} (calc : T -> option R) files nw : List.length files < nw ->
  always_ends_in (init nw []) (estep calc files nw) (fun s =>
    (exists d, pc s = MSend d /\ d <= nw /\ nth_error files (wn s) = None) /\
    forall i, List.length files < i <= nw -> wk s i = WRecv /\ down s i = []).
Proof. exact (few calc files nw). Qed.
Print Assumptions c87_few_files_refuted.

Example c87_ex : Forall2 (fun t (r : unit -> Q) => (fun n => Some (fun _ : unit => inject_Z n)) t = Some r)
  [1; 2; 3]%Z [fun _ => inject_Z 1; fun _ => inject_Z 2; fun _ => inject_Z 3].
Proof. repeat constructor. Qed.
