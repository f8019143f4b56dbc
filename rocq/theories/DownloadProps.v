(** C56, C108: downloaded data sets. *)
From Coq Require Import List Arith Lia Bool String Ascii.
From Verif Require Import UtilModel UtilProofs DownloadModel.
Import ListNotations.

Section Props.
  Variable gunzip : bytes -> option bytes.
  Variable zipOk : bytes -> bool.
  Notation download := (download gunzip zipOk).
  Notation attempts := (attempts gunzip zipOk).
  Notation doDataDownload := (doDataDownload gunzip zipOk).

  (** What the file should hold once the bytes [remote] of the source are there. *)
  Definition complete (c : comp) (remote out : bytes) : Prop :=
    match c with Plain => out = remote | Gz => gunzip remote = Some out | Zip => False end.

  Lemma attempts_app ds h1 h2 f : attempts ds (h1 ++ h2) f = attempts ds h2 (attempts ds h1 f).
  Proof. unfold DownloadModel.attempts. apply fold_left_app. Qed.

  Lemma attempts_kept ds h c : attempts ds h (Some c) = Some c.
  Proof. induction h as [|a h IH]; [reflexivity|exact IH]. Qed.

  (** * C56 *)
  (** An undisturbed attempt stores the complete data, however they are divided into buffers. *)
Theorem c56_undisturbed : forall ds remote bufs n out, List.concat bufs = remote ->
    complete (dscomp ds) remote out ->
    download ds None (ROpen (Some n) bufs EEof) WDone = (Some out, ODone).
  Proof.
    intros ds remote bufs n out <- C. unfold DownloadModel.download, store.
    destruct (dscomp ds); cbn in C; [now rewrite C|now rewrite C|contradiction].
  Qed.
  (** Once the file is there no later attempt changes it. *)
Theorem c56_kept : forall ds h h' c, attempts ds h None = Some c -> attempts ds (h ++ h') None = Some c.
  Proof. intros ds h h' c H. rewrite attempts_app, H. apply attempts_kept. Qed.
  (** Missing: streams that end early, files that cannot be unpacked and processes that end while
      writing, see below.  Without these the file is complete whenever it is reported, whatever
      other failures came before. *)
Theorem c56_complete_partial : forall ds remote h f, dscomp ds <> Zip ->
    (exists out, complete (dscomp ds) remote out) ->
    (forall r w, In (r, w) h -> (forall n, w <> WKill n) /\
       forall n bufs, r = ROpen n bufs EEof -> List.concat bufs = remote) ->
    attempts ds h None = f -> isDownloaded f = true -> exists out, f = Some out /\ complete (dscomp ds) remote out.
  Proof.
    intros ds remote h f Z (out & C) H <- D. revert D.
    induction h as [|[r w] h IH]; [discriminate|]. intros D.
    assert (IH' := fun K => IH (fun r' w' I => H r' w' (or_intror I)) K). clear IH.
    destruct (H r w (or_introl eq_refl)) as (Hw & Hr).
    change (attempts ds ((r, w) :: h) None) with (attempts ds h (fst (download ds None r w))) in *.
    destruct r as [|[n|] bufs [| |]]; try exact (IH' D).
    specialize (Hr _ _ eq_refl). cbn [DownloadModel.download] in *. rewrite Hr in *.
    destruct w as [|k|]; [|destruct (Hw k); reflexivity|].
    - destruct (dscomp ds); [exact (IH' D)|exact (IH' D)|congruence].
    - destruct (dscomp ds) eqn:E; cbn in C; [| |contradiction].
      + cbn [store fst] in *. rewrite attempts_kept. exists remote. split; reflexivity.
      + cbn [store fst] in *. rewrite C in *. cbn [fst] in *. rewrite attempts_kept. exists out. auto.
  Qed.
  (** A failure before the file is opened leaves nothing behind, so a later attempt can succeed. *)
Theorem c56_retry : forall ds h, 
    (forall r w, In (r, w) h -> forall n bufs, r = ROpen (Some n) bufs EEof -> w = WNoOpen) ->
    attempts ds h None = None.
  Proof.
    induction h as [|[r w] h IH]; intros H; [reflexivity|].
    change (attempts ds ((r, w) :: h) None) with (attempts ds h (fst (download ds None r w))).
    assert (fst (download ds None r w) = None) as ->.
    { destruct r as [|[n|] bufs [| |]]; try reflexivity.
      rewrite (H _ w (or_introl eq_refl) n bufs eq_refl). cbn. destruct (dscomp ds); try reflexivity.
      now destruct (zipOk (List.concat bufs)). }
    apply IH. intros r' w' I. exact (H r' w' (or_intror I)).
  Qed.
  (** The number of bytes received is never compared with the announced number: an early end of
      the stream counts as success, and the incomplete file is kept for ever. *)
Theorem c56_truncated_refuted : forall ds n bufs h, dscomp ds = Plain ->
    List.length (List.concat bufs) < n ->
    snd (download ds None (ROpen (Some n) bufs EEof) WDone) = ODone /\
    attempts ds ((ROpen (Some n) bufs EEof, WDone) :: h) None = Some (List.concat bufs).
  Proof.
    intros ds n bufs h P _. split.
    - unfold DownloadModel.download. now rewrite P.
    - change (attempts ds h (fst (download ds None (ROpen (Some n) bufs EEof) WDone)) = Some (List.concat bufs)).
      unfold DownloadModel.download. rewrite P. apply attempts_kept.
  Qed.
  (** Data that cannot be unpacked, and every zip archive, leave an empty file, which is then
      taken for the downloaded data. *)
Theorem c56_unpack_refuted : forall ds n bufs w h, w <> WNoOpen ->
    (dscomp ds = Gz /\ gunzip (List.concat bufs) = None \/ dscomp ds = Zip /\ zipOk (List.concat bufs) = true) ->
    snd (download ds None (ROpen (Some n) bufs EEof) w) = OExc /\
    attempts ds ((ROpen (Some n) bufs EEof, w) :: h) None = Some [].
  Proof.
    intros ds n bufs w h W H.
    assert (E : download ds None (ROpen (Some n) bufs EEof) w = (Some [], OExc)).
    { unfold DownloadModel.download. destruct H as [(-> & G)|(-> & G)].
      - unfold store. rewrite G. destruct w; congruence.
      - rewrite G. unfold store. destruct w; congruence. }
    split; [now rewrite E|].
    change (attempts ds h (fst (download ds None (ROpen (Some n) bufs EEof) w)) = Some []).
    rewrite E. apply attempts_kept.
  Qed.
  (** A process that ends while writing leaves a part, which is kept for ever. *)
Theorem c56_interrupted_refuted : forall ds n bufs k h, dscomp ds = Plain -> k < List.length (List.concat bufs) ->
    exists part, attempts ds ((ROpen (Some n) bufs EEof, WKill k) :: h) None = Some part /\
      List.length part = k /\ part <> List.concat bufs.
  Proof.
    intros ds n bufs k h P L. exists (firstn k (List.concat bufs)). split.
    - change (attempts ds h (fst (download ds None (ROpen (Some n) bufs EEof) (WKill k))) = Some (firstn k (List.concat bufs))).
      unfold DownloadModel.download. rewrite P. apply attempts_kept.
    - rewrite firstn_length. split; [lia|]. intros E. apply (f_equal (@List.length nat)) in E. rewrite firstn_length in E. lia.
  Qed.

  (** * C108 *)
  Lemma dl_keeps dss : forall d k c, d k = Some c -> fst (doDataDownload dss d) k = Some c.
  Proof.
    induction dss as [|[[ds r] w] dss IH]; intros d k c H; cbn [DownloadModel.doDataDownload]; [exact H|].
    destruct (d (dsfile ds)) as [x|] eqn:E; cbn [isDownloaded]; [now apply IH|].
    destruct (download ds None r w) as [[f|] o].
    - assert (dput d (dsfile ds) f k = Some c) by (rewrite dput_other; [auto|intros ->; congruence]).
      destruct o; auto.
    - destruct o; auto.
  Qed.
  (** If the download step returns, the file of every listed data set is there; files that were
      there before are unchanged, whether it returns or not. *)
Theorem c108_all_present : forall dss d d', doDataDownload dss d = (d', ODone) ->
    (forall ds r w, In (ds, r, w) dss -> d' (dsfile ds) <> None) /\
    (forall k c, d k = Some c -> d' k = Some c).
  Proof.
    intros dss d d' H. split.
    - revert d H. induction dss as [|[[ds r] w] dss IH]; intros d H; [contradiction|].
      cbn [DownloadModel.doDataDownload] in H. intros ds' r' w' [[= <- <- <-]|I].
      + destruct (d (dsfile ds)) as [x|] eqn:E; cbn [isDownloaded] in H.
        * apply (f_equal fst) in H. cbn [fst] in H. subst d'. now rewrite (dl_keeps dss d _ x E).
        * destruct (download ds None r w) as [[f|] o] eqn:D.
          { destruct o; try discriminate. apply (f_equal fst) in H. cbn [fst] in H. subst d'.
            rewrite (dl_keeps dss _ (dsfile ds) f); [discriminate|apply dput_same]. }
          { destruct o; try discriminate. exfalso. clear H.
            unfold DownloadModel.download in D. destruct r as [|[n|] bufs [| |]]; try discriminate.
            destruct (dscomp ds); unfold store in D.
            - destruct w; discriminate.
            - destruct w; [discriminate| |]; destruct (gunzip _); discriminate.
            - destruct (zipOk _); [|discriminate]. destruct w; discriminate. }
      + destruct (d (dsfile ds)) as [x|] eqn:E; cbn [isDownloaded] in H; [eapply IH; eauto|].
        destruct (download ds None r w) as [[f|] o]; destruct o; try discriminate; eapply IH; eauto.
    - intros k c K. apply (f_equal fst) in H. cbn [fst] in H. subst d'. now apply dl_keeps.
  Qed.
  (** Two data sets with one file name: the second is never fetched. *)
Theorem c108_shared_file_refuted : forall a b ra wa rb wb d d', dsfile a = dsfile b ->
    doDataDownload [(a, ra, wa); (b, rb, wb)] d = (d', ODone) ->
    d' (dsfile b) = fst (doDataDownload [(a, ra, wa)] d) (dsfile b) /\
    forall rb' wb', doDataDownload [(a, ra, wa); (b, rb', wb')] d = (d', ODone).
  Proof.
    intros a b ra wa rb wb d d' E H.
    assert (G : forall rb wb, doDataDownload [(a, ra, wa); (b, rb, wb)] d =
      match snd (doDataDownload [(a, ra, wa)] d) with
      | ODone => doDataDownload [(b, rb, wb)] (fst (doDataDownload [(a, ra, wa)] d))
      | _ => doDataDownload [(a, ra, wa)] d end).
    { intros. cbn [DownloadModel.doDataDownload]. destruct (isDownloaded (d (dsfile a))); [reflexivity|].
      destruct (download a (d (dsfile a)) ra wa) as [f o]. destruct o; reflexivity. }
    destruct (doDataDownload [(a, ra, wa)] d) as [d1 o1] eqn:D1.
    assert (O : o1 = ODone).
    { rewrite G in H. cbn [snd] in H. destruct o1; [reflexivity|discriminate..]. }
    subst o1. cbn [fst snd] in *.
    destruct (c108_all_present _ _ _ D1) as (P & _). specialize (P a ra wa (or_introl eq_refl)). rewrite E in P.
    assert (S : forall rb wb, doDataDownload [(b, rb, wb)] d1 = (d1, ODone)).
    { intros. cbn [DownloadModel.doDataDownload]. destruct (d1 (dsfile b)); [reflexivity|congruence]. }
    rewrite G, S in H. injection H as <-. split; [reflexivity|]. intros. now rewrite G, S.
  Qed.
End Props.
(** A name written after a comma and a space is looked up with its space. *)
Theorem c108_names_refuted : forall (s : dict dataset) d, s "B"%string = Some d -> s " B"%string = None ->
  loadDatasets s (split ","%char "B"%string) = Some [d] /\ loadDatasets s (split ","%char "A, B"%string) = None.
Proof.
  intros s d H1 H2. split.
  - cbn. now rewrite H1.
  - cbn. rewrite H2. now destruct (s "A"%string).
Qed.
Print Assumptions c56_undisturbed.
Print Assumptions c56_kept.
Print Assumptions c56_complete_partial.
Print Assumptions c56_retry.
Print Assumptions c56_truncated_refuted.
Print Assumptions c56_unpack_refuted.
Print Assumptions c56_interrupted_refuted.
Print Assumptions c108_all_present.
Print Assumptions c108_shared_file_refuted.
Print Assumptions c108_names_refuted.

Example c56_example :
  let gz := fun b : bytes => match b with 1 :: l => Some (rev l) | _ => None end in
  let ds := mkDs "f" Gz in
  attempts gz (fun _ => true) ds [(RUrlError, WDone); (ROpen (Some 3) [[1; 2]] EExc, WDone);
    (ROpen (Some 3) [[1]; [2; 3]] EEof, WDone); (RUrlError, WDone)] None = Some [3; 2] /\
  attempts gz (fun _ => true) ds [(ROpen (Some 3) [[2]] EEof, WDone); (ROpen (Some 3) [[1; 2; 3]] EEof, WDone)] None = Some [].
Proof. split; reflexivity. Qed.
Example c108_example :
  let a := mkDs "a" Plain in let b := mkDs "a" Plain in
  let r := doDataDownload (fun _ => None) (fun _ => true)
    [(a, ROpen (Some 1) [[7]] EEof, WDone); (b, ROpen (Some 1) [[8]] EEof, WDone)] dempty in
  snd r = ODone /\ fst r "a"%string = Some [7].
Proof. split; reflexivity. Qed.
