(** Details of autocorrelation and of grid files. *)
From Coq Require Import Reals List Arith ZArith Bool QArith Lia.
From Verif Require Import SeriesModel GridFileModel LoadModel CalendarModel CellModel CellProofs LoadProps.
Import ListNotations.

(** The full correlation has a value for each lag from [-(n - 1)] to [n - 1] and is symmetric *)
Theorem c118_symmetric : forall p, p <> [] -> length (full p) = (2 * (length p - 1) + 1)%nat /\
  forall k, (k < length p)%nat -> nth (length p - 1 + k) (full p) 0%R = corr p k /\ nth (length p - 1 - k) (full p) 0%R = corr p k.
Proof.
  intros p N. set (n := length p). assert (P : (0 < n)%nat) by (destruct p; [congruence|cbn in n; lia]). unfold full. fold n. split.
  - rewrite app_length, !map_length, !seq_length. lia.
  - assert (G : forall k, (k < n)%nat -> nth (n - 1 + k) (map (fun j => corr p (n - 1 - j)) (seq 0 (n - 1)) ++ map (corr p) (seq 0 n)) 0%R = corr p k).
    { intros k K. rewrite app_nth2; rewrite map_length, seq_length; [|lia]. replace (n - 1 + k - (n - 1))%nat with k by lia.
      rewrite (nth_indep _ 0%R (corr p 0)) by (rewrite map_length, seq_length; lia). rewrite (map_nth (corr p)), seq_nth by lia. reflexivity. }
    intros k K. split; [now apply G|]. destruct k as [|k]; [replace (n - 1 - 0)%nat with (n - 1 + 0)%nat at 1 by lia; specialize (G 0%nat K); rewrite !Nat.add_0_r in *; exact G|].
    rewrite app_nth1 by (rewrite map_length, seq_length; lia).
    rewrite (nth_indep _ 0%R (corr p (n - 1 - 0))) by (rewrite map_length, seq_length; lia). rewrite (map_nth (fun j => corr p (n - 1 - j))), seq_nth by lia.
    f_equal. lia.
Qed.

(** An existing file is left as it is, but one with a name in ".gz" is emptied *)
Theorem c60_emptied_refuted : forall fmt data lon lat delta nodata,
  grdSave fmt true true data lon lat delta nodata = SaveBroken /\ grdSave fmt true false data lon lat delta nodata = SaveRefused.
Proof. intros. split; reflexivity. Qed.
(** A file that ends too early is read without an error, with zeros for the values that are not there *)
Lemma readRow_short ncols nodata line : (length line <= ncols)%nat -> exists r, readRow ncols nodata line = Some r /\ length r = ncols /\
  forall j, (j < ncols)%nat -> nth j r None = match nth_error line j with Some v => if Qeq_bool v nodata then None else Some v | None => Some 0%Q end.
Proof.
  intros L. unfold readRow. destruct (ncols <? length line)%nat eqn:E; [apply Nat.ltb_lt in E; lia|]. eexists. split; [reflexivity|].
  split; [rewrite app_length, map_length, repeat_length; lia|]. intros j J. destruct (nth_error line j) as [v|] eqn:V.
  - assert (j < length line)%nat by (apply nth_error_Some; congruence). rewrite app_nth1 by (rewrite map_length; lia).
    rewrite (nth_indep _ None (if Qeq_bool 0 nodata then None else Some 0%Q)) by (rewrite map_length; lia).
    rewrite (map_nth (fun v => if Qeq_bool v nodata then None else Some v)). now rewrite (nth_error_nth _ _ _ V).
  - apply nth_error_None in V. rewrite app_nth2 by (rewrite map_length; lia). rewrite map_length.
    rewrite (nth_indep _ None (Some 0%Q)) by (rewrite repeat_length; lia). apply nth_repeat.
Qed.
Theorem c60_truncated_refuted : forall f, (forall l, In l (grows f) -> (length l <= gncols f)%nat) ->
  exists lon lat d, grdRead f = Some (lon, lat, d) /\ length d = gnrows f /\
  forall i j, (i < gnrows f)%nat -> (j < gncols f)%nat ->
    (nth_error (grows f) i = None \/ (exists l, nth_error (grows f) i = Some l /\ (length l <= j)%nat)) -> nth j (nth i d []) None = Some 0%Q.
Proof.
  intros f H. unfold grdRead. assert (G : forall n lines, (forall l, In l lines -> (length l <= gncols f)%nat) ->
    exists d, readRows n (gncols f) (gnodata f) lines = Some d /\ length d = n /\ forall i j, (i < n)%nat -> (j < gncols f)%nat ->
    (nth_error lines i = None \/ (exists l, nth_error lines i = Some l /\ (length l <= j)%nat)) -> nth j (nth i d []) None = Some 0%Q).
  { induction n as [|n IH]; intros lines Hl; [exists []; split; [reflexivity|]; split; [reflexivity|]; intros; lia|]. cbn [readRows].
    set (line := match lines with [] => [] | l :: _ => l end). set (rest := match lines with [] => [] | _ :: r => r end).
    replace (match lines with [] => ([], []) | l :: ls => (l, ls) end) with (line, rest) by (destruct lines; reflexivity).
    destruct (readRow_short (gncols f) (gnodata f) line) as (r & R & Lr & V); [unfold line; destruct lines; [cbn; lia|apply Hl; now left]|].
    destruct (IH rest) as (d & D & Ld & W); [intros l I; apply Hl; unfold rest in I; destruct lines; [destruct I|now right]|].
    rewrite R, D. exists (r :: d). split; [reflexivity|]. split; [cbn; lia|]. intros i j I J M. destruct i as [|i].
    - cbn [nth]. rewrite V by exact J. replace (nth_error line j) with (@None Q); [reflexivity|]. symmetry. apply nth_error_None.
      unfold line. destruct lines as [|l ls]; [cbn; lia|]. destruct M as [M|(l' & M & K)]; [discriminate|]. injection M as <-. exact K.
    - cbn [nth]. apply W; [lia|exact J|]. unfold rest. destruct lines as [|l ls]; [left; destruct i; reflexivity|exact M]. }
  destruct (G (gnrows f) (grows f) H) as (d & D & L & V). rewrite D. eauto 10.
Qed.
Example c60_truncated_ex : exists lon lat, grdRead (mkGf 2 3 0 0 1 (-9999) [[1; 2]; [3]]%Q) = Some (lon, lat, [[Some 1; Some 2]; [Some 3; Some 0]; [Some 0; Some 0]]%Q).
Proof. do 2 eexists. reflexivity. Qed.

(** The dates of the made-up years are checked against the calendar of the datetime module; only the 29th of February of 2000
    is not a date of 2001 *)
Theorem c82_calendar_partial : forall m d,
  (forall y, (1 <= y <= 9999)%Z -> (0 <= m)%Z -> LoadModel.validDate y m d = CalendarModel.validDate y (Z.to_nat m) d) /\ (LoadModel.validDate 2000 m d = true -> (m, d) <> (2, 29)%Z -> LoadModel.validDate 2001 m d = true).
Proof.
  intros m d. split.
  - intros y Y M. unfold LoadModel.validDate, CalendarModel.validDate, monthLength.
    assert (E : leap y = isLeap y) by (unfold leap, isLeap; lia). rewrite E. destruct (isLeap y);
    (destruct (m <=? 12)%Z eqn:M2; [|rewrite andb_false_r; cbn [andb]; replace (Z.to_nat m <=? 12)%nat with false by lia; now rewrite !andb_false_r]);
    (assert (C : (m = 0 \/ m = 1 \/ m = 2 \/ m = 3 \/ m = 4 \/ m = 5 \/ m = 6 \/ m = 7 \/ m = 8 \/ m = 9 \/ m = 10 \/ m = 11 \/ m = 12)%Z) by lia);
    (assert (Y1 : (1 <=? y)%Z = true) by lia); (assert (Y2 : (y <=? 9999)%Z = true) by lia); rewrite Y1, Y2;
    repeat (destruct C as [->|C]; [reflexivity|]); subst; reflexivity.
  - intros V N. unfold LoadModel.validDate in *. assert (d <> 29 \/ m <> 2)%Z by (destruct (Z.eq_dec d 29); destruct (Z.eq_dec m 2); [subst; congruence|tauto|tauto|tauto]).
    unfold monthLength in *. change (leap 2000) with true in V. change (leap 2001) with false. destruct (m =? 2)%Z eqn:E; lia.
Qed.
Example c82_calendar_met : LoadModel.validDate 2000 2 28 = true /\ LoadModel.validDate 2000 2 29 = true /\ LoadModel.validDate 2001 2 29 = false.
Proof. repeat split. Qed.

(** A file of two records of one cyclone: two tracks exactly if the second is more than 10 degrees east or 5 degrees north
    of the first, the hours of the second counted from the first in both cases *)
Theorem c75_file_partial : forall (A : Type) (k d1 d2 : Z) (p q : Q * Q) (a b : A),
  let e := (inject_Z (d2 - d1) / 60)%Q in
  ((10 < fst q - fst p)%Q \/ (5 < snd q - snd p)%Q -> loadTrackFile (serials [k; k]) [d1; d2] [p; q] [a; b] = Some [[(a, 0%Q)]; [(b, e)]]) /\
  (~ (10 < fst q - fst p)%Q -> ~ (5 < snd q - snd p)%Q -> loadTrackFile (serials [k; k]) [d1; d2] [p; q] [a; b] = Some [[(a, 0%Q); (b, e)]]).
Proof.
  intros A k d1 d2 p q a b e. assert (G : loadTrackFile (serials [k; k]) [d1; d2] [p; q] [a; b] =
    tracksOf [1%Z; if qlt 10 (fst q - fst p)%Q || qlt 5 (snd q - snd p)%Q then 1%Z else 0%Z] [(a, 0%Q); (b, e)]).
  { unfold loadTrackFile, getInitialPositions, serials. cbn [c_index c_serial runFlags flagsFrom]. rewrite Z.eqb_refl. reflexivity. }
  rewrite G. split.
  - intros H. replace (qlt 10 (fst q - fst p) || qlt 5 (snd q - snd p)) with true; [reflexivity|]. symmetry. apply orb_true_iff. destruct H as [H|H]; apply qlt_iff in H; auto.
  - intros H1 H2. replace (qlt 10 (fst q - fst p) || qlt 5 (snd q - snd p)) with false; [reflexivity|]. symmetry. apply orb_false_iff.
    split; apply not_true_iff_false; intros C; apply qlt_iff in C; tauto.
Qed.

Print Assumptions c118_symmetric.
Print Assumptions c60_emptied_refuted.
Print Assumptions c60_truncated_refuted.
Print Assumptions c82_calendar_partial.
Print Assumptions c75_file_partial.
