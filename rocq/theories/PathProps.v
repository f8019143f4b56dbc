(** C196, C197: loading the tracks of a directory. *)
From Coq Require Import List Arith NArith Bool Ascii String Sorted Permutation Lia.
From Verif Require Import SplitModel SplitProofs PathModel.
Import ListNotations.
Open Scope string_scope.
Open Scope list_scope.

(** * The order of file names *)
Lemma ascii_lt_trans a b c : Ascii.compare a b = Lt -> Ascii.compare b c = Lt -> Ascii.compare a c = Lt.
Proof. unfold Ascii.compare. rewrite !N.compare_lt_iff. lia. Qed.

Lemma compare_lt_trans a : forall b c, String.compare a b = Lt -> String.compare b c = Lt -> String.compare a c = Lt.
Proof.
  induction a as [|x a IH]; intros [|y b] [|z c]; cbn; try discriminate; auto.
  destruct (Ascii.compare x y) eqn:E1; try discriminate; destruct (Ascii.compare y z) eqn:E2; try discriminate;
    intros H1 H2.
  - apply Ascii.compare_eq_iff in E1. subst y. rewrite E2. eauto.
  - apply Ascii.compare_eq_iff in E1. subst y. now rewrite E2.
  - apply Ascii.compare_eq_iff in E2. subst z. now rewrite E1.
  - now rewrite (ascii_lt_trans _ _ _ E1 E2).
Qed.

Lemma leb_trans x y z : String.leb x y = true -> String.leb y z = true -> String.leb x z = true.
Proof.
  unfold String.leb. destruct (String.compare x y) eqn:E1; try discriminate;
    destruct (String.compare y z) eqn:E2; try discriminate; intros _ _.
  - apply String.compare_eq_iff in E1. subst. now rewrite E2.
  - apply String.compare_eq_iff in E1. subst. now rewrite E2.
  - apply String.compare_eq_iff in E2. subst. now rewrite E1.
  - now rewrite (compare_lt_trans _ _ _ E1 E2).
Qed.

Lemma ascii_compare_refl a : Ascii.compare a a = Eq.
Proof. unfold Ascii.compare. apply N.compare_refl. Qed.
Lemma leb_prefix p a b : String.leb (p ++ a)%string (p ++ b)%string = String.leb a b.
Proof.
  induction p as [|x p IH]; [reflexivity|]. revert IH. unfold String.leb. cbn.
  now rewrite ascii_compare_refl.
Qed.

Definition base (path : string) : string := if endsSlash path then path else (path ++ "/")%string.
Lemma str_app_assoc (a b c : string) : ((a ++ b) ++ c = a ++ (b ++ c))%string.
Proof. induction a; cbn; congruence. Qed.
Lemma pjoin_base path f : pjoin path f = (base path ++ f)%string.
Proof. unfold pjoin, base. destruct (endsSlash path); [reflexivity|]. now rewrite str_app_assoc. Qed.

Lemma map_pjoin_sorted path l : StronglySorted (fun x y => String.leb x y = true) l ->
  StronglySorted (fun x y => String.leb x y = true) (map (pjoin path) l).
Proof.
  induction 1 as [|x l Hs IH Hf]; cbn; [constructor|]. constructor; auto.
  rewrite Forall_map. eapply Forall_impl; [|exact Hf]. intros a Ha. cbn in Ha.
  now rewrite !pjoin_base, leb_prefix.
Qed.

Section P.
Context {T : Type} (disk : string -> option (option (list T))) (listdir : string -> option (list string)).

(** * What a generator gives until it is exhausted *)
Fixpoint outF (fs : list item) : list (step T) :=
  match fs with
  | [] => []
  | f :: fs' => match loadTracks disk f with
                | inr e => [Raise e]
                | inl ts => map Yield ts ++ outF fs'
                end
  end.
Definition out (g : gen T) : list (step T) :=
  match g with
  | Start NotList => [Raise TypeError]
  | Start (Lst fs) => outF fs
  | Within ts fs => map Yield ts ++ outF fs
  | Done => []
  end.

Lemma nextFile_out fs : let '(r, g, _) := nextFile disk fs in
  (outF fs = [] /\ r = Stop /\ g = Done) \/ outF fs = r :: out g.
Proof.
  induction fs as [|f fs IH]; cbn; [auto|].
  destruct (loadTracks disk f) as [[|t ts]|e]; cbn; auto.
  destruct (nextFile disk fs) as [[r g] o]. exact IH.
Qed.

Lemma next_out g : let '(r, g', _) := next disk g in
  (out g = [] /\ r = Stop /\ g' = Done) \/ out g = r :: out g'.
Proof.
  destruct g as [[fs|]|[|t ts] fs|]; cbn; auto.
  - apply nextFile_out.
  - apply nextFile_out.
Qed.

Lemma firstn_pad {X} (x : X) : forall k l m, k <= m -> firstn k (l ++ repeat x m) = firstn k (l ++ repeat x k).
Proof.
  induction k as [|k IH]; intros l m H; [reflexivity|].
  destruct l as [|y l]; cbn.
  - destruct m as [|m]; [lia|]. cbn. f_equal. apply (IH [] m). lia.
  - f_equal. rewrite (IH l m) by lia. symmetry. exact (IH l (S k) ltac:(lia)).
Qed.

Lemma steps_out k : forall g, fst (steps disk k g) = firstn k (out g ++ repeat Stop k).
Proof.
  induction k as [|k IH]; intros g; [reflexivity|]. cbn [steps].
  pose proof (next_out g) as N. destruct (next disk g) as [[r g'] o].
  specialize (IH g'). destruct (steps disk k g') as [rs os]. cbn [fst] in *.
  destruct N as [(N1 & -> & ->)|N1]; rewrite N1.
  - rewrite IH. cbn. reflexivity.
  - cbn [app firstn]. f_equal. rewrite IH. symmetry. apply firstn_pad. lia.
Qed.

(** Files that can all be read, with their tracks. *)
Definition readable (tr : item -> list T) (fs : list item) : Prop :=
  forall f, In f fs -> loadTracks disk f = inl (tr f).

Lemma outF_readable tr fs : readable tr fs -> outF fs = map Yield (flat_map tr fs).
Proof.
  induction fs as [|f fs IH]; intros H; [reflexivity|]. cbn.
  rewrite (H f) by now left. rewrite map_app, IH; [reflexivity|]. intros x Hx. apply H. now right.
Qed.
Lemma outF_app tr fs more : readable tr fs -> outF (fs ++ more) = map Yield (flat_map tr fs) ++ outF more.
Proof.
  induction fs as [|f fs IH]; intros H; [reflexivity|]. cbn.
  rewrite (H f) by now left. rewrite map_app, IH, app_assoc; [reflexivity|]. intros x Hx. apply H. now right.
Qed.

Lemma nextFile_opened tr fs : readable tr fs -> let '(r, g, o) := nextFile disk fs in
  (o = fs /\ g = Done /\ flat_map tr fs = []) \/
  (exists es f fs' t ts, fs = es ++ f :: fs' /\ o = es ++ [f] /\ g = Within ts fs' /\
     tr f = t :: ts /\ flat_map tr es = []).
Proof.
  induction fs as [|f fs IH]; intros H; cbn; [auto|].
  pose proof (H f (or_introl eq_refl)) as L. rewrite L.
  destruct (tr f) as [|t ts] eqn:E.
  - specialize (IH (fun x Hx => H x (or_intror Hx))). destruct (nextFile disk fs) as [[r g] o].
    destruct IH as [(-> & -> & F)|(es & f' & fs' & t & ts & -> & -> & -> & E' & F)].
    + left. auto.
    + right. exists (f :: es), f', fs', t, ts. cbn. now rewrite E, F.
  - right. exists [], f, fs, t, ts. auto.
Qed.

Lemma steps_done k : snd (steps disk k Done) = [].
Proof.
  induction k as [|k IH]; [reflexivity|]. cbn. destruct (steps disk k Done). cbn in *. exact IH.
Qed.

Lemma opened_within tr k : forall ts fs, readable tr fs ->
  exists j, j <= List.length fs /\ snd (steps disk k (Within ts fs)) = firstn j fs /\
    (forall i, i < j -> List.length ts + List.length (flat_map tr (firstn i fs)) < k) /\
    (k <= List.length ts + List.length (flat_map tr (firstn j fs)) \/ j = List.length fs).
Proof.
  induction k as [|k IH]; intros ts fs H.
  - exists 0. cbn. repeat split; try lia.
  - destruct ts as [|t ts]; cbn [steps next].
    + pose proof (nextFile_opened tr fs H) as N. destruct (nextFile disk fs) as [[r g] o].
      destruct N as [(-> & -> & F)|(es & f & fs' & t & ts & -> & -> & -> & E & F)].
      * exists (List.length fs). pose proof (steps_done k) as D.
        destruct (steps disk k Done) as [rs os]. cbn [snd] in *. subst os.
        rewrite app_nil_r, firstn_all. repeat split; auto.
        intros i Hi. cbn. assert (flat_map tr (firstn i fs) = []) as ->; [|cbn; lia].
        rewrite <- (firstn_skipn i fs), flat_map_app in F. now apply app_eq_nil in F.
      * destruct (IH ts fs') as (j & J1 & J2 & J3 & J4).
        { intros x Hx. apply H. rewrite in_app_iff. right. now right. }
        destruct (steps disk k (Within ts fs')) as [rs os]. cbn [snd] in *. subst os.
        exists (List.length es + S j). rewrite app_length. cbn [List.length].
        assert (Fa : forall m, firstn (List.length es + S m) (es ++ f :: fs') = es ++ f :: firstn m fs').
        { intros m. rewrite firstn_app, firstn_all2 by lia.
          replace (List.length es + S m - List.length es) with (S m) by lia. reflexivity. }
        rewrite Fa. split; [lia|]. split; [now rewrite <- app_assoc|]. split.
        -- intros i Hi. destruct (Nat.le_gt_cases i (List.length es)) as [L|L].
           ++ rewrite firstn_app. replace (i - List.length es) with 0 by lia.
              cbn [firstn]. rewrite app_nil_r.
              assert (flat_map tr (firstn i es) = []) as ->; [|cbn; lia].
              rewrite <- (firstn_skipn i es), flat_map_app in F. now apply app_eq_nil in F.
           ++ replace i with (List.length es + S (i - List.length es - 1)) by lia. rewrite Fa, flat_map_app, F.
              cbn [flat_map app]. rewrite E. cbn [app List.length]. rewrite app_length.
              specialize (J3 (i - List.length es - 1) ltac:(lia)). cbn. lia.
        -- rewrite flat_map_app, F. cbn [flat_map app]. rewrite E. cbn [app List.length]. rewrite app_length.
           destruct J4 as [J4|J4]; [left; cbn; lia|right; lia].
    + destruct (IH ts fs H) as (j & J1 & J2 & J3 & J4).
      destruct (steps disk k (Within ts fs)) as [rs os]. cbn [snd app] in *.
      exists j. cbn [List.length]. repeat split; auto.
      * intros i Hi. specialize (J3 i Hi). lia.
      * destruct J4; [left; lia|auto].
Qed.

(** * C196 *)
(** The tracks of a directory come in the alphabetical order of the files whose names begin
    with "tracks", file after file, each once, and then the generator stops for good; the
    order in which the directory is listed does not matter. *)
Theorem c196_all path listing names tr k :
  listdir path = Some listing ->
  StronglySorted (fun x y => String.leb x y = true) names ->
  Permutation names (filter (prefix "tracks") listing) ->
  (forall f, In f names -> disk (pjoin path f) = Some (Some (tr f))) ->
  exists g, loadTracksFromPath listdir path = inl g /\
    fst (steps disk k g) = firstn k (map Yield (flat_map tr names) ++ repeat Stop k).
Proof.
  intros L Sn P D. unfold loadTracksFromPath. rewrite L. eexists. split; [reflexivity|].
  assert (E : isort String.leb (map (pjoin path) (filter isTrackFile listing)) = map (pjoin path) names).
  { apply (sorted_unique String.leb String.leb_total String.leb_antisym).
    - apply isort_sorted; [apply String.leb_total|apply leb_trans].
    - now apply map_pjoin_sorted.
    - rewrite isort_perm. apply Permutation_map. symmetry. exact P. }
  rewrite E, steps_out. cbn [out]. do 2 f_equal. clear E P Sn.
  induction names as [|f names IH]; [reflexivity|]. cbn.
  rewrite (D f) by now left. rewrite map_app, IH; [reflexivity|]. intros x Hx. apply D. now right.
Qed.

(** Files are opened only when their tracks are needed: after [k] steps the files opened are
    the shortest first part of the list that holds [k] tracks (all of it if there is none). *)
Theorem c196_lazy fs tr k : readable tr fs ->
  exists j, j <= List.length fs /\ snd (steps disk k (Start (Lst fs))) = firstn j fs /\
    (forall i, i < j -> List.length (flat_map tr (firstn i fs)) < k) /\
    (k <= List.length (flat_map tr (firstn j fs)) \/ j = List.length fs).
Proof.
  intros H. assert (E : steps disk k (Start (Lst fs)) = steps disk k (Within [] fs)) by now destruct k.
  rewrite E. apply (opened_within tr k [] fs H).
Qed.

(** A file that cannot be loaded is noticed when its turn comes: the tracks of the files
    before it have been given, the error is raised once, and nothing follows. *)
Theorem c196_failure before f e after tr k : readable tr before -> loadTracks disk f = inr e ->
  fst (steps disk k (Start (Lst (before ++ f :: after))))
  = firstn k (map Yield (flat_map tr before) ++ Raise e :: repeat Stop k).
Proof.
  intros H E. rewrite steps_out. cbn [out]. rewrite (outF_app tr) by exact H. cbn [outF]. rewrite E.
  now rewrite <- app_assoc.
Qed.

(** The kinds of failure: an entry that is not a text, and a file that does not exist. *)
Theorem c196_kinds :
  loadTracks disk NotText = inr TypeError /\
  (forall s, loadTracks disk (Name s) = inr IOError <-> disk s = None).
Proof.
  split; [reflexivity|]. intros s. cbn. destruct (disk s) as [[ts|]|]; split; congruence.
Qed.

(** A directory that cannot be listed is an IOError at the call itself. *)
Theorem c196_no_directory path : listdir path = None <-> loadTracksFromPath (T := T) listdir path = inr IOError.
Proof. unfold loadTracksFromPath. destruct (listdir path); split; congruence. Qed.

(** * C197 *)
(** The TypeError for an argument that is not a list does not come from the call but from the
    first step of the iteration; a caller that never iterates never sees it. *)
Theorem c197_late_refuted :
  fst (steps disk 0 (Start NotList)) = [] /\
  (forall k, fst (steps disk (S k) (Start NotList)) = Raise TypeError :: repeat Stop k).
Proof.
  split; [reflexivity|]. intros k. rewrite steps_out. cbn. f_equal.
  rewrite <- (repeat_length (@Stop T) k) at 1.
  replace (Stop :: repeat Stop k) with (repeat (@Stop T) k ++ [Stop]).
  - rewrite firstn_app, firstn_all, Nat.sub_diag. cbn. apply app_nil_r.
  - clear. induction k; cbn; congruence.
Qed.

(** Nothing is distributed: the processes of a parallel run are all given every track, not a
    share of them. *)
Theorem c197_every_process_refuted (size : nat) path listing names tr :
  listdir path = Some listing ->
  StronglySorted (fun x y => String.leb x y = true) names ->
  Permutation names (filter (prefix "tracks") listing) ->
  (forall f, In f names -> disk (pjoin path f) = Some (Some (tr f))) ->
  let n := List.length (flat_map tr names) in
  exists g, loadTracksFromPath listdir path = inl g /\
    List.length (flat_map (fun _ : nat => fst (steps disk n g)) (seq 0 size)) = size * n /\
    (2 <= size -> 1 <= n -> n < size * n).
Proof.
  intros L Sn P D n. destruct (c196_all path listing names tr n L Sn P D) as (g & E1 & E2).
  exists g. split; [exact E1|]. split; [|nia].
  rewrite E2. assert (Ln : List.length (firstn n (map Yield (flat_map tr names) ++ repeat Stop n)) = n).
  { rewrite firstn_length, app_length, map_length. fold n. lia. }
  revert Ln. generalize (firstn n (map Yield (flat_map tr names) ++ repeat Stop n)). intros l Hl.
  clear - Hl. generalize 0. induction size as [|z IH]; intros m; [reflexivity|].
  cbn. now rewrite app_length, IH, Hl.
Qed.

(** Everything whose name begins with "tracks" is taken for a track file: one entry that is
    not (a directory, a text file the documentation speaks of) ends the iteration, and the
    tracks of all files after it are lost. *)
Theorem c197_stray_refuted path listing before f after tr k :
  listdir path = Some listing ->
  StronglySorted (fun x y => String.leb x y = true) (before ++ f :: after) ->
  Permutation (before ++ f :: after) (filter (prefix "tracks") listing) ->
  (forall x, In x before -> disk (pjoin path x) = Some (Some (tr x))) ->
  disk (pjoin path f) = Some None ->
  exists g, loadTracksFromPath listdir path = inl g /\
    fst (steps disk k g) = firstn k (map Yield (flat_map tr before) ++ Raise Other :: repeat Stop k).
Proof.
  intros L Sn P D B. unfold loadTracksFromPath. rewrite L. eexists. split; [reflexivity|].
  assert (E : isort String.leb (map (pjoin path) (filter isTrackFile listing))
              = map (pjoin path) (before ++ f :: after)).
  { apply (sorted_unique String.leb String.leb_total String.leb_antisym).
    - apply isort_sorted; [apply String.leb_total|apply leb_trans].
    - now apply map_pjoin_sorted.
    - rewrite isort_perm. apply Permutation_map. symmetry. exact P. }
  rewrite E, steps_out. cbn [out]. f_equal. clear E P Sn L.
  induction before as [|x before IH]; cbn.
  - now rewrite B.
  - rewrite (D x) by now left. rewrite (map_app Yield), <- !app_assoc.
    apply (f_equal (app (map Yield (tr x)))). apply IH. intros y Hy. apply D. now right.
Qed.

(** The copy of the function in the wind module never gives a track. *)
Theorem c197_wind_refuted path listing : listdir path = Some listing ->
  windTracksFromPath (T := T) listdir path = inr TypeError.
Proof. intros L. unfold windTracksFromPath. now rewrite L. Qed.
End P.

(** * Examples *)
Definition exDisk (s : string) : option (option (list nat)) :=
  if String.eqb s "out/tracks.01.nc" then Some (Some [1; 2])
  else if String.eqb s "out/tracks.02.nc" then Some (Some [])
  else if String.eqb s "out/tracks.03.nc" then Some (Some [3])
  else if String.eqb s "out/tracks.04.csv" then Some None
  else None.
Definition exList (p : string) : option (list string) :=
  if String.eqb p "out" then Some ["tracks.03.nc"; "log.txt"; "tracks.01.nc"; "tracks.02.nc"]
  else if String.eqb p "out/" then Some ["tracks.04.csv"; "tracks.01.nc"]
  else None.
Definition exTr (s : string) : list nat :=
  if String.eqb s "tracks.01.nc" then [1; 2] else if String.eqb s "tracks.03.nc" then [3] else [].

Example c196_ex :
  let names := ["tracks.01.nc"; "tracks.02.nc"; "tracks.03.nc"] in
  StronglySorted (fun x y => String.leb x y = true) names /\
  Permutation names (filter (prefix "tracks") ["tracks.03.nc"; "log.txt"; "tracks.01.nc"; "tracks.02.nc"]) /\
  (forall f, In f names -> exDisk (pjoin "out" f) = Some (Some (exTr f))) /\
  exList "nowhere" = None /\
  match loadTracksFromPath exList "out" with
  | inl g => steps exDisk 2 g = ([Yield 1; Yield 2], [Name "out/tracks.01.nc"]) /\
      fst (steps exDisk 5 g) = [Yield 1; Yield 2; Yield 3; Stop; Stop]
  | inr _ => False
  end.
Proof.
  cbv zeta. split; [repeat constructor|]. split.
  { cbn. apply Permutation_sym. apply perm_trans with ["tracks.01.nc"; "tracks.03.nc"; "tracks.02.nc"].
    - apply perm_swap.
    - apply perm_skip, perm_swap. }
  split; [|split; [reflexivity|cbn; auto]].
  intros f H. cbn in H. repeat (destruct H as [<-|H]; [reflexivity|]). contradiction.
Qed.

Example c197_ex :
  StronglySorted (fun x y => String.leb x y = true) ["tracks.01.nc"; "tracks.04.csv"] /\
  exDisk (pjoin "out/" "tracks.04.csv") = Some None /\
  match loadTracksFromPath exList "out/" with
  | inl g => fst (steps exDisk 4 g) = [Yield 1; Yield 2; Raise Other; Stop]
  | inr _ => False
  end.
Proof. split; [repeat constructor|split; reflexivity]. Qed.
Print Assumptions c196_all.
Print Assumptions c196_lazy.
Print Assumptions c196_failure.
Print Assumptions c196_kinds.
Print Assumptions c196_no_directory.
Print Assumptions c197_late_refuted.
Print Assumptions c197_every_process_refuted.
Print Assumptions c197_stray_refuted.
Print Assumptions c197_wind_refuted.
