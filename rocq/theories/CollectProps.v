(** Properties of the collection of multiplier tiles *)
From Coq Require Import List Arith Bool Ascii String Lia ZifyBool ZifyNat.
From Verif Require Import NamesModel TextModel TextProps S3Model S3Props CollectModel.
Import ListNotations.
Close Scope string_scope. Open Scope nat_scope. Local Open Scope list_scope.

Lemma path_eqb_iff a : forall b, path_eqb a b = true <-> a = b.
Proof.
  induction a as [|x a IH]; intros [|y b]; cbn; try (split; [discriminate|discriminate]); [split; reflexivity|].
  rewrite andb_true_iff, str_eqb_iff, IH. split; [intros [-> ->]; reflexivity|intros H; injection H as -> ->; auto].
Qed.
Lemma key_eqb_iff a b : key_eqb a b = true <-> a = b.
Proof.
  unfold key_eqb. rewrite andb_true_iff, path_eqb_iff, str_eqb_iff. destruct a, b; cbn.
  split; [intros [-> ->]; reflexivity|intros H; injection H as -> ->; auto].
Qed.
Lemma key_eqb_refl k : key_eqb k k = true.
Proof. now apply key_eqb_iff. Qed.
Lemma isDir_iff d p : isDir d p = true <-> In p (dirs d).
Proof.
  unfold isDir. rewrite existsb_exists. split.
  - intros (x & I & E). apply path_eqb_iff in E as <-. exact I.
  - intros I. exists p. split; [exact I|]. now apply path_eqb_iff.
Qed.

(** Entries of the disk *)
Lemma in_put k c d e : In e (files (put k c d)) <-> e = (k, c) \/ (In e (files d) /\ fst e <> k).
Proof.
  unfold put. cbn [files In]. rewrite filter_In, negb_true_iff.
  assert (A : key_eqb (fst e) k = false <-> fst e <> k).
  { rewrite <- not_true_iff_false, key_eqb_iff. reflexivity. }
  rewrite A. intuition congruence.
Qed.
Lemma find_filter k k' (l : list (key * content)) : k <> k' ->
  find (fun e => key_eqb (fst e) k) (filter (fun e => negb (key_eqb (fst e) k')) l) = find (fun e => key_eqb (fst e) k) l.
Proof.
  intros N. induction l as [|e l IH]; [reflexivity|]. cbn. destruct (key_eqb (fst e) k') eqn:E; cbn; [|now rewrite IH].
  apply key_eqb_iff in E. rewrite IH. destruct (key_eqb (fst e) k) eqn:F; [apply key_eqb_iff in F; congruence|reflexivity].
Qed.
Lemma get_put k c d k' : get (put k c d) k' = if key_eqb k k' then Some c else get d k'.
Proof.
  unfold get, put. cbn. destruct (key_eqb k k') eqn:E; [reflexivity|].
  rewrite find_filter; [reflexivity|]. intros ->. now rewrite key_eqb_refl in E.
Qed.
Lemma dirs_put k c d : dirs (put k c d) = dirs d.
Proof. reflexivity. Qed.
Lemma glob_in d p pre suf k : In k (globAt d p pre suf) <-> fst k = p /\ globMatch pre suf (snd k) = true /\ In k (map fst (files d)).
Proof. unfold globAt. rewrite filter_In, andb_true_iff, path_eqb_iff. tauto. Qed.

(** Paths *)
Lemma split_slash a b : split (a ++ slash :: b) = split a ++ split b.
Proof.
  induction a as [|c a IH]; [reflexivity|]. cbn [app split]. destruct (Ascii.eqb c slash); cbn; [now rewrite IH|].
  rewrite IH. pose proof (split_nil a). destruct (split a) as [|x r]; [contradiction|reflexivity].
Qed.
Lemma norm_slash a b : norm (a ++ slash :: b) = norm a ++ norm b.
Proof. unfold norm. rewrite split_slash. apply filter_app. Qed.
Definition wms : list str := map fst types.
Lemma norm_wm wm : In wm wms -> norm wm = [wm].
Proof. cbn. intros H. repeat destruct H as [<-|H]; [reflexivity..|contradiction]. Qed.
(** The folder of a multiplier, with the slash that the program expects at the end of the directory *)
Definition folder (w : str) (wm : str) : path := norm w ++ [wm].
Lemma folder_slash w wm : In wm wms -> norm ((w ++ [slash]) ++ wm ++ [slash]) = folder w wm.
Proof.
  intros H. unfold folder. rewrite <- !app_assoc. cbn [app]. rewrite norm_slash. change (wm ++ [slash]) with (wm ++ slash :: []).
  rewrite norm_slash, (norm_wm _ H). cbn. now rewrite ?app_nil_r.
Qed.
Lemma folder_check w wm : In wm wms -> norm ((w ++ [slash]) ++ [slash] ++ wm) = folder w wm.
Proof.
  intros H. unfold folder. rewrite <- !app_assoc. cbn [app]. rewrite norm_slash.
  change (slash :: wm) with ([] ++ slash :: wm). rewrite norm_slash, (norm_wm _ H). reflexivity.
Qed.
Lemma folder_inj w a b : folder w a = folder w b -> a = b.
Proof. unfold folder. intros H. apply app_inj_tail in H as [_ H]. exact H. Qed.

(** * Folders *)
(** Every file is in a folder of the disk *)
Definition wf (d : disk) : Prop := forall e, In e (files d) -> In (fst (fst e)) (dirs d).

Lemma makedirs_ok d p d' : makedirs d p = inr d' -> ~ In p (dirs d) /\ files d' = files d /\
  (forall q, In q (dirs d) -> In q (dirs d')) /\ (p <> [] -> In p (dirs d')) /\
  (forall q, In q (dirs d') -> In q (dirs d) \/ List.length q <= List.length p).
Proof.
  unfold makedirs. destruct (isDir d p) eqn:E; [discriminate|]. intros H. injection H as <-. cbn. repeat split.
  - intros I. apply isDir_iff in I. congruence.
  - intros q I. apply in_app_iff. now right.
  - intros N. apply in_app_iff. left. apply in_map_iff. exists (List.length p). split; [apply firstn_all|].
    apply in_seq. destruct p; [contradiction|cbn; lia].
  - intros q I. apply in_app_iff in I as [I|I]; [right|now left]. apply in_map_iff in I as (n & <- & _). rewrite firstn_length. lia.
Qed.
Lemma makeAll_ok w ws : (forall wm, In wm ws -> In wm wms) -> forall d d', makeAll (w ++ [slash]) ws d = inr d' ->
  files d' = files d /\ (forall q, In q (dirs d) -> In q (dirs d')) /\
  (forall wm, In wm ws -> In (folder w wm) (dirs d') /\ ~ In (folder w wm) (dirs d)).
Proof.
  induction ws as [|wm ws IH]; intros Hw d d' H; cbn [makeAll] in H.
  - injection H as <-. split; [reflexivity|]. split; [auto|]. intros x [].
  - destruct (makedirs d _) as [e|d1] eqn:E; [discriminate|]. rewrite folder_check in E by (apply Hw; now left).
    apply makedirs_ok in E as (N & F & M & P & _). apply IH in H as (F2 & M2 & P2); [|intros x Hx; apply Hw; now right].
    split; [congruence|]. split; [auto|]. intros x [<-|Hx].
    + split; [|exact N]. apply M2, P. unfold folder. destruct (norm w); discriminate.
    + destruct (P2 x Hx) as [A B]. split; [exact A|]. intros I. apply B, M, I.
Qed.
Lemma clean_ok w ws : (forall wm, In wm ws -> In wm wms) -> forall d,
  let d' := fold_left (fun d wm => clean (w ++ [slash]) wm d) ws d in
  dirs d' = dirs d /\ (forall e, In e (files d') <-> In e (files d) /\ forall wm, In wm ws -> fst (fst e) <> folder w wm).
Proof.
  induction ws as [|wm ws IH]; intros Hw d; cbn [fold_left].
  - split; [reflexivity|]. intros e. split; [intros H; split; [exact H|intros wm []]|tauto].
  - destruct (IH (fun x Hx => Hw x (or_intror Hx)) (clean (w ++ [slash]) wm d)) as [A B]. split; [exact A|].
    intros e. rewrite B. unfold clean. cbn [files]. rewrite filter_In, negb_true_iff, folder_check by (apply Hw; now left). split.
    + intros [[I N] F]. split; [exact I|]. intros x [<-|Hx]; [|now apply F]. intros X. apply path_eqb_iff in X. exact (eq_true_false_abs _ X N).
    + intros [I F]. repeat split; [exact I| |intros x Hx; apply F; now right].
      destruct (path_eqb _ _) eqn:E; [|reflexivity]. apply path_eqb_iff in E. exfalso. apply (F wm); [now left|exact E].
Qed.

(** After the check every folder that is there is empty, and nothing else has been removed; all are there unless the
    folder of the shielding was there and another was not *)
Theorem c211_folders : forall w d d', wf d -> checkFolders (w ++ [slash]) d = inr d' ->
  (forall e, In e (files d') <-> In e (files d) /\ forall wm, In wm wms -> fst (fst e) <> folder w wm) /\
  (forall q, In q (dirs d) -> In q (dirs d')) /\
  (~ In (folder w (lit "shielding")) (dirs d) -> forall wm, In wm wms -> In (folder w wm) (dirs d')).
Proof.
  intros w d d' W H. unfold checkFolders in H.
  destruct (if isDir d (norm (w ++ [slash])) then inr d else makedirs d (norm (w ++ [slash]))) as [e|d1] eqn:E; [discriminate|].
  assert (D1 : files d1 = files d /\ (forall q, In q (dirs d) -> In q (dirs d1)) /\
    (forall wm, In wm wms -> In (folder w wm) (dirs d1) -> In (folder w wm) (dirs d))).
  { destruct (isDir d _); [injection E as <-; auto|]. apply makedirs_ok in E as (_ & F & M & _ & L). repeat split; auto.
    intros wm Hw I. destruct (L _ I) as [J|J]; [exact J|]. exfalso. unfold folder in J.
    change (w ++ [slash]) with (w ++ slash :: []) in J. rewrite norm_slash, !app_length in J. cbn in J. lia. }
  destruct D1 as (F1 & M1 & B1).
  change ((w ++ [slash]) ++ lit "/shielding") with ((w ++ [slash]) ++ [slash] ++ lit "shielding") in H.
  rewrite folder_check in H by now left.
  destruct (isDir d1 _) eqn:S.
  - injection H as <-. destruct (clean_ok w wms (fun x Hx => Hx) d1) as [A B]. fold wms.
    split; [intros e; rewrite <- F1; apply B|]. split; [intros q I; apply (eq_ind_r (fun l => In q l) (M1 q I) A)|].
    intros N. exfalso. apply N, B1; [now left|]. now apply isDir_iff.
  - apply makeAll_ok in H as (F & M & P); [|auto]. split; [|split; auto].
    + intros e. rewrite F, F1. split; [|tauto]. intros I. split; [exact I|]. intros wm Hw Eq.
      destruct (P wm Hw) as [_ N]. apply N, M1. rewrite <- Eq. now apply W.
    + intros _ wm Hw. now apply P.
Qed.

(** * Copies *)
(** The files that the loops of the copies may write: those of matched files in folders of the same multiplier *)
Definition wanted (raw : str) (tiles : list str) (d : disk) (wm : str) (k : key) : Prop :=
  fst k = folder raw wm /\ In k (map fst (files d)) /\ exists tile, In tile tiles /\ starts_with tile (snd k) = true.
Definition made (tr : key -> str -> bool) (k : key) (var : str) (name : str) (c : content) : Prop :=
  (name = snd k /\ c = Copy k) \/ (tr k var = true /\ name = tifName (snd k) /\ c = Tif k var).

Definition inv (tr : key -> str -> bool) (raw w : str) (tiles : list str) (d0 d : disk) : Prop :=
  dirs d = dirs d0 /\
  (forall e, In e (files d) -> In e (files d0) \/ exists wm var k, In (wm, var) types /\ fst (fst e) = folder w wm /\
     wanted raw tiles d0 wm k /\ made tr k var (snd (fst e)) (snd e)) /\
  (forall k wm, fst k = folder raw wm -> In k (map fst (files d0)) -> In k (map fst (files d))).
Lemma type_wm wm var : In (wm, var) types -> In wm wms.
Proof. intros H. apply (in_map fst) in H. exact H. Qed.
Lemma copyOne_inv tr raw w tiles d0 wm var k d d' : norm raw <> norm w -> In (wm, var) types -> wanted raw tiles d0 wm k ->
  inv tr raw w tiles d0 d -> copyOne tr (w ++ [slash]) wm var k d = inr d' -> inv tr raw w tiles d0 d'.
Proof.
  intros N T W (D & F & K) H. unfold copyOne in H. rewrite (folder_slash _ _ (type_wm _ _ T)) in H.
  destruct (key_eqb k _); [discriminate|]. destruct (isDir d _); [|discriminate]. injection H as <-.
  assert (A : forall name c d, made tr k var name c -> inv tr raw w tiles d0 d -> inv tr raw w tiles d0 (put (folder w wm, name) c d)).
  { clear D F K d. intros name c d M (D & F & K). split; [exact D|]. split.
    - intros e I. apply in_put in I as [->|[I _]]; [|now apply F]. right. exists wm, var, k. auto.
    - intros k' wm' E I. specialize (K k' wm' E I). apply in_map_iff in K as (e & <- & J). apply in_map_iff.
      exists e. split; [reflexivity|]. apply in_put. right. split; [exact J|]. intros X. rewrite X in E. cbn in E.
      unfold folder in E. apply app_inj_tail in E as [E _]. now apply N. }
  destruct (tr k var) eqn:R; repeat (apply A; [unfold made; auto|]); now split.
Qed.
Lemma copyFiles_inv tr raw w tiles d0 wm var ks : norm raw <> norm w -> In (wm, var) types ->
  (forall k, In k ks -> wanted raw tiles d0 wm k) -> forall d d',
  inv tr raw w tiles d0 d -> copyFiles tr (w ++ [slash]) wm var ks d = inr d' -> inv tr raw w tiles d0 d'.
Proof.
  intros N T. induction ks as [|k ks IH]; intros W d d' I H; cbn [copyFiles] in H; [now injection H as <-|].
  destruct (copyOne _ _ _ _ k d) as [e|d1] eqn:E; [discriminate|].
  apply (IH (fun x Hx => W x (or_intror Hx)) d1); [|exact H]. eapply copyOne_inv; eauto. apply W. now left.
Qed.
Lemma glob_wanted tr raw w tiles tile d0 d wm : norm raw <> norm w -> In tile tiles -> In wm wms -> inv tr raw w tiles d0 d ->
  forall k, In k (globAt d (norm ((raw ++ [slash]) ++ wm ++ [slash])) tile []) -> wanted raw tiles d0 wm k.
Proof.
  intros N T Hw (D & F & K) k I. apply glob_in in I as (A & B & C). rewrite folder_slash in A by exact Hw.
  apply in_map_iff in C as (e & <- & J). destruct (F e J) as [G|(wm' & var & k' & _ & X & _)].
  - split; [exact A|]. split; [now apply in_map|]. exists tile. split; [exact T|]. unfold globMatch in B.
    apply andb_true_iff in B. apply B.
  - exfalso. rewrite A in X. unfold folder in X. apply app_inj_tail in X as [X _]. now apply N.
Qed.
Lemma copyTypes_inv tr raw w tiles tile d0 ts : norm raw <> norm w -> In tile tiles -> (forall t, In t ts -> In t types) ->
  forall d d', inv tr raw w tiles d0 d -> copyTypes tr (raw ++ [slash]) (w ++ [slash]) tile ts d = inr d' -> inv tr raw w tiles d0 d'.
Proof.
  intros N T. induction ts as [|[wm var] ts IH]; intros W d d' I H; cbn [copyTypes] in H; [now injection H as <-|].
  destruct (copyFiles _ _ _ _ _ d) as [e|d1] eqn:E; [discriminate|].
  apply (IH (fun x Hx => W x (or_intror Hx)) d1); [|exact H].
  assert (In (wm, var) types) by (apply W; now left).
  eapply copyFiles_inv; eauto. eapply glob_wanted; eauto using type_wm.
Qed.
Lemma copyTiles_inv tr raw w all d0 tiles : norm raw <> norm w -> (forall t, In t tiles -> In t all) ->
  forall d d', inv tr raw w all d0 d -> copyTiles tr (raw ++ [slash]) (w ++ [slash]) tiles d = inr d' -> inv tr raw w all d0 d'.
Proof.
  intros N. induction tiles as [|t ts IH]; intros W d d' I H; cbn [copyTiles] in H; [now injection H as <-|].
  destruct (copyTypes _ _ _ _ _ d) as [e|d1] eqn:E; [discriminate|].
  apply (IH (fun x Hx => W x (or_intror Hx)) d1); [|exact H]. eapply copyTypes_inv; eauto. apply W. now left.
Qed.
Lemma inv_refl tr raw w tiles d : inv tr raw w tiles d d.
Proof. split; [reflexivity|]. split; auto. Qed.

(** What lies in a folder afterwards is a copy or a geotiff of a file of an asked tile and of the same multiplier, with
    the variable of this multiplier: nothing is left of earlier runs *)
Theorem c211_origin : forall tr raw w tiles d d1 d2 e wm, wf d -> norm raw <> norm w ->
  checkFolders (w ++ [slash]) d = inr d1 -> copyTiles tr (raw ++ [slash]) (w ++ [slash]) tiles d1 = inr d2 ->
  In e (files d2) -> In wm wms -> fst (fst e) = folder w wm ->
  exists var k tile, In (wm, var) types /\ fst k = folder raw wm /\ In k (map fst (files d)) /\ In tile tiles /\
    starts_with tile (snd k) = true /\
    ((snd (fst e) = snd k /\ snd e = Copy k) \/ (tr k var = true /\ snd (fst e) = tifName (snd k) /\ snd e = Tif k var)).
Proof.
  intros tr raw w tiles d d1 d2 e wm W N C H I Hw E.
  destruct (c211_folders w d d1 W C) as (F & _ & _).
  destruct (copyTiles_inv tr raw w tiles d1 tiles N (fun t Ht => Ht) d1 d2 (inv_refl _ _ _ _ _) H) as (_ & G & _).
  destruct (G e I) as [J|(wm' & var & k & T & X & (A & B & tile & Ti & S) & M)].
  - exfalso. apply F in J as [_ J]. now apply (J wm).
  - assert (wm' = wm) as -> by (apply (folder_inj w); congruence). exists var, k, tile. repeat split; auto.
    apply in_map_iff in B as (e' & <- & J). apply in_map. now apply F in J.
Qed.

(** Shielding is read from Ms, terrain from Mz and topography from Mt *)
Theorem c211_variables : forall tr raw w tiles d d1 d2 e wm k v, wf d -> norm raw <> norm w ->
  checkFolders (w ++ [slash]) d = inr d1 -> copyTiles tr (raw ++ [slash]) (w ++ [slash]) tiles d1 = inr d2 ->
  In e (files d2) -> fst (fst e) = folder w wm -> snd e = Tif k v ->
  (wm = lit "shielding" -> v = lit "Ms") /\ (wm = lit "terrain" -> v = lit "Mz") /\ (wm = lit "topographic" -> v = lit "Mt").
Proof.
  intros tr raw w tiles d d1 d2 e wm k v W N C H I E V.
  assert (A : In wm wms -> In (wm, v) types).
  { intros Hw. destruct (c211_origin tr raw w tiles d d1 d2 e wm W N C H I Hw E) as (var & k' & t & T & _ & _ & _ & _ & [[_ X]|(_ & _ & X)]); [congruence|].
    rewrite V in X. injection X as _ ->. exact T. }
  repeat split; intros ->; destruct (A ltac:(cbn; auto)) as [B|[B|[B|[]]]]; try discriminate B; now injection B.
Qed.

(** * Nothing is missing *)
Definition isNc (k : key) : Prop := exists base, snd k = base ++ lit ".nc".
Lemma tif_nc base : tifName (base ++ lit ".nc") = base ++ lit ".tif".
Proof. unfold tifName. rewrite app_length. cbn [List.length lit list_ascii_of_string]. rewrite Nat.add_sub, firstn_app, Nat.sub_diag, firstn_all. now rewrite app_nil_r. Qed.
Lemma nc_tif a b : a ++ lit ".nc" <> b ++ lit ".tif".
Proof. intros H. apply (f_equal (@rev ascii)) in H. rewrite !rev_app_distr in H. cbn in H. discriminate H. Qed.
Definition there (w wm var : str) (k : key) (d : disk) : Prop := get d (folder w wm, tifName (snd k)) = Some (Tif k var).
Lemma copyOne_there tr raw w wm var k wm' var' k' d d' : In (wm, var) types -> In (wm', var') types ->
  fst k = folder raw wm -> fst k' = folder raw wm' -> isNc k -> isNc k' ->
  there w wm var k d \/ (k = k' /\ wm = wm' /\ tr k var = true) ->
  copyOne tr (w ++ [slash]) wm' var' k' d = inr d' -> there w wm var k d'.
Proof.
  intros T T' K K' [b Hb] [b' Hb'] P H. unfold copyOne in H. rewrite (folder_slash _ _ (type_wm _ _ T')) in H.
  destruct (key_eqb k' _); [discriminate|]. destruct (isDir d _); [|discriminate]. injection H as <-.
  assert (V : wm = wm' -> var = var').
  { intros <-. cbn in T, T'. repeat destruct T as [T|T]; try contradiction; repeat destruct T' as [T'|T']; try contradiction;
      congruence. }
  unfold there in *. rewrite Hb, tif_nc in *.
  assert (C : forall d c, get (put (folder w wm', snd k') c d) (folder w wm, b ++ lit ".tif") = get d (folder w wm, b ++ lit ".tif")).
  { intros d1 c. rewrite get_put. destruct (key_eqb _ _) eqn:E; [|reflexivity]. apply key_eqb_iff in E. apply (f_equal snd) in E. cbn [snd] in E.
    rewrite Hb' in E. now apply nc_tif in E. }
  destruct P as [P|(-> & -> & P)].
  - destruct (tr k' var'); [|now rewrite C]. rewrite get_put, C. destruct (key_eqb _ _) eqn:E; [|exact P].
    apply key_eqb_iff in E. pose proof (f_equal fst E) as E1. pose proof (f_equal snd E) as E2. cbn [fst snd] in E1, E2. apply folder_inj in E1 as ->. rewrite Hb', tif_nc in E2. apply app_inv_tail in E2 as ->.
    assert (k' = k) as ->. { destruct k, k'; cbn in *; congruence. } now rewrite V.
  - rewrite <- (V eq_refl) in *. rewrite P, get_put, Hb, tif_nc. now rewrite key_eqb_refl.
Qed.
Lemma copyFiles_there tr raw w wm var k wm' var' ks : In (wm, var) types -> In (wm', var') types ->
  fst k = folder raw wm -> isNc k -> (forall k', In k' ks -> fst k' = folder raw wm' /\ isNc k') -> forall d d',
  there w wm var k d \/ (In k ks /\ wm = wm' /\ tr k var = true) ->
  copyFiles tr (w ++ [slash]) wm' var' ks d = inr d' -> there w wm var k d'.
Proof.
  intros T T' K Nk. induction ks as [|k' ks IH]; intros A d d' P H; cbn [copyFiles] in H.
  - injection H as <-. destruct P as [P|[[] _]]. exact P.
  - destruct (copyOne _ _ _ _ k' d) as [e|d1] eqn:E; [discriminate|].
    destruct (A k' (or_introl eq_refl)) as [A1 A2].
    apply (IH (fun x Hx => A x (or_intror Hx)) d1 d'); [|exact H].
    destruct P as [P|([->|P] & P1 & P2)]; [left|left|right; auto]; eapply copyOne_there; eauto.
Qed.
Lemma copyTypes_there tr raw w all tile d0 wm var k ts : norm raw <> norm w -> In tile all ->
  (forall x wm, fst x = folder raw wm -> In x (map fst (files d0)) -> isNc x) -> In (wm, var) types ->
  fst k = folder raw wm -> In k (map fst (files d0)) -> (forall t, In t ts -> In t types) -> forall d d', inv tr raw w all d0 d ->
  there w wm var k d \/ (In (wm, var) ts /\ starts_with tile (snd k) = true /\ tr k var = true) ->
  copyTypes tr (raw ++ [slash]) (w ++ [slash]) tile ts d = inr d' -> there w wm var k d'.
Proof.
  intros N Ti NC T K I. induction ts as [|[wm' var'] ts IH]; intros W d d' V P H; cbn [copyTypes] in H.
  - injection H as <-. destruct P as [P|[[] _]]. exact P.
  - destruct (copyFiles _ _ _ _ _ d) as [e|d1] eqn:E; [discriminate|].
    assert (T' : In (wm', var') types) by (apply W; now left).
    pose proof (glob_wanted tr raw w all tile d0 d wm' N Ti (type_wm _ _ T') V) as G.
    apply (IH (fun x Hx => W x (or_intror Hx)) d1 d'); [eapply copyFiles_inv; eauto| |exact H].
    assert (A : forall k', In k' (globAt d (norm ((raw ++ [slash]) ++ wm' ++ [slash])) tile []) -> fst k' = folder raw wm' /\ isNc k').
    { intros k' J. destruct (G k' J) as (A & B & _). split; [exact A|]. eapply NC; eauto. }
    destruct P as [P|([P|P] & S & R)]; [left|left|right; auto]; eapply (copyFiles_there tr raw w wm var k wm' var'); eauto.
    right. injection P as -> ->. repeat split; auto. apply glob_in. rewrite folder_slash by (eapply type_wm; eauto).
    split; [exact K|]. split; [unfold globMatch; rewrite S; cbn; reflexivity|]. destruct V as (_ & _ & V). eapply V; eauto.
Qed.
Lemma copyTiles_there tr raw w all d0 wm var k tiles : norm raw <> norm w ->
  (forall x wm, fst x = folder raw wm -> In x (map fst (files d0)) -> isNc x) -> In (wm, var) types ->
  fst k = folder raw wm -> In k (map fst (files d0)) -> (forall t, In t tiles -> In t all) -> forall d d', inv tr raw w all d0 d ->
  there w wm var k d \/ (tr k var = true /\ exists tile, In tile tiles /\ starts_with tile (snd k) = true) ->
  copyTiles tr (raw ++ [slash]) (w ++ [slash]) tiles d = inr d' -> there w wm var k d'.
Proof.
  intros N NC T K I. induction tiles as [|t ts IH]; intros W d d' V P H; cbn [copyTiles] in H.
  - injection H as <-. destruct P as [P|(_ & t & [] & _)]. exact P.
  - destruct (copyTypes _ _ _ _ _ d) as [e|d1] eqn:E; [discriminate|].
    assert (In t all) by (apply W; now left).
    apply (IH (fun x Hx => W x (or_intror Hx)) d1 d'); [eapply copyTypes_inv; eauto| |exact H].
    destruct P as [P|(R & t' & [<-|P] & S)]; [left|left|right; eauto]; eapply (copyTypes_there tr raw w all t); eauto.
Qed.

(** Every file of an asked tile is there as geotiff afterwards, if the multipliers are files of type .nc and
    gdal_translate succeeds *)
Theorem c211_complete : forall tr raw w tiles d d1 d2 k wm var tile, wf d -> norm raw <> norm w ->
  (forall x wm, fst x = folder raw wm -> In x (map fst (files d)) -> isNc x) ->
  checkFolders (w ++ [slash]) d = inr d1 -> copyTiles tr (raw ++ [slash]) (w ++ [slash]) tiles d1 = inr d2 ->
  In (wm, var) types -> fst k = folder raw wm -> In k (map fst (files d)) -> In tile tiles -> starts_with tile (snd k) = true ->
  tr k var = true -> get d2 (folder w wm, tifName (snd k)) = Some (Tif k var).
Proof.
  intros tr raw w tiles d d1 d2 k wm var tile W N NC C H T K I Ti S R.
  destruct (c211_folders w d d1 W C) as (F & _ & _).
  apply (copyTiles_there tr raw w tiles d1 wm var k tiles N) with (d := d1); auto using inv_refl.
  - intros x wm' X J. apply (NC x wm' X). apply in_map_iff in J as (e & <- & J). apply in_map. now apply F in J.
  - apply in_map_iff in I as (e & E & J). apply in_map_iff. exists e. split; [exact E|]. apply F. split; [exact J|].
    intros wm' _ X. rewrite E, K in X. unfold folder in X. apply app_inj_tail in X as [X _]. now apply N.
  - right. split; [exact R|]. eauto.
Qed.

(** * Merging *)
Definition suffixOf (dirn : str) : str := lit "_" ++ dirn ++ lit ".tif".
Definition mergedName (wm dirn : str) : str := dirn ++ lit "_" ++ wm ++ lit ".tif".
Lemma merged_not : forallb (fun x => forallb (fun d => negb (globMatch [] (suffixOf d) (mergedName (fst x) (snd x)))) dirns)
  (list_prod wms dirns) = true.
Proof. vm_compute. reflexivity. Qed.
Lemma merged_free wm dirn dirn' : In wm wms -> In dirn dirns -> In dirn' dirns -> globMatch [] (suffixOf dirn') (mergedName wm dirn) = false.
Proof.
  intros A B C. pose proof (proj1 (forallb_forall _ _) merged_not (wm, dirn) (proj2 (in_prod_iff _ _ _ _) (conj A B))) as H.
  apply negb_true_iff. exact (proj1 (forallb_forall _ _) H dirn' C).
Qed.
Lemma glob_put k c d p pre suf : globMatch pre suf (snd k) = false -> globAt (put k c d) p pre suf = globAt d p pre suf.
Proof.
  intros H. unfold globAt, put. cbn [files map filter fst]. rewrite H, andb_false_r.
  induction (files d) as [|e l IH]; [reflexivity|]. cbn [filter map]. destruct (key_eqb (fst e) k) eqn:E; cbn [negb].
  - apply key_eqb_iff in E. cbn [filter]. rewrite E, H, andb_false_r. exact IH.
  - cbn [map filter]. destruct (path_eqb (fst (fst e)) p && globMatch pre suf (snd (fst e))); [now rewrite IH|exact IH].
Qed.
Lemma mergeOne_glob w wm dirn d p dirn' : In wm wms -> In dirn dirns -> In dirn' dirns ->
  globAt (mergeOne (w ++ [slash]) wm dirn d) p [] (suffixOf dirn') = globAt d p [] (suffixOf dirn').
Proof.
  intros A B C. unfold mergeOne. destruct (globAt d (norm _) [] _); [reflexivity|]. apply glob_put. now apply merged_free.
Qed.
Lemma mergedName_inj : forallb (fun x => forallb (fun y => if str_eqb (mergedName (fst x) (snd x)) (mergedName (fst y) (snd y)) then
   str_eqb (snd x) (snd y) else true) (list_prod wms dirns)) (list_prod wms dirns) = true.
Proof. vm_compute. reflexivity. Qed.
Lemma merged_same wm dirn wm' dirn' w : In (wm, dirn) (list_prod wms dirns) -> In (wm', dirn') (list_prod wms dirns) ->
  (folder w wm, mergedName wm dirn) = (folder w wm', mergedName wm' dirn') -> wm = wm' /\ dirn = dirn'.
Proof.
  intros A B E. pose proof (f_equal fst E) as E1. pose proof (f_equal snd E) as E2. cbn [fst snd] in E1, E2.
  apply folder_inj in E1. split; [exact E1|].
  pose proof (proj1 (forallb_forall _ _) (proj1 (forallb_forall _ _) mergedName_inj _ A) _ B) as H.
  cbn [fst snd] in H. rewrite (proj2 (str_eqb_iff _ _) E2) in H. now apply str_eqb_iff in H.
Qed.
Lemma merge_keeps w l : (forall x, In x l -> In x (list_prod wms dirns)) -> forall d wm dirn, In (wm, dirn) (list_prod wms dirns) ->
  ~ In (wm, dirn) l -> get (fold_left (fun d wd => mergeOne (w ++ [slash]) (fst wd) (snd wd) d) l d) (folder w wm, mergedName wm dirn) =
  get d (folder w wm, mergedName wm dirn).
Proof.
  induction l as [|[wm' dirn'] l IH]; intros Hl d wm dirn A N; cbn [fold_left]; [reflexivity|].
  rewrite IH; [|intros x Hx; apply Hl; now right|exact A|intros X; apply N; now right]. cbn [fst snd].
  assert (B : In (wm', dirn') (list_prod wms dirns)) by (apply Hl; now left).
  unfold mergeOne. rewrite folder_slash by (apply in_prod_iff in B; tauto).
  destruct (globAt d (folder w wm') [] _); [reflexivity|]. rewrite get_put. destruct (key_eqb _ _) eqn:E; [|reflexivity].
  apply key_eqb_iff in E. exfalso. apply N. left. fold (mergedName wm' dirn') in E.
  destruct (merged_same _ _ _ _ w B A E) as [-> ->]. reflexivity.
Qed.
Lemma merge_sets w l : (forall x, In x l -> In x (list_prod wms dirns)) -> NoDup l -> forall d wm dirn ks, In (wm, dirn) l ->
  globAt d (folder w wm) [] (suffixOf dirn) = ks -> ks <> [] ->
  get (fold_left (fun d wd => mergeOne (w ++ [slash]) (fst wd) (snd wd) d) l d) (folder w wm, mergedName wm dirn) = Some (Merge (map snd ks)).
Proof.
  induction l as [|[wm' dirn'] l IH]; intros Hl ND d wm dirn ks A G N; cbn [fold_left]; [contradiction|].
  inversion ND as [|? ? N1 N2]; subst. cbn [fst snd].
  assert (B : In (wm', dirn') (list_prod wms dirns)) by (apply Hl; now left). pose proof B as B'. apply in_prod_iff in B' as [B1 B2].
  destruct A as [A|A].
  - injection A as -> ->. rewrite merge_keeps; [|intros x Hx; apply Hl; now right|exact B|exact N1].
    unfold mergeOne. rewrite folder_slash by exact B1. fold (suffixOf dirn).
    destruct (globAt d (folder w wm) [] (suffixOf dirn)) as [|k0 ks]; [contradiction|]. rewrite get_put. fold (mergedName wm dirn).
    now rewrite key_eqb_refl.
  - assert (C : In (wm, dirn) (list_prod wms dirns)) by (apply Hl; now right). apply in_prod_iff in C as [C1 C2].
    pose proof (mergeOne_glob w wm' dirn' d (folder w wm) dirn B1 B2 C2) as M.
    rewrite <- M. apply IH; auto; [intros x Hx; apply Hl; now right|now rewrite M].
Qed.
Lemma all_nodup : NoDup (list_prod wms dirns).
Proof. vm_compute. repeat (constructor; [cbn; intuition discriminate|]). constructor. Qed.

(** Whatever order the layers are merged in, each takes the geotiffs of its own folder and direction that were there
    before the first merge, and no merged layer is merged again *)
Theorem c211_merged : forall w d wm dirn ks, In wm wms -> In dirn dirns -> globAt d (folder w wm) [] (suffixOf dirn) = ks -> ks <> [] ->
  get (mergeAll (w ++ [slash]) d) (folder w wm, mergedName wm dirn) = Some (Merge (map snd ks)).
Proof.
  intros w d wm dirn ks A B G N. apply merge_sets; auto using all_nodup. apply in_prod_iff. now split.
Qed.

(** A geotiff belongs to one direction only *)
Lemma starts_both p : forall q r, starts_with p r = true -> starts_with q r = true -> starts_with p q = true \/ starts_with q p = true.
Proof.
  induction p as [|x p IH]; intros [|y q] r A B; cbn in *; auto. destruct r as [|z r]; [discriminate|].
  apply andb_true_iff in A as [A1 A2]. apply andb_true_iff in B as [B1 B2]. apply Ascii.eqb_eq in A1 as ->. apply Ascii.eqb_eq in B1 as ->.
  rewrite Ascii.eqb_refl. cbn. eapply IH; eauto.
Qed.
Lemma suffixes : forallb (fun x => forallb (fun y => if starts_with (rev (suffixOf x)) (rev (suffixOf y)) then str_eqb x y else true) dirns) dirns = true.
Proof. vm_compute. reflexivity. Qed.
Theorem c211_direction : forall a b name, In a dirns -> In b dirns ->
  globMatch [] (suffixOf a) name = true -> globMatch [] (suffixOf b) name = true -> a = b.
Proof.
  intros a b name A B H1 H2. unfold globMatch in *. cbn [starts_with skipn List.length andb] in *.
  destruct (starts_both _ _ _ H1 H2) as [E|E].
  - pose proof (proj1 (forallb_forall _ _) (proj1 (forallb_forall _ _) suffixes a A) b B) as H. cbv beta in H. rewrite E in H. now apply str_eqb_iff in H.
  - pose proof (proj1 (forallb_forall _ _) (proj1 (forallb_forall _ _) suffixes b B) a A) as H. cbv beta in H. rewrite E in H. symmetry. now apply str_eqb_iff in H.
Qed.

Lemma match_nc dirn base : globMatch [] (suffixOf dirn) (base ++ lit ".tif") = globMatch [] (lit "_" ++ dirn ++ lit ".nc") (base ++ lit ".nc").
Proof.
  unfold globMatch, suffixOf. cbn [starts_with skipn List.length andb]. rewrite !rev_app_distr. reflexivity.
Qed.
Lemma match_copy dirn base : globMatch [] (suffixOf dirn) (base ++ lit ".nc") = false.
Proof. unfold globMatch, suffixOf. cbn [starts_with skipn List.length andb]. rewrite !rev_app_distr. reflexivity. Qed.
Lemma get_in d k c : get d k = Some c -> In (k, c) (files d).
Proof.
  unfold get. destruct (find _ _) as [[k' c']|] eqn:E; [|discriminate]. intros H. injection H as <-.
  apply find_some in E as [I E]. cbn in E. apply key_eqb_iff in E as <-. exact I.
Qed.
(** The whole collection: the layer of a multiplier and a direction is merged from the geotiffs of exactly the files of
    the asked tiles for this multiplier and direction (that gdal_translate could translate) *)
Theorem c211_layer : forall tr raw w tiles d d3 wm var dirn, wf d -> norm raw <> norm w ->
  (forall x wm, fst x = folder raw wm -> In x (map fst (files d)) -> isNc x) ->
  collect tr (raw ++ [slash]) (w ++ [slash]) tiles d = inr d3 -> In (wm, var) types -> In dirn dirns ->
  exists names, (names <> [] -> get d3 (folder w wm, mergedName wm dirn) = Some (Merge names)) /\
    forall name, In name names <-> exists k tile, fst k = folder raw wm /\ In k (map fst (files d)) /\ In tile tiles /\
      starts_with tile (snd k) = true /\ globMatch [] (lit "_" ++ dirn ++ lit ".nc") (snd k) = true /\ tr k var = true /\ name = tifName (snd k).
Proof.
  intros tr raw w tiles d d3 wm var dirn W N NC H T D. unfold collect in H.
  destruct (checkFolders _ d) as [e|d1] eqn:C; [discriminate|]. destruct (copyTiles _ _ _ _ d1) as [e|d2] eqn:E; [discriminate|].
  injection H as <-. pose proof (type_wm _ _ T) as Hw.
  exists (map snd (globAt d2 (folder w wm) [] (suffixOf dirn))). split.
  - intros X. apply c211_merged; auto. intros Y. apply X. now rewrite Y.
  - intros name. rewrite in_map_iff. split.
    + intros (k2 & <- & G). apply glob_in in G as (G1 & G2 & G3). apply in_map_iff in G3 as (e & <- & I).
      destruct (c211_origin tr raw w tiles d d1 d2 e wm W N C E I Hw G1) as (var' & k & tile & T' & K & J & Ti & S & [[M _]|(R & M & _)]);
        destruct (NC k wm K J) as [base B].
      * exfalso. rewrite M, B, match_copy in G2. discriminate.
      * assert (var' = var) as ->.
        { cbn in T, T'. repeat destruct T as [T|T]; try contradiction; repeat destruct T' as [T'|T']; try contradiction; congruence. }
        exists k, tile. repeat split; auto. rewrite M, B, tif_nc, match_nc in G2. now rewrite B.
    + intros (k & tile & K & J & Ti & S & G & R & ->). destruct (NC k wm K J) as [base B].
      pose proof (c211_complete tr raw w tiles d d1 d2 k wm var tile W N NC C E T K J Ti S R) as P.
      exists (folder w wm, tifName (snd k)). split; [reflexivity|]. apply glob_in. cbn [fst snd]. split; [reflexivity|].
      split; [rewrite B, tif_nc, match_nc, <- B; exact G|]. apply get_in in P. apply (in_map fst) in P. exact P.
Qed.

(** * The collection is accepted if all folders are there or none *)
Lemma makedirs_new d p : ~ In p (dirs d) -> makedirs d p = inr (mk (map (fun n => firstn n p) (seq 1 (List.length p)) ++ dirs d) (files d)).
Proof. intros H. unfold makedirs. destruct (isDir d p) eqn:E; [apply isDir_iff in E; contradiction|reflexivity]. Qed.
Lemma folder_prefix w a b n : firstn n (folder w a) = folder w b -> a = b.
Proof.
  intros H. destruct (Nat.le_gt_cases (List.length (folder w a)) n) as [L|L].
  - rewrite firstn_all2 in H by exact L. now apply folder_inj in H.
  - apply (f_equal (@List.length _)) in H. rewrite firstn_length in H. unfold folder in *. rewrite !app_length in *. cbn in *. lia.
Qed.
Lemma makeAll_accepts w ws : (forall wm, In wm ws -> In wm wms) -> NoDup ws -> forall d, (forall wm, In wm ws -> ~ In (folder w wm) (dirs d)) ->
  exists d', makeAll (w ++ [slash]) ws d = inr d'.
Proof.
  induction ws as [|wm ws IH]; intros Hw ND d N; cbn [makeAll]; [eauto|]. inversion ND as [|? ? N1 N2]; subst.
  rewrite folder_check by (apply Hw; now left). rewrite makedirs_new by (apply N; now left).
  apply IH; auto; [intros x Hx; apply Hw; now right|]. cbn [dirs]. intros x Hx I. apply in_app_iff in I as [I|I].
  - apply in_map_iff in I as (n & E & _). apply folder_prefix in E as ->. contradiction.
  - apply (N x); [now right|exact I].
Qed.
Lemma copyFiles_accepts tr raw w wm var ks : norm raw <> norm w -> In wm wms -> (forall k, In k ks -> fst k = folder raw wm) -> forall d,
  In (folder w wm) (dirs d) -> exists d', copyFiles tr (w ++ [slash]) wm var ks d = inr d' /\ dirs d' = dirs d.
Proof.
  intros N Hw. induction ks as [|k ks IH]; intros A d I; cbn [copyFiles]; [eauto|].
  unfold copyOne. rewrite folder_slash by exact Hw. destruct (key_eqb k _) eqn:E.
  - exfalso. apply key_eqb_iff in E. apply (f_equal fst) in E. cbn [fst] in E. rewrite (A k) in E by now left.
    unfold folder in E. apply app_inj_tail in E as [E _]. contradiction.
  - rewrite (proj2 (isDir_iff _ _) I).
    edestruct (IH (fun x Hx => A x (or_intror Hx))) as (d' & E1 & E2); [|rewrite E1; exists d'; split; [reflexivity|rewrite E2]; now destruct (tr k var)].
    now destruct (tr k var).
Qed.
Lemma copyTypes_accepts tr raw w tile ts : norm raw <> norm w -> (forall t, In t ts -> In t types) -> forall d,
  (forall wm, In wm wms -> In (folder w wm) (dirs d)) ->
  exists d', copyTypes tr (raw ++ [slash]) (w ++ [slash]) tile ts d = inr d' /\ dirs d' = dirs d.
Proof.
  intros N. induction ts as [|[wm var] ts IH]; intros W d I; cbn [copyTypes]; [eauto|].
  assert (Hw : In wm wms) by (apply (type_wm wm var), W; now left).
  destruct (copyFiles_accepts tr raw w wm var (globAt d (norm ((raw ++ [slash]) ++ wm ++ [slash])) tile []) N Hw) with (d := d) as (d1 & E & D).
  - intros k H. apply glob_in in H as [H _]. now rewrite folder_slash in H by exact Hw.
  - now apply I.
  - rewrite E. destruct (IH (fun x Hx => W x (or_intror Hx)) d1) as (d' & E1 & E2); [now rewrite D|]. exists d'. split; [exact E1|congruence].
Qed.
Lemma copyTiles_accepts tr raw w tiles : norm raw <> norm w -> forall d, (forall wm, In wm wms -> In (folder w wm) (dirs d)) ->
  exists d', copyTiles tr (raw ++ [slash]) (w ++ [slash]) tiles d = inr d'.
Proof.
  intros N. induction tiles as [|t ts IH]; intros d I; cbn [copyTiles]; [eauto|].
  destruct (copyTypes_accepts tr raw w t types N (fun x Hx => Hx) d I) as (d1 & E & D). rewrite E. apply IH. now rewrite D.
Qed.
Theorem c211_accepts : forall tr raw w tiles d, wf d -> norm raw <> norm w ->
  (forall wm, In wm wms -> In (folder w wm) (dirs d)) \/ (forall wm, In wm wms -> ~ In (folder w wm) (dirs d)) ->
  exists d3, collect tr (raw ++ [slash]) (w ++ [slash]) tiles d = inr d3.
Proof.
  intros tr raw w tiles d W N A.
  assert (B : exists d1, checkFolders (w ++ [slash]) d = inr d1).
  { unfold checkFolders.
    assert (E : exists d1, (if isDir d (norm (w ++ [slash])) then inr d else makedirs d (norm (w ++ [slash]))) = inr d1 /\
      (forall q, In q (dirs d) -> In q (dirs d1)) /\ forall wm, In (folder w wm) (dirs d1) -> In (folder w wm) (dirs d)).
    { destruct (isDir d _) eqn:X; [eauto|]. rewrite makedirs_new by (intros Y; apply isDir_iff in Y; congruence).
      eexists. split; [reflexivity|]. cbn [dirs]. split; [intros q I; apply in_app_iff; now right|].
      intros wm I. apply in_app_iff in I as [I|I]; [|exact I]. exfalso.
      apply in_map_iff in I as (n & I & _). apply (f_equal (@List.length _)) in I. rewrite firstn_length in I. unfold folder in I.
      change (w ++ [slash]) with (w ++ slash :: []) in I. rewrite norm_slash, !app_length in I. cbn in I. lia. }
    destruct E as (d1 & -> & M0 & M).
    destruct (isDir d1 _) eqn:S; [eauto|].
    change ((w ++ [slash]) ++ lit "/shielding") with ((w ++ [slash]) ++ [slash] ++ lit "shielding") in S. rewrite folder_check in S by now left.
    apply makeAll_accepts; [auto|vm_compute; repeat (constructor; [cbn; intuition discriminate|]); constructor|].
    intros wm Hw I. destruct A as [A|A]; [|apply (A wm Hw), M, I].
    assert (X : isDir d1 (folder w (lit "shielding")) = true); [|congruence].
    apply isDir_iff, M0, A. now left. }
  destruct B as (d1 & B). unfold collect. rewrite B. destruct (c211_folders w d d1 W B) as (_ & M & P).
  destruct (copyTiles_accepts tr raw w tiles N d1) as (d2 & ->); [|eauto].
  intros wm Hw. destruct A as [A|A]; [now apply M, A|]. apply P; [apply A; now left|exact Hw].
Qed.

(** * C212 *)
(** Folders of an interrupted run *)
Theorem c212_exists_refuted : forall w d, In (norm w) (dirs d) -> ~ In (folder w (lit "shielding")) (dirs d) ->
  In (folder w (lit "terrain")) (dirs d) -> checkFolders (w ++ [slash]) d = inl EExists /\ checkFoldersOld (w ++ [slash]) d = inl EExists.
Proof.
  intros w d A B C. unfold checkFolders, checkFoldersOld. change (norm (w ++ [slash])) with (norm (w ++ slash :: [])). rewrite norm_slash. change (norm []) with (@nil str).
  rewrite app_nil_r, (proj2 (isDir_iff _ _) A).
  change ((w ++ [slash]) ++ lit "/shielding") with ((w ++ [slash]) ++ [slash] ++ lit "shielding"). rewrite folder_check by now left.
  destruct (isDir d (folder w (lit "shielding"))) eqn:E; [apply isDir_iff in E; contradiction|].
  assert (X : makeAll (w ++ [slash]) (map fst types) d = inl EExists); [|now rewrite X].
  cbn [types map fst makeAll]. rewrite folder_check by now left. rewrite makedirs_new by exact B.
  rewrite folder_check by (right; now left). unfold makedirs. cbn [isDir dirs].
  rewrite (proj2 (isDir_iff _ _)); [reflexivity|]. cbn [dirs]. apply in_app_iff. now right.
Qed.
(** A disk with one tile of two multipliers *)
Definition rawFile (wm name : string) : key * content := ((map lit ["mult"%string; wm], lit name), Old 0).
Definition disk0 (more : list path) : disk :=
  mk (map lit ["mult"%string] :: map (fun wm => map lit ["mult"%string; wm]) ["shielding"; "terrain"]%string ++ more)
     [rawFile "shielding" "e1s20_ms_e.nc"; rawFile "terrain" "e1s20_mz_e.nc"].
Definition yes : key -> str -> bool := fun _ _ => true.
Theorem c212_missing_refuted :
  collect yes (lit "mult/") (lit "out/") [lit "e1s20_"] (disk0 [[lit "out"]; [lit "out"; lit "shielding"]]) = inl ENotFound.
Proof. vm_compute. reflexivity. Qed.
(** Directories without the slash at the end: nothing is found, without a message, or the folders just made are missed *)
Theorem c212_slash_refuted :
  (exists d, collect yes (lit "mult") (lit "out/") [lit "e1s20_"] (disk0 []) = inr d /\ files d = files (disk0 [])) /\
  collect yes (lit "mult/") (lit "out") [lit "e1s20_"] (disk0 []) = inl ENotFound.
Proof. split; [eexists; split; vm_compute; reflexivity|vm_compute; reflexivity]. Qed.
(** A comma at the end of the list asks for all tiles *)
Lemma commas_end s : In [] (commas (s ++ lit ",")).
Proof.
  induction s as [|c s IH]; [cbn; auto|]. cbn [app commas]. destruct (Ascii.eqb c ","%char); [now right|].
  destruct s as [|c' s]; [cbn; auto|].
  assert (L : exists x r, commas ((c' :: s) ++ lit ",") = x :: r /\ In [] r).
  { clear IH. revert c'. induction s as [|y s IH]; intros c'; cbn [app commas].
    - destruct (Ascii.eqb c' ","%char); eexists; eexists; (split; [reflexivity|]); cbn; auto.
    - destruct (IH y) as (x & r & E & I). cbn [app commas] in E. rewrite E. destruct (Ascii.eqb c' ","%char); eexists; eexists; (split; [reflexivity|]); cbn; auto. }
  destruct L as (x & r & E & I). rewrite E. now right.
Qed.
Theorem c212_comma_refuted : forall s, In [] (tilesOf (s ++ lit ",")) /\ forall name, starts_with [] name = true.
Proof. intros s. split; [|reflexivity]. unfold tilesOf. apply in_map_iff. exists []. split; [reflexivity|apply commas_end]. Qed.
(** The name of a tile also asks for all tiles whose names go on *)
Theorem c212_prefix_refuted : exists d, collect yes (lit "mult/") (lit "out/") [lit "e1s2"] (disk0 []) = inr d /\
  get d ([lit "out"; lit "terrain"], lit "e_terrain.tif") = Some (Merge [lit "e1s20_mz_e.tif"]).
Proof. eexists. split; vm_compute; reflexivity. Qed.
(** get_multipliers.py merges the tiles of earlier runs *)
Theorem c212_stale_refuted : exists d1 d2, collectOld yes (lit "mult/") (lit "out/") [lit "e1s20_"] (disk0 []) = inr d1 /\
  collectOld yes (lit "mult/") (lit "out/") [lit "e9s9_"] d1 = inr d2 /\
  get d2 ([lit "out"; lit "terrain"], lit "e_terrain.tif") = Some (Merge [lit "e1s20_mz_e.tif"]) /\
  (exists d3, collect yes (lit "mult/") (lit "out/") [lit "e9s9_"] d1 = inr d3 /\
     get d3 ([lit "out"; lit "terrain"], lit "e_terrain.tif") = None).
Proof. eexists. eexists. split; [vm_compute; reflexivity|]. split; [vm_compute; reflexivity|]. split; [vm_compute; reflexivity|]. eexists. split; vm_compute; reflexivity. Qed.
(** A translation that fails, or a direction without files, is not noticed: the layer is missing *)
Theorem c212_silent_refuted : exists d, collect (fun _ _ => false) (lit "mult/") (lit "out/") [lit "e1s20_"] (disk0 []) = inr d /\
  forall wm dirn, In wm wms -> In dirn dirns -> get d ([lit "out"; wm], mergedName wm dirn) = None.
Proof.
  eexists. split; [vm_compute; reflexivity|]. intros wm dirn A B.
  cbn in A, B. repeat destruct A as [<-|A]; try contradiction; repeat destruct B as [<-|B]; try contradiction; vm_compute; reflexivity.
Qed.

(** The hypotheses are met *)
Example c211_example : wf (disk0 []) /\ norm (lit "mult") <> norm (lit "out") /\
  (forall wm, In wm wms -> ~ In (folder (lit "out") wm) (dirs (disk0 []))) /\
  (forall x wm, fst x = folder (lit "mult") wm -> In x (map fst (files (disk0 []))) -> isNc x) /\
  exists d, collect yes (lit "mult/") (lit "out/") [lit "e1s20_"] (disk0 []) = inr d /\
    get d ([lit "out"; lit "terrain"], lit "e_terrain.tif") = Some (Merge [lit "e1s20_mz_e.tif"]) /\
    get d ([lit "out"; lit "terrain"], lit "e1s20_mz_e.tif") = Some (Tif (fst (rawFile "terrain" "e1s20_mz_e.nc")) (lit "Mz")).
Proof.
  split; [|split; [vm_compute; discriminate|split; [|split]]].
  - intros e I. cbn in I. repeat destruct I as [<-|I]; [cbn; auto..|contradiction].
  - intros wm A I. cbn in A. repeat destruct A as [<-|A]; try contradiction; vm_compute in I; intuition discriminate.
  - intros x wm _ I. cbn in I. repeat destruct I as [<-|I]; [..|contradiction].
    + exists (lit "e1s20_ms_e"). reflexivity.
    + exists (lit "e1s20_mz_e"). reflexivity.
  - eexists. split; [vm_compute; reflexivity|]. split; vm_compute; reflexivity.
Qed.

Print Assumptions c211_folders.
Print Assumptions c211_origin.
Print Assumptions c211_complete.
Print Assumptions c211_merged.
Print Assumptions c211_direction.
Print Assumptions c211_layer.
Print Assumptions c211_accepts.
Print Assumptions c212_exists_refuted.
Print Assumptions c212_missing_refuted.
Print Assumptions c212_slash_refuted.
Print Assumptions c212_comma_refuted.
Print Assumptions c212_prefix_refuted.
Print Assumptions c212_stale_refuted.
Print Assumptions c212_silent_refuted.
Print Assumptions c211_variables.
