(** C137, C138: grids in netCDF files. *)
From Coq Require Import List Arith Lia Bool QArith.
From Verif Require Import NcModel.
Import ListNotations.
Close Scope Q_scope. Open Scope nat_scope.

Lemma assoc_none {A} k (l : list (nat * A)) : ~ In k (map fst l) -> assoc k l = None.
Proof.
  unfold assoc. induction l as [|[n a] l IH]; [reflexivity|]. cbn [map fst find]. intros H.
  destruct (Nat.eqb_spec n k) as [->|N]; [exfalso; apply H; now left|]. apply IH. intros C. apply H. now right.
Qed.
Lemma assoc_in {A} k (a : A) l : NoDup (map fst l) -> In (k, a) l -> assoc k l = Some a.
Proof.
  unfold assoc. induction l as [|[n b] l IH]; [contradiction|]. cbn [map fst find]. intros H I. inversion H as [|? ? H1 H2]; subst.
  destruct I as [E|I]; [injection E as -> ->; now rewrite Nat.eqb_refl|].
  destruct (Nat.eqb_spec n k) as [->|N]; [exfalso; apply H1, in_map_iff; now exists (k, a)|]. now apply IH.
Qed.

(** What the caller gives: complete dictionaries *)
Definition dimOf (p : nat * list Q) : dimDict := mkDim (Some (fst p)) (Some (snd p)) true true.
Definition varOf (v : nat * (list nat * option array)) : varDict := mkVD (Some (fst v)) (Some (fst (snd v))) (Some (snd (snd v))) true true.
Definition dimEntries (l : list (nat * list Q)) := map (fun p => (fst p, length (snd p))) l.
Definition dimVars (l : list (nat * list Q)) := map (fun p => (fst p, mkVar [fst p] (vec (snd p)))) l.
Lemma saveDims_ok dims : forall f rest, finished f = false -> NoDup (map fst dims) ->
  (forall d, In d (map fst dims) -> ~ In d (map fst (f_dims f)) /\ ~ In d (map fst (f_vars f))) ->
  saveDims f (map dimOf dims ++ rest) = saveDims (mkFile (f_dims f ++ dimEntries dims) (f_vars f ++ dimVars dims) false) rest.
Proof.
  induction dims as [|[n l] dims IH]; intros f rest Hf ND Hn.
  - cbn. rewrite !app_nil_r. destruct f as [a b c]. cbn in Hf. subst c. reflexivity.
  - cbn [map app saveDims dimOf d_name d_values d_dtype d_atts andb fst snd]. inversion ND as [|? ? N1 N2]; subst.
    destruct (Hn n (or_introl eq_refl)) as [A B]. unfold createDim. rewrite (assoc_none _ _ A), (assoc_none _ _ B).
    rewrite IH; [|reflexivity|exact N2|].
    + cbn [f_dims f_vars dimEntries dimVars map fst snd]. now rewrite <- !app_assoc.
    + intros d Hd. cbn [f_dims f_vars]. rewrite !map_app. cbn [map fst]. destruct (Hn d (or_intror Hd)) as [A1 B1].
      assert (N : n <> d) by (intros ->; contradiction). split; intros C; apply in_app_iff in C; destruct C as [C|[C|[]]]; tauto.
Qed.
Lemma sizes_ok f ds sh : Forall2 (fun d n => assoc d (f_dims f) = Some n) ds sh -> sizes f ds = Some sh.
Proof. induction 1 as [|d n ds sh H _ IH]; [reflexivity|]. cbn [sizes]. now rewrite H, IH. Qed.
Lemma fits_refl s : fits s s = true.
Proof. induction s as [|a s IH]; [reflexivity|]. cbn [fits]. now rewrite Nat.eqb_refl, IH. Qed.
Lemma F2_length {A B} (R : A -> B -> Prop) l l' : Forall2 R l l' -> length l = length l'.
Proof. induction 1; cbn; lia. Qed.
Definition contents (nodata : Q) (writedata : bool) (o : option array) : list nat -> Q :=
  match o with Some a => if writedata then fun idx => at_ a (spread (shape a) idx) else fun _ => nodata | None => fun _ => nodata end.
Definition varEntries (nodata : Q) (wd : bool) (vars : list (nat * (list nat * option array))) :=
  map (fun v => (fst v, mkVar (fst (snd v)) (contents nodata wd (snd (snd v))))) vars.
Definition fitting (f : ncfile) (v : nat * (list nat * option array)) : Prop :=
  exists sz, Forall2 (fun d n => assoc d (f_dims f) = Some n) (fst (snd v)) sz /\
    match snd (snd v) with Some a => fits (shape a) sz = true | None => True end.
Lemma fits_length s n : fits s n = true -> length s = length n.
Proof. revert n. induction s as [|a s IH]; intros [|b n] H; try discriminate; [reflexivity|]. cbn in *. apply andb_true_iff in H. f_equal. now apply IH. Qed.
Lemma saveVars_ok nodata wd vars : forall f, finished f = false -> NoDup (map fst vars) ->
  (forall n, In n (map fst vars) -> ~ In n (map fst (f_vars f))) -> (forall v, In v vars -> fitting f v) ->
  saveVars nodata wd f (map varOf vars) = inl (mkFile (f_dims f) (f_vars f ++ varEntries nodata wd vars) false).
Proof.
  induction vars as [|[n [ds o]] vars IH]; intros f Hf ND Hn HF.
  - cbn. rewrite app_nil_r. destruct f as [a b c]. cbn in Hf. now subst.
  - inversion ND as [|? ? N1 N2]; subst. cbn [map saveVars varOf fst snd].
    assert (E : saveVar nodata wd f (varOf (n, (ds, o))) = inl (mkFile (f_dims f) (f_vars f ++ [(n, mkVar ds (contents nodata wd o))]) false)).
    { unfold saveVar, varOf. cbn [w_name w_dims w_values w_dtype w_atts andb fst snd].
      destruct (HF _ (or_introl eq_refl)) as (sz & S1 & S2). cbn [fst snd] in S1, S2.
      rewrite (sizes_ok _ _ _ S1), (assoc_none _ _ (Hn n (or_introl eq_refl))). destruct o as [a|]; [|reflexivity].
      rewrite (fits_length _ _ S2), (F2_length _ _ _ S1), Nat.eqb_refl. cbn [negb contents]. destruct wd; [now rewrite S2|reflexivity]. }
    rewrite E. rewrite IH; [|reflexivity|exact N2| |].
    + cbn [f_dims f_vars varEntries map fst snd]. now rewrite <- app_assoc.
    + intros m Hm C. cbn [f_vars] in C. rewrite map_app in C. apply in_app_iff in C. destruct C as [C|[C|[]]].
      * now apply (Hn m (or_intror Hm)).
      * cbn in C. subst m. contradiction.
    + intros v Hv. destruct (HF v (or_intror Hv)) as (sz & S). exists sz. exact S.
Qed.

(** * C137 *)
Definition inside (idx sh : list nat) : Prop := Forall2 (fun i n => i < n) idx sh.
Lemma spread_inside sh idx : inside idx sh -> spread sh idx = idx.
Proof.
  induction 1 as [|i n idx sh H _ IH]; [reflexivity|]. cbn [spread]. rewrite IH. f_equal. destruct (Nat.eqb_spec n 1); [lia|reflexivity].
Qed.
Lemma fits_ok s n : Forall2 (fun a b => a = b \/ a = 1) s n -> fits s n = true.
Proof.
  induction 1 as [|a b s n H _ IH]; [reflexivity|]. cbn [fits]. rewrite IH, andb_true_r.
  destruct H as [->| ->]; [now rewrite Nat.eqb_refl|]. cbn. apply orb_true_r.
Qed.
Lemma spread_nth s : forall idx i, length idx = length s -> i < length s ->
  nth i (spread s idx) 0 = if nth i s 0 =? 1 then 0 else nth i idx 0.
Proof.
  induction s as [|a s IH]; intros [|j idx] i L I; cbn in L, I; try lia. destruct i as [|i]; [reflexivity|].
  cbn [spread nth]. apply IH; lia.
Qed.
Lemma spread_len s : forall idx, length idx = length s -> length (spread s idx) = length s.
Proof. induction s as [|a s IH]; intros [|j idx] L; cbn in L; try lia; [reflexivity|]. cbn [spread length]. now rewrite IH by lia. Qed.
Lemma saved_general : forall fs name (dims : list (nat * list Q)) (vars : list (nat * (list nat * option array))) nodata writedata,
  NoDup (map fst dims ++ map fst vars) ->
  (forall n ds o, In (n, (ds, o)) vars ->
     exists sh, Forall2 (fun d k => exists l, In (d, l) dims /\ length l = k) ds sh /\ (forall a, o = Some a -> Forall2 (fun s k => s = k \/ s = 1) (shape a) sh)) ->
  exists f, fst (ncSaveGrid fs name (map dimOf dims) (map varOf vars) nodata writedata true) = Saved /\
    (forall n, snd (ncSaveGrid fs name (map dimOf dims) (map varOf vars) nodata writedata true) n = if n =? name then Some f else fs n) /\
    finished f = true /\ (forall d l, In (d, l) dims -> ncGetDims f d = Some l) /\
    (forall n ds a, In (n, (ds, Some a)) vars -> writedata = true ->
       exists b, ncGetData f n = Some b /\ Forall2 (fun d k => exists l, In (d, l) dims /\ length l = k) ds (shape b) /\
         Forall2 (fun s k => s = k \/ s = 1) (shape a) (shape b) /\ forall idx, at_ b idx = at_ a (spread (shape a) idx)) /\
    (forall n ds o, In (n, (ds, o)) vars -> o = None \/ writedata = false -> exists b, ncGetData f n = Some b /\ forall idx, at_ b idx = nodata).
Proof.
  intros fs name dims vars nodata wd ND HV.
  assert (ND1 : NoDup (map fst dims)) by (clear - ND; induction (map fst dims) as [|x l IH]; [constructor|]; cbn in ND; inversion ND; subst; constructor; [intros C; apply H1, in_app_iff; now left|now apply IH]).
  assert (ND2 : NoDup (map fst vars)) by (clear - ND; induction (map fst dims) as [|x l IH]; [exact ND|]; cbn in ND; inversion ND; now apply IH).
  assert (DJ : forall n, In n (map fst dims) -> In n (map fst vars) -> False).
  { clear - ND. induction (map fst dims) as [|x l IH]; [intros n []|]. cbn in ND. inversion ND as [|? ? H1 H2]; subst.
    intros n [->|H] Hv; [apply H1, in_app_iff; now right|now apply (IH H2 n)]. }
  pose proof (saveDims_ok dims (mkFile [] [] false) [] eq_refl ND1 (fun d _ => conj (fun x => x) (fun x => x))) as E1.
  rewrite app_nil_r in E1. cbn [saveDims f_dims f_vars app] in E1.
  set (f1 := mkFile (dimEntries dims) (dimVars dims) false) in *.
  assert (F1 : map fst (f_dims f1) = map fst dims) by (unfold f1, dimEntries; cbn [f_dims]; rewrite map_map; reflexivity).
  assert (F2 : map fst (f_vars f1) = map fst dims) by (unfold f1, dimVars; cbn [f_vars]; rewrite map_map; reflexivity).
  assert (AD : forall d l, In (d, l) dims -> assoc d (dimEntries dims) = Some (length l)).
  { intros d l H. apply assoc_in; [unfold f1 in F1; cbn [f_dims] in F1; now rewrite F1|]. apply in_map_iff. now exists (d, l). }
  assert (SZ : forall n ds o, In (n, (ds, o)) vars -> exists sh, Forall2 (fun d k => assoc d (dimEntries dims) = Some k) ds sh /\
     Forall2 (fun d k => exists l, In (d, l) dims /\ length l = k) ds sh /\ (forall a, o = Some a -> Forall2 (fun s k => s = k \/ s = 1) (shape a) sh)).
  { intros n ds o H. destruct (HV n ds o H) as (sh & S1 & S2). exists sh. split; [|split; [exact S1|exact S2]].
    clear - S1 AD. induction S1 as [|d k ds sh (l & H1 & H2) _ IH]; [constructor|]. constructor; [rewrite <- H2; now apply AD|exact IH]. }
  assert (E2 : saveVars nodata wd f1 (map varOf vars) = inl (mkFile (f_dims f1) (f_vars f1 ++ varEntries nodata wd vars) false)).
  { apply saveVars_ok; [reflexivity|exact ND2| |].
    - intros n Hn C. rewrite F2 in C. now apply (DJ n).
    - intros [n [ds o]] Hv. destruct (SZ n ds o Hv) as (sh & S1 & _ & S2). exists sh. cbn [fst snd]. split; [exact S1|].
      destruct o as [a|]; [|exact I]. apply fits_ok. now apply S2. }
  unfold ncSaveGrid. rewrite E1, E2. cbn [fst snd].
  set (f := mkFile (f_dims f1) (f_vars f1 ++ varEntries nodata wd vars) true). cbn [f_dims f_vars]. fold f. exists f.
  assert (NA : NoDup (map fst (f_vars f))).
  { unfold f. cbn [f_vars]. rewrite map_app, F2. unfold varEntries. rewrite map_map. cbn [fst]. exact ND. }
  split; [reflexivity|]. split; [reflexivity|]. split; [reflexivity|].
  assert (GV : forall n ds o, In (n, (ds, o)) vars -> assoc n (f_vars f) = Some (mkVar ds (contents nodata wd o))).
  { intros n ds o H. apply assoc_in; [exact NA|]. unfold f. cbn [f_vars]. apply in_app_iff. right. apply in_map_iff. now exists (n, (ds, o)). }
  split; [|split].
  - intros d l H. unfold ncGetDims. rewrite (assoc_in d (mkVar [d] (vec l)) (f_vars f) NA).
    + cbn [v_dims]. unfold f, f1. cbn [f_dims]. rewrite (AD d l H). cbn [option_map v_data]. f_equal.
      unfold vec. cbn [nth]. clear. induction l as [|x l IH]; [reflexivity|]. cbn [length seq map nth]. f_equal.
      rewrite <- seq_shift, map_map. exact IH.
    + unfold f. cbn [f_vars]. apply in_app_iff. left. apply in_map_iff. now exists (d, l).
  - intros n ds a H W. unfold ncGetData. rewrite (GV n ds (Some a) H). cbn [v_dims]. destruct (SZ n ds (Some a) H) as (sh & S1 & S0 & S2).
    rewrite (sizes_ok f ds sh S1). cbn [option_map v_data contents]. rewrite W. eexists. split; [reflexivity|]. cbn [shape at_].
    split; [exact S0|]. split; [now apply S2|]. reflexivity.
  - intros n ds o H W. unfold ncGetData. rewrite (GV n ds o H). cbn [v_dims]. destruct (SZ n ds o H) as (sh & S1 & _ & S2).
    rewrite (sizes_ok f ds sh S1). cbn [option_map v_data]. eexists. split; [reflexivity|]. cbn [at_]. intros idx. unfold contents.
    destruct W as [->| ->]; [reflexivity|]. now destruct o.
Qed.
(** A grid with distinct names whose arrays have the sizes of their dimensions is saved; the coordinates and the
    values are read back unchanged, the fill value where nothing was written, and no other file is touched. *)
Theorem c137_saved : forall fs name (dims : list (nat * list Q)) (vars : list (nat * (list nat * option array))) nodata writedata,
  NoDup (map fst dims ++ map fst vars) ->
  (forall n ds o, In (n, (ds, o)) vars ->
     exists sh, Forall2 (fun d k => exists l, In (d, l) dims /\ length l = k) ds sh /\ (forall a, o = Some a -> shape a = sh)) ->
  exists f, fst (ncSaveGrid fs name (map dimOf dims) (map varOf vars) nodata writedata true) = Saved /\
    (forall n, snd (ncSaveGrid fs name (map dimOf dims) (map varOf vars) nodata writedata true) n = if n =? name then Some f else fs n) /\
    finished f = true /\ (forall d l, In (d, l) dims -> ncGetDims f d = Some l) /\
    (forall n ds a, In (n, (ds, Some a)) vars -> writedata = true ->
       exists b, ncGetData f n = Some b /\ shape b = shape a /\ forall idx, inside idx (shape a) -> at_ b idx = at_ a idx) /\
    (forall n ds o, In (n, (ds, o)) vars -> o = None \/ writedata = false -> exists b, ncGetData f n = Some b /\ forall idx, at_ b idx = nodata).
Proof.
  intros fs name dims vars nodata wd ND HV.
  destruct (saved_general fs name dims vars nodata wd ND) as (f & A & B & C & D & E & F).
  { intros n ds o H. destruct (HV n ds o H) as (sh & S1 & S2). exists sh. split; [exact S1|].
    intros a Ea. rewrite (S2 a Ea). clear. induction sh; constructor; auto. }
  exists f. split; [exact A|]. split; [exact B|]. split; [exact C|]. split; [exact D|]. split; [|exact F].
  intros n ds a H W. destruct (E n ds a H W) as (b & B1 & B2 & B3 & B4). exists b. split; [exact B1|].
  destruct (HV n ds (Some a) H) as (sh & S1 & S2). specialize (S2 a eq_refl).
  assert (X : shape b = shape a).
  { rewrite S2. clear - ND S1 B2. revert B2. generalize (shape b). induction S1 as [|d k ds sh (l & H1 & H2) _ IH]; intros sb B2; inversion B2 as [|? ? ? ? (l' & H1' & H2') B3]; subst; [reflexivity|].
    f_equal; [|now apply IH]. assert (N : NoDup (map fst dims)) by (clear - ND; induction (map fst dims) as [|x l IH]; [constructor|]; cbn in ND; inversion ND; subst; constructor; [intros C; apply H1, in_app_iff; now left|now apply IH]).
    pose proof (assoc_in d l dims N H1). pose proof (assoc_in d l' dims N H1'). congruence. }
  split; [exact X|]. intros idx Hi. now rewrite B4, spread_inside.
Qed.
(** An array whose axis has length one where its dimension is longer is saved too, its single layer being repeated
    along that axis. *)
Theorem c137_repeated : forall fs name (dims : list (nat * list Q)) n ds a nodata,
  NoDup (map fst dims ++ [n]) ->
  (exists sz, Forall2 (fun d k => exists l, In (d, l) dims /\ length l = k) ds sz /\ Forall2 (fun s k => s = k \/ s = 1) (shape a) sz) ->
  fst (ncSaveGrid fs name (map dimOf dims) [varOf (n, (ds, Some a))] nodata true true) = Saved /\
  exists f b, snd (ncSaveGrid fs name (map dimOf dims) [varOf (n, (ds, Some a))] nodata true true) name = Some f /\
    ncGetData f n = Some b /\ Forall2 (fun d k => exists l, In (d, l) dims /\ length l = k) ds (shape b) /\
    forall idx, inside idx (shape b) -> exists idx', length idx' = length idx /\ at_ b idx = at_ a idx' /\
      forall i, i < length idx -> nth i idx' 0 = if nth i (shape a) 0 =? 1 then 0 else nth i idx 0.
Proof.
  intros fs name dims n ds a nodata ND (sz & S1 & S2).
  destruct (saved_general fs name dims [(n, (ds, Some a))] nodata true ND) as (f & A & B & C & D & E & F).
  { intros n' ds' o [X|[]]. injection X as <- <- <-. exists sz. split; [exact S1|]. intros a' Ea. injection Ea as <-. exact S2. }
  split; [exact A|]. destruct (E n ds a (or_introl eq_refl) eq_refl) as (b & B1 & B2 & B3 & B4).
  exists f, b. change [varOf (n, (ds, Some a))] with (map varOf [(n, (ds, Some a))]). rewrite B, Nat.eqb_refl.
  split; [reflexivity|]. split; [exact B1|]. split; [exact B2|]. intros idx Hi.
  assert (L : length idx = length (shape a)) by (rewrite (F2_length _ _ _ Hi), (F2_length _ _ _ B3); reflexivity).
  exists (spread (shape a) idx). split; [rewrite spread_len; lia|]. split; [apply B4|].
  intros i I. apply spread_nth; lia.
Qed.
Example c137_repeated_example :
  match snd (ncSaveGrid (fun _ => None) 9 (map dimOf [(1, [10; 20]%Q); (2, [5; 6; 7]%Q)])
    [varOf (3, ([1; 2], Some (mkArray [1; 3] (fun idx => inject_Z (Z.of_nat (10 * nth 0 idx 0 + nth 1 idx 0))))))] (-9999)%Q true true) 9 with
  | Some f => option_map (fun b => (shape b, at_ b [1; 2], at_ b [0; 2])) (ncGetData f 3) = Some ([2; 3], 2%Q, 2%Q)
  | None => False
  end.
Proof. vm_compute. reflexivity. Qed.
(** A grid is reported as saved only if every dictionary has its keys and every array has as many axes as its
    variable has dimensions. *)
Theorem c137_refuses : forall fs name ds vs nodata writedata gatts, fst (ncSaveGrid fs name ds vs nodata writedata gatts) = Saved ->
  (forall d, In d ds -> d_name d <> None /\ d_values d <> None /\ d_dtype d = true /\ d_atts d = true) /\
  (forall v, In v vs -> w_name v <> None /\ w_values v <> None /\ w_dtype v = true /\ w_atts v = true /\
     exists names, w_dims v = Some names /\ forall a, w_values v = Some (Some a) -> length names = length (shape a)).
Proof.
  intros fs name ds vs nodata wd ga H. unfold ncSaveGrid in H.
  assert (D : forall ds f f', saveDims f ds = inl f' -> forall d, In d ds -> d_name d <> None /\ d_values d <> None /\ d_dtype d = true /\ d_atts d = true).
  { clear. induction ds as [|d ds IH]; intros f f' H x I; [contradiction|]. cbn [saveDims] in H.
    destruct (d_name d) as [n|] eqn:E1; [|discriminate]. destruct (d_values d) as [v|] eqn:E2; [|discriminate]. destruct (d_dtype d && d_atts d) eqn:E3; [|discriminate].
    destruct (createDim f n v) as [g|]; [|discriminate]. destruct I as [<-|I]; [|now apply (IH g f')].
    apply andb_true_iff in E3. rewrite E1, E2. repeat split; try discriminate; apply E3. }
  assert (V : forall vs f f', saveVars nodata wd f vs = inl f' -> forall v, In v vs -> w_name v <> None /\ w_values v <> None /\ w_dtype v = true /\ w_atts v = true /\
     exists names, w_dims v = Some names /\ forall a, w_values v = Some (Some a) -> length names = length (shape a)).
  { clear. induction vs as [|v vs IH]; intros f f' H x I; [contradiction|]. cbn [saveVars] in H.
    destruct (saveVar nodata wd f v) as [g|[e g]] eqn:E; [|discriminate]. destruct I as [<-|I]; [|now apply (IH g f')].
    unfold saveVar in E. destruct (w_name v) as [n|]; [|discriminate]. destruct (w_dims v) as [nm|]; [|discriminate]. destruct (w_values v) as [o|]; [|discriminate].
    destruct (w_dtype v && w_atts v) eqn:E3; [|discriminate]. apply andb_true_iff in E3. repeat split; try discriminate; try apply E3.
    exists nm. split; [reflexivity|]. intros a Ea. injection Ea as ->. destruct (Nat.eqb_spec (length nm) (length (shape a))) as [L|L]; [exact L|discriminate]. }
  destruct (saveDims (mkFile [] [] false) ds) as [f|[e f]] eqn:E1; [|cbn in H; subst e; exfalso].
  - split; [now apply (D ds _ _ E1)|]. destruct (saveVars nodata wd f vs) as [g|[e g]] eqn:E2; [now apply (V vs _ _ E2)|].
    cbn in H. subst e. exfalso. clear - E2. revert f E2. induction vs as [|v vs IH]; intros f E2; [discriminate|]. cbn [saveVars] in E2.
    destruct (saveVar nodata wd f v) as [h|[e h]] eqn:E; [now apply (IH h)|]. injection E2 as -> ->.
    unfold saveVar in E. repeat match type of E with context [match ?x with _ => _ end] => destruct x end; discriminate.
  - clear - E1. revert E1. generalize (mkFile [] [] false). induction ds as [|d ds IH]; intros g E; [discriminate|]. cbn [saveDims] in E.
    destruct (d_name d); [|discriminate]. destruct (d_values d); [|discriminate]. destruct (d_dtype d && d_atts d); [|discriminate].
    destruct (createDim g _ _) as [h|]; [now apply (IH h)|discriminate].
Qed.
(** The first incomplete dictionary raises KeyError. *)
Theorem c137_key : forall fs name dims rest nodata writedata gatts vs d, NoDup (map fst dims) ->
  d_name d = None \/ d_values d = None \/ d_dtype d = false \/ d_atts d = false ->
  fst (ncSaveGrid fs name (map dimOf dims ++ d :: rest) vs nodata writedata gatts) = KeyError.
Proof.
  intros fs name dims rest nodata wd ga vs d ND H. unfold ncSaveGrid.
  rewrite (saveDims_ok dims (mkFile [] [] false) (d :: rest) eq_refl ND (fun d _ => conj (fun x => x) (fun x => x))). cbn [saveDims].
  destruct (d_name d); [|reflexivity]. destruct (d_values d); [|reflexivity]. destruct (d_dtype d); [|reflexivity]. destruct (d_atts d); [|reflexivity].
  exfalso. destruct H as [H|[H|[H|H]]]; discriminate.
Qed.
Definition exDims : list (nat * list Q) := [(1, [10; 20]%Q); (2, [5; 6; 7]%Q)].
Definition exVars : list (nat * (list nat * option array)) :=
  [(3, ([1; 2], Some (mkArray [2; 3] (fun idx => inject_Z (Z.of_nat (10 * nth 0 idx 0 + nth 1 idx 0)))))); (4, ([2], None))].
Example c137_example : NoDup (map fst exDims ++ map fst exVars) /\
  (forall n ds o, In (n, (ds, o)) exVars ->
     exists sh, Forall2 (fun d k => exists l, In (d, l) exDims /\ length l = k) ds sh /\ (forall a, o = Some a -> shape a = sh)) /\
  match snd (ncSaveGrid (fun _ => None) 9 (map dimOf exDims) (map varOf exVars) (-9999)%Q true true) 9 with
  | Some f => ncGetDims f 2 = Some [5; 6; 7]%Q /\ option_map (fun b => at_ b [1; 2]) (ncGetData f 3) = Some 12%Q /\ option_map (fun b => at_ b [0]) (ncGetData f 4) = Some (-9999)%Q
  | None => False
  end.
Proof.
  split; [repeat constructor; cbn; intuition lia|]. split; [|vm_compute; tauto].
  intros n ds o [E|[E|[]]]; injection E as <- <- <-.
  - exists [2; 3]. split; [|intros a E; injection E as <-; reflexivity]. constructor; [exists [10; 20]%Q; cbn; tauto|]. constructor; [exists [5; 6; 7]%Q; cbn; tauto|constructor].
  - exists [3]. split; [|discriminate]. constructor; [exists [5; 6; 7]%Q; cbn; tauto|constructor].
Qed.

(** * C138 *)
(** A save that fails leaves an unfinished file in place of the earlier one. *)
Theorem c138_clobber_refuted : forall fs name ds vs nodata writedata gatts,
  fst (ncSaveGrid fs name ds vs nodata writedata gatts) <> Saved ->
  exists f, snd (ncSaveGrid fs name ds vs nodata writedata gatts) name = Some f /\ finished f = false.
Proof.
  intros fs name ds vs nodata wd ga H. unfold ncSaveGrid in *.
  assert (D : forall ds f e f', saveDims f ds = inr (e, f') -> finished f = false -> finished f' = false).
  { clear. induction ds as [|d ds IH]; intros f e f' E Hf; [discriminate|]. cbn [saveDims] in E.
    destruct (d_name d) as [n|]; [|now injection E as <- <-]. destruct (d_values d) as [v|]; [|now injection E as <- <-].
    destruct (d_dtype d && d_atts d); [|now injection E as <- <-]. destruct (createDim f n v) as [g|] eqn:C; [|now injection E as <- <-].
    apply (IH g e f' E). unfold createDim in C. destruct (assoc n (f_dims f)); [discriminate|]. destruct (assoc n (f_vars f)); [discriminate|]. now injection C as <-. }
  assert (D2 : forall ds f f', saveDims f ds = inl f' -> finished f = false -> finished f' = false).
  { clear. induction ds as [|d ds IH]; intros f f' E Hf; [now injection E as <-|]. cbn [saveDims] in E.
    destruct (d_name d) as [n|]; [|discriminate]. destruct (d_values d) as [v|]; [|discriminate].
    destruct (d_dtype d && d_atts d); [|discriminate]. destruct (createDim f n v) as [g|] eqn:C; [|discriminate].
    apply (IH g f' E). unfold createDim in C. destruct (assoc n (f_dims f)); [discriminate|]. destruct (assoc n (f_vars f)); [discriminate|]. now injection C as <-. }
  assert (V : forall v f, finished f = false -> match saveVar nodata wd f v with inl g => finished g = false | inr (_, g) => finished g = false end).
  { clear. intros v f Hf. destruct (saveVar nodata wd f v) as [g|[e g]] eqn:E; unfold saveVar in E;
    repeat match type of E with context [match ?x with _ => _ end] => destruct x end; try discriminate; injection E as <-; try subst; (exact Hf || reflexivity). }
  assert (V2 : forall vs f, finished f = false -> match saveVars nodata wd f vs with inl g => finished g = false | inr (_, g) => finished g = false end).
  { clear - V. induction vs as [|v vs IH]; intros f Hf; [exact Hf|]. cbn [saveVars]. specialize (V v f Hf). destruct (saveVar nodata wd f v) as [g|[e g]]; [now apply IH|exact V]. }
  destruct (saveDims (mkFile [] [] false) ds) as [f|[e f]] eqn:E1.
  - specialize (V2 vs f (D2 _ _ _ E1 eq_refl)). destruct (saveVars nodata wd f vs) as [g|[e g]].
    + destruct ga; [cbn in H; congruence|]. exists g. unfold put. cbn [snd]. now rewrite Nat.eqb_refl.
    + exists g. unfold put. cbn [snd]. now rewrite Nat.eqb_refl.
  - exists f. unfold put. cbn [snd]. rewrite Nat.eqb_refl. split; [reflexivity|]. now apply (D _ _ _ _ E1).
Qed.
Example c138_clobber_example : let old := mkFile [(1, 2)] [] true in let fs n := if n =? 5 then Some old else None in
  fs 5 = Some old /\ ncSaveGrid fs 5 [mkDim (Some 1) (Some [1%Q]) true false] [] 0%Q true true = (KeyError, put fs 5 (mkFile [] [] false)).
Proof. split; reflexivity. Qed.
(** [gatts=None], which the documentation allows, never succeeds. *)
Theorem c138_gatts_refuted : forall fs name ds vs nodata writedata, fst (ncSaveGrid fs name ds vs nodata writedata false) <> Saved.
Proof.
  intros fs name ds vs nodata wd H. assert (G := c137_refuses fs name ds vs nodata wd false H). clear G. unfold ncSaveGrid in H.
  assert (D : forall ds f e f', saveDims f ds = inr (e, f') -> e <> Saved).
  { clear. induction ds as [|d ds IH]; intros f e f' E; [discriminate|]. cbn [saveDims] in E.
    destruct (d_name d); [|injection E as <- _; discriminate]. destruct (d_values d); [|injection E as <- _; discriminate].
    destruct (d_dtype d && d_atts d); [|injection E as <- _; discriminate]. destruct (createDim f _ _) as [g|]; [now apply (IH g e f')|injection E as <- _; discriminate]. }
  assert (V : forall vs f e f', saveVars nodata wd f vs = inr (e, f') -> e <> Saved).
  { clear. induction vs as [|v vs IH]; intros f e f' E; [discriminate|]. cbn [saveVars] in E.
    destruct (saveVar nodata wd f v) as [g|[e' g]] eqn:S; [now apply (IH g e f')|]. injection E as -> ->. unfold saveVar in S.
    repeat match type of S with context [match ?x with _ => _ end] => destruct x end; try discriminate; injection S as <- _; discriminate. }
  destruct (saveDims _ ds) as [f|[e f]] eqn:E1; [|now apply (D _ _ _ _ E1)].
  destruct (saveVars nodata wd f vs) as [g|[e g]] eqn:E2; [discriminate|now apply (V _ _ _ _ E2)].
Qed.
(** Missing values are not masked: a variable without values reads as the fill value everywhere, see the last part of
    [c137_saved]; a value equal to the fill value cannot be told from a missing one. *)
Theorem c138_masked_refuted : exists vars1 vars2 f1 f2, vars1 <> vars2 /\
  snd (ncSaveGrid (fun _ => None) 0 (map dimOf [(1, [7%Q])]) (map varOf vars1) (-9999)%Q true true) 0 = Some f1 /\
  snd (ncSaveGrid (fun _ => None) 0 (map dimOf [(1, [7%Q])]) (map varOf vars2) (-9999)%Q true true) 0 = Some f2 /\
  exists b1 b2, ncGetData f1 2 = Some b1 /\ ncGetData f2 2 = Some b2 /\ shape b1 = shape b2 /\ forall idx, at_ b1 idx = at_ b2 idx.
Proof.
  exists [(2, ([1], None))], [(2, ([1], Some (mkArray [1] (fun _ => (-9999)%Q))))]. do 2 eexists. split; [discriminate|]. split; [reflexivity|]. split; [reflexivity|].
  do 2 eexists. split; [reflexivity|]. split; [reflexivity|]. split; reflexivity.
Qed.
(** [ncCreateVar] accepts no array of several values, and does not write a single zero. *)
Theorem c138_create_refuted : (forall old x y l, createVarData old (x :: y :: l) = None) /\ forall old, createVarData old [0%Q] = Some old.
Proof. split; reflexivity. Qed.
(** [ncGetTimes] fails for every file with another convention than COARDS and without a time dimension. *)
Theorem c138_times_refuted : forall dims time name, timeVariable (Some false) dims time name = None /\ (~ In name dims -> timeVariable None dims time name = None).
Proof.
  intros dims time name. split; [reflexivity|]. intros H. cbn [timeVariable]. destruct (existsb (Nat.eqb name) dims) eqn:E; [|reflexivity].
  apply existsb_exists in E. destruct E as (x & Hx & E). apply Nat.eqb_eq in E. subst x. contradiction.
Qed.

Print Assumptions c137_saved.
Print Assumptions c137_repeated.
Print Assumptions c137_refuses.
Print Assumptions c137_key.
Print Assumptions c138_clobber_refuted.
Print Assumptions c138_gatts_refuted.
Print Assumptions c138_masked_refuted.
Print Assumptions c138_create_refuted.
Print Assumptions c138_times_refuted.
