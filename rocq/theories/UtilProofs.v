From Coq Require Import List Arith ZArith Lia Bool Ascii String.
From Verif Require Import UtilModel.
Import ListNotations.
Open Scope list_scope.
Open Scope nat_scope.

(** * Record array *)
Section Dyn.
  Context {A : Type}.
  Definition flatOps (os : list (@dynOp A)) : list A :=
    flat_map (fun o => match o with Append r => [r] | Extend rs => rs end) os.

  Definition dynInv (s : @dyn A) (l : list A) : Prop :=
    List.length (ddata s) = dsize s /\ 10 <= dsize s /\ dlen s <= dsize s /\
    dlen s = List.length l /\ firstn (dlen s) (ddata s) = l.

  Lemma npResize_len (a : list A) n d : List.length (npResize a n d) = n.
  Proof. unfold npResize. now rewrite map_length, seq_length. Qed.

  Lemma npResize_prefix (a : list A) n d : List.length a <= n ->
    firstn (List.length a) (npResize a n d) = a.
  Proof.
    intros H. unfold npResize. rewrite firstn_map.
    replace n with (List.length a + (n - List.length a)) by lia.
    rewrite seq_app, firstn_app, seq_length, Nat.sub_diag, firstn_O, app_nil_r.
    rewrite firstn_all2 by (rewrite seq_length; lia).
    apply nth_ext with d d; [now rewrite map_length, seq_length|].
    intros i Hi. rewrite map_length, seq_length in Hi.
    rewrite nth_indep with (d' := nth (0 mod List.length a) a d) by now rewrite map_length, seq_length.
    rewrite (map_nth (fun i => nth (i mod List.length a) a d)), seq_nth by auto.
    cbn [Nat.add]. now rewrite Nat.mod_small.
  Qed.

  Lemma setItem_spec (a : list A) i x : i < List.length a ->
    exists a', setItem a i x = Some a' /\ List.length a' = List.length a /\
      firstn (i + 1) a' = firstn i a ++ [x].
  Proof.
    intros H. unfold setItem. destruct (Nat.ltb_spec i (List.length a)); [|lia].
    eexists. split; [reflexivity|]. split.
    - rewrite app_length. cbn [List.length]. rewrite firstn_length, skipn_length. lia.
    - rewrite firstn_app, firstn_length, Nat.min_l by lia.
      rewrite firstn_all2 by (rewrite firstn_length; lia).
      replace (i + 1 - i) with 1 by lia. reflexivity.
  Qed.

  Lemma dynAppend_inv s l r : dynInv s l -> exists s', dynAppend s r = Some s' /\ dynInv s' (l ++ [r]).
  Proof.
    intros (H1 & H2 & H3 & H4 & H5). unfold dynAppend.
    assert (G : exists sz d, (if dlen s =? dsize s
        then (3 * dsize s / 2, npResize (ddata s) (3 * dsize s / 2) r)
        else (dsize s, ddata s)) = (sz, d) /\ List.length d = sz /\ 10 <= sz /\ dlen s < sz /\
        firstn (dlen s) d = l).
    { destruct (Nat.eqb_spec (dlen s) (dsize s)) as [E|E].
      - assert (dsize s < 3 * dsize s / 2).
        { pose proof (Nat.div_mod (3 * dsize s) 2 ltac:(lia)).
          pose proof (Nat.mod_upper_bound (3 * dsize s) 2 ltac:(lia)). lia. }
        set (m := 3 * dsize s / 2) in *. clearbody m.
        do 2 eexists. split; [reflexivity|]. rewrite npResize_len. repeat split; try lia.
        rewrite E, <- H1, npResize_prefix by lia. rewrite <- H5, E, <- H1. now rewrite firstn_all.
      - do 2 eexists. split; [reflexivity|]. repeat split; try lia. exact H5. }
    destruct G as (sz & d & -> & G1 & G2 & G3 & G4).
    destruct (setItem_spec d (dlen s) r) as (d' & -> & E2 & E3); [lia|].
    eexists. split; [reflexivity|]. unfold dynInv. cbn.
    rewrite app_length. cbn [List.length]. rewrite E3, G4. repeat split; lia.
  Qed.

  Lemma dynExtend_inv rs : forall s l, dynInv s l ->
    exists s', dynExtend s rs = Some s' /\ dynInv s' (l ++ rs).
  Proof.
    induction rs as [|r rs IH]; intros s l H; cbn [dynExtend].
    - exists s. rewrite app_nil_r. auto.
    - destruct (dynAppend_inv s l r H) as (s1 & -> & H1).
      destruct (IH _ _ H1) as (s2 & -> & H2). exists s2. rewrite <- app_assoc in H2. auto.
  Qed.

  Lemma dynRun_inv os : forall s l, dynInv s l ->
    exists s', dynRun s os = Some s' /\ dynInv s' (l ++ flatOps os).
  Proof.
    induction os as [|o os IH]; intros s l H; cbn [dynRun].
    - exists s. cbn. rewrite app_nil_r. auto.
    - assert (E : exists s1, dynDo s o = Some s1 /\
        dynInv s1 (l ++ match o with Append r => [r] | Extend rs => rs end)).
      { destruct o; cbn [dynDo]; [now apply dynAppend_inv|now apply dynExtend_inv]. }
      destruct E as (s1 & -> & H1). destruct (IH _ _ H1) as (s2 & -> & H2).
      exists s2. cbn [flatOps flat_map]. rewrite <- app_assoc in H2. auto.
  Qed.

  Lemma dyn_all (junk : list A) os : List.length junk = 10 ->
    exists s, dynRun (dynNew junk) os = Some s /\ dynData s = flatOps os /\
      dlen s = List.length (flatOps os).
  Proof.
    intros H. destruct (dynRun_inv os (dynNew junk) []) as (s & E & I).
    - unfold dynInv, dynNew; cbn. repeat split; lia.
    - exists s. destruct I as (_ & _ & _ & I4 & I5). auto.
  Qed.
End Dyn.

(** * Text *)
Open Scope string_scope.
Lemma split_clean c s : occurs c s = false -> split c s = [s].
Proof.
  induction s as [|x s IH]; cbn; [auto|]. intros H. apply orb_false_iff in H as [H1 H2].
  rewrite H1, (IH H2). reflexivity.
Qed.

Lemma split_app c s t : occurs c s = false -> split c (s ++ String c t) = s :: split c t.
Proof.
  induction s as [|x s IH]; cbn.
  - intros _. now rewrite Ascii.eqb_refl.
  - intros H. apply orb_false_iff in H as [H1 H2]. rewrite H1, (IH H2). reflexivity.
Qed.

Lemma split_join c l : l <> [] -> Forall (fun s => occurs c s = false) l -> split c (join c l) = l.
Proof.
  induction l as [|s l IH]; [congruence|]. intros _ H. inversion H as [|? ? H1 H2]; subst.
  unfold join. cbn. destruct l as [|s' l'].
  - now apply split_clean.
  - change (split c (s ++ String c (join c (s' :: l'))) = s :: s' :: l').
    rewrite split_app by auto. f_equal. apply IH; auto. congruence.
Qed.

Lemma split_len c s : List.length (split c s) >= 1.
Proof. induction s as [|x s IH]; cbn; [lia|]. destruct (Ascii.eqb x c); cbn; [lia|]. destruct (split c s); cbn; lia. Qed.

(** Joining undoes splitting: nothing is lost by a split. *)
Lemma join_cons c s l : l <> [] -> join c (s :: l) = s ++ String c (join c l).
Proof. destruct l; [congruence|reflexivity]. Qed.

Lemma join_split c s : join c (split c s) = s.
Proof.
  induction s as [|x s IH]; cbn [split]; [reflexivity|].
  pose proof (split_len c s) as L. destruct (split c s) as [|w ws] eqn:E; [cbn in L; lia|].
  destruct (Ascii.eqb_spec x c) as [->|N].
  - rewrite join_cons by congruence. now rewrite IH.
  - destruct ws as [|w' ws].
    + unfold join in *. cbn in *. now rewrite IH.
    + rewrite join_cons by congruence. rewrite join_cons in IH by congruence.
      cbn [append]. now rewrite IH.
Qed.

Lemma split_clean_all c s : Forall (fun w => occurs c w = false) (split c s).
Proof.
  induction s as [|x s IH]; cbn [split]; [repeat constructor|].
  destruct (Ascii.eqb x c) eqn:E; [constructor; auto|].
  destruct (split c s); [constructor; [cbn; now rewrite E|constructor]|].
  inversion IH; subst. constructor; [|auto]. cbn. now rewrite E.
Qed.

Lemma occurs_app c s t : occurs c (s ++ t) = occurs c s || occurs c t.
Proof. induction s as [|x s IH]; cbn; [auto|]. now rewrite IH, orb_assoc. Qed.

Lemma universal_clean s : occurs cr s = false -> universal s = s.
Proof.
  induction s as [|x s IH]; [auto|]. intros H. cbn [occurs] in H.
  apply orb_false_iff in H as [H1 H2]. cbn [universal]. rewrite H1. now rewrite (IH H2).
Qed.

Lemma rstrip_clean s : occurs nl s = false -> rstrip s = s.
Proof.
  induction s as [|x s IH]; [auto|]. intros H. cbn [occurs] in H.
  apply orb_false_iff in H as [H1 H2]. cbn [rstrip]. rewrite (IH H2), H1. now destruct s.
Qed.

Lemma rstrip_nl s : occurs nl s = false -> rstrip (s ++ String nl "") = s.
Proof.
  induction s as [|x s IH]; [auto|]. intros H. cbn [occurs] in H.
  apply orb_false_iff in H as [H1 H2]. cbn [rstrip append]. rewrite (IH H2), H1. now destruct s.
Qed.

Lemma lines_app s t : occurs nl s = false -> lines (s ++ String nl t) = (s ++ String nl "") :: lines t.
Proof.
  induction s as [|x s IH]; [auto|]. intros H. cbn [occurs] in H.
  apply orb_false_iff in H as [H1 H2]. cbn [lines append]. rewrite H1, (IH H2). reflexivity.
Qed.

Lemma append_assoc' s t u : (s ++ t) ++ u = s ++ (t ++ u).
Proof. induction s as [|x s IH]; cbn; [auto|]. now rewrite IH. Qed.
Lemma append_nil s : s ++ "" = s.
Proof. induction s as [|x s IH]; cbn; [auto|]. now rewrite IH. Qed.

(** * Ledger *)
Definition clean (s : string) : Prop :=
  occurs bar s = false /\ occurs nl s = false /\ occurs cr s = false.
Definition cleanStat (r : stat) : Prop :=
  clean (sdir r) /\ clean (sname r) /\ clean (smd5 r) /\ clean (smod r).

Lemma dput_same {V} (d : dict V) k v : dput d k v k = Some v.
Proof. unfold dput. now rewrite String.eqb_refl. Qed.
Lemma dput_other {V} (d : dict V) k v x : x <> k -> dput d k v x = d x.
Proof. unfold dput. intros H. now destruct (String.eqb_spec x k). Qed.

Lemma pGet_same g d f a v : pGet (pSet g d f a v) d f a = Some v.
Proof.
  unfold pSet. destruct (g d) as [fs|] eqn:E1.
  - destruct (fs f) as [ats|] eqn:E2; unfold pGet; now rewrite !dput_same.
  - unfold pGet; now rewrite !dput_same.
Qed.

Lemma pGet_other g d f a v d' f' a' : (d', f', a') <> (d, f, a) ->
  pGet (pSet g d f a v) d' f' a' = pGet g d' f' a'.
Proof.
  intros N. unfold pSet, pGet.
  destruct (String.eqb_spec d' d) as [->|Nd].
  - destruct (g d) as [fs|] eqn:E1.
    + destruct (String.eqb_spec f' f) as [->|Nf].
      * assert (a' <> a) by congruence.
        destruct (fs f) as [ats|] eqn:E2; rewrite !dput_same, ?dput_other by auto; auto.
      * destruct (fs f) as [ats|] eqn:E2; rewrite dput_same, dput_other by auto; auto.
    + rewrite dput_same. destruct (String.eqb_spec f' f) as [->|Nf].
      * assert (a' <> a) by congruence. now rewrite dput_same, dput_other.
      * now rewrite dput_other.
  - destruct (g d) as [fs|] eqn:E1; [destruct (fs f) as [ats|] eqn:E2|]; now rewrite dput_other.
Qed.

(** The answers after recording [r] are a function of the previous answers. *)
Definition after (g : string -> string -> string -> option string) (r : stat)
  (d f a : string) : option string :=
  if String.eqb d (sdir r) && String.eqb f (sname r) then
    if String.eqb a "md5sum" then Some (smd5 r)
    else if String.eqb a "moddate" then Some (smod r) else g d f a
  else g d f a.

Definition writeSet (g : procs) (r : stat) : procs :=
  pSet (pSet g (sdir r) (sname r) "md5sum" (smd5 r)) (sdir r) (sname r) "moddate" (smod r).
Definition readSet (g : procs) (r : stat) : procs :=
  pSet (pSet g (sdir r) (sname r) "moddate" (smod r)) (sdir r) (sname r) "md5sum" (smd5 r).

Lemma two_set g dr fr a1 v1 a2 v2 d f a : a1 <> a2 ->
  pGet (pSet (pSet g dr fr a1 v1) dr fr a2 v2) d f a =
  if String.eqb d dr && String.eqb f fr then
    if String.eqb a a1 then Some v1 else if String.eqb a a2 then Some v2 else pGet g d f a
  else pGet g d f a.
Proof.
  intros N.
  destruct (String.eqb_spec d dr) as [->|Nd]; cbn [andb].
  2:{ rewrite !pGet_other; auto; congruence. }
  destruct (String.eqb_spec f fr) as [->|Nf].
  2:{ rewrite !pGet_other; auto; congruence. }
  destruct (String.eqb_spec a a1) as [->|N1].
  - rewrite pGet_other by congruence. apply pGet_same.
  - destruct (String.eqb_spec a a2) as [->|N2].
    + apply pGet_same.
    + rewrite !pGet_other; congruence.
Qed.

Lemma writeSet_get g r d f a : pGet (writeSet g r) d f a = after (pGet g) r d f a.
Proof. unfold writeSet, after. rewrite two_set by discriminate. reflexivity. Qed.
Lemma readSet_get g r d f a : pGet (readSet g r) d f a = after (pGet g) r d f a.
Proof.
  unfold readSet, after. rewrite two_set by discriminate.
  destruct (String.eqb d (sdir r) && String.eqb f (sname r)); [|auto].
  destruct (String.eqb_spec a "moddate") as [->|]; [reflexivity|].
  destruct (String.eqb_spec a "md5sum"); auto.
Qed.

Lemma after_ext g h r : (forall d f a, g d f a = h d f a) -> forall d f a, after g r d f a = after h r d f a.
Proof. intros E d f a. unfold after. now rewrite E. Qed.

Lemma record_clean r : cleanStat r -> occurs nl (join bar [sdir r; sname r; smod r; smd5 r]) = false
  /\ occurs cr (record r) = false.
Proof.
  intros ((A1 & A2 & A3) & (B1 & B2 & B3) & (C1 & C2 & C3) & (D1 & D2 & D3)).
  unfold record, join. cbn [String.concat]. split.
  - rewrite !occurs_app. rewrite A2, B2, C2, D2. reflexivity.
  - rewrite !occurs_app. rewrite A3, B3, C3, D3. reflexivity.
Qed.

Lemma readLine_record g r : cleanStat r -> readLine g (record r) = Some (readSet g r).
Proof.
  intros ((A1 & A2 & A3) & (B1 & B2 & B3) & (C1 & C2 & C3) & (D1 & D2 & D3)).
  assert (E : record r = join bar [sdir r; sname r; smod r; smd5 r ++ String nl ""]).
  { unfold record, join. cbn [String.concat]. now rewrite !append_assoc'. }
  unfold readLine. rewrite E, split_join.
  - rewrite rstrip_clean, rstrip_nl by auto. reflexivity.
  - discriminate.
  - repeat constructor; auto. rewrite occurs_app, C1. reflexivity.
Qed.

Fixpoint textOf (rs : list stat) : string :=
  match rs with [] => "" | r :: rs' => record r ++ textOf rs' end.
Lemma textOf_app a b : textOf (a ++ b)%list = textOf a ++ textOf b.
Proof. induction a as [|r a IH]; cbn [textOf app]; [auto|]. now rewrite IH, append_assoc'. Qed.

Lemma textOf_cr rs : Forall cleanStat rs -> occurs cr (textOf rs) = false.
Proof.
  induction 1 as [|r rs H _ IH]; cbn [textOf]; [auto|].
  rewrite occurs_app, IH. destruct (record_clean r H) as [_ ->]. reflexivity.
Qed.

Lemma readLines_text rs : Forall cleanStat rs -> forall g,
  readLines g (lines (textOf rs)) = (fold_left readSet rs g, true).
Proof.
  induction 1 as [|r rs H _ IH]; intros g; [reflexivity|]. cbn [textOf fold_left].
  destruct (record_clean r H) as [Hn _].
  replace (record r ++ textOf rs) with
    (join bar [sdir r; sname r; smod r; smd5 r] ++ String nl (textOf rs)).
  2:{ unfold record. now rewrite append_assoc'. }
  rewrite lines_app by auto. change (join bar [sdir r; sname r; smod r; smd5 r] ++ String nl "") with (record r).
  cbn [readLines]. rewrite readLine_record by auto. apply IH.
Qed.

Lemma fold_get rs : forall g h, (forall d f a, pGet g d f a = pGet h d f a) ->
  forall d f a, pGet (fold_left readSet rs g) d f a = pGet (fold_left writeSet rs h) d f a.
Proof.
  induction rs as [|r rs IH]; intros g h E; cbn [fold_left]; [auto|].
  apply IH. intros d f a. rewrite readSet_get, writeSet_get. now apply after_ext.
Qed.

(** Last record wins. *)
Lemma fold_write_last rs : forall g d f a,
  pGet (fold_left writeSet rs g) d f a =
  fold_left (fun o r => after (fun _ _ _ => o) r d f a) rs (pGet g d f a).
Proof.
  induction rs as [|r rs IH]; intros g d f a; cbn [fold_left]; [auto|].
  rewrite IH, writeSet_get. f_equal.
Qed.

Lemma after_idem rs d f a : forall o,
  (exists v, forall o', fold_left (fun o r => after (fun _ _ _ => o) r d f a) rs o' = Some v) \/
  fold_left (fun o r => after (fun _ _ _ => o) r d f a) rs o = o.
Proof.
  induction rs as [|r rs IH]; intros o; cbn [fold_left]; [now right|].
  destruct (IH (after (fun _ _ _ => o) r d f a)) as [[v H]|H].
  - left. exists v. intros. apply H.
  - rewrite H. unfold after in *.
    destruct (String.eqb d (sdir r) && String.eqb f (sname r)) eqn:E1; [|now right].
    destruct (String.eqb a "md5sum") eqn:E2.
    { left. exists (smd5 r). intros _. exact H. }
    destruct (String.eqb a "moddate") eqn:E3.
    { left. exists (smod r). intros _. exact H. }
    now right.
Qed.

Lemma fold_twice rs g d f a :
  pGet (fold_left readSet rs (fold_left writeSet rs g)) d f a = pGet (fold_left writeSet rs g) d f a.
Proof.
  rewrite (fold_get rs _ (fold_left writeSet rs g)) by auto.
  rewrite (fold_write_last rs (fold_left writeSet rs g)).
  destruct (after_idem rs d f a (pGet (fold_left writeSet rs g) d f a)) as [[v H]|H].
  - rewrite H. rewrite fold_write_last. now rewrite H.
  - exact H.
Qed.

(** Writing a list of records. *)
Lemma writes_state n : n <> "" -> forall rs s, datfile s = Some n ->
  fold_left pDo (map OWrite rs) s =
  mkP (Some n) (fold_left writeSet rs (pfiles s)) (disk (fold_left pDo (map OWrite rs) s)) /\
  (rs <> [] \/ disk s n <> None -> disk (fold_left pDo (map OWrite rs) s) n =
     Some ((match disk s n with Some t => t | None => "" end) ++ textOf rs)) /\
  (forall m, m <> n -> disk (fold_left pDo (map OWrite rs) s) m = disk s m).
Proof.
  intros Hn. induction rs as [|r rs IH]; intros s Hs; cbn [map fold_left].
  - split; [destruct s; cbn in *; subst; reflexivity|]. split.
    + intros [?|?]; [congruence|]. destruct (disk s n); [|congruence]. now rewrite append_nil.
    + auto.
  - set (s1 := pDo s (OWrite r)).
    assert (E1 : s1 = mkP (Some n) (writeSet (pfiles s) r)
      (dput (disk s) n ((match disk s n with Some t => t | None => "" end) ++ record r))).
    { unfold s1, pDo, pWrite. rewrite Hs. destruct n; [congruence|]. reflexivity. }
    destruct (IH s1) as (H1 & H2 & H3); [now rewrite E1|].
    split; [|split].
    + rewrite H1 at 1. rewrite E1. reflexivity.
    + intros _. rewrite H2.
      * rewrite E1. cbn [disk]. rewrite dput_same. cbn [textOf]. now rewrite append_assoc'.
      * right. rewrite E1. cbn [disk]. rewrite dput_same. discriminate.
    + intros m Hm. rewrite H3 by auto. rewrite E1. cbn [disk]. now apply dput_other.
Qed.

(** A ledger file that was absent, or written by this program with clean names. *)
Definition ledgerFile (dk : dict string) (n : string) (rs : list stat) : Prop :=
  match dk n with None => rs = [] | Some t => t = textOf rs end.

Lemma ledger_reload n dk rs0 rs : n <> "" -> Forall cleanStat (rs0 ++ rs) -> ledgerFile dk n rs0 ->
  let s1 := fst (pGetFiles (mkP None dempty dk) (Some n)) in
  let s2 := fold_left pDo (map OWrite rs) s1 in
  (forall d f a, pGet (pfiles (fst (pGetFiles (mkP None dempty (disk s2)) (Some n)))) d f a
     = pGet (pfiles s2) d f a) /\
  (forall d f a, pGet (pfiles (fst (pGetFiles s2 (Some n)))) d f a = pGet (pfiles s2) d f a).
Proof.
  intros Hn Hc Hl. cbv zeta.
  assert (Hc0 : Forall cleanStat rs0) by (apply Forall_app in Hc; tauto).
  set (s1 := fst (pGetFiles (mkP None dempty dk) (Some n))).
  assert (E1 : s1 = mkP (Some n) (fold_left readSet rs0 dempty) dk).
  { unfold s1, pGetFiles. destruct n as [|x n']; [congruence|]. cbn [disk].
    unfold ledgerFile in Hl. destruct (dk (String x n')) as [t|] eqn:E.
    - subst t. rewrite universal_clean by now apply textOf_cr.
      cbn [pfiles]. rewrite readLines_text by auto. reflexivity.
    - now subst rs0. }
  destruct (writes_state n Hn rs s1) as (H1 & H2 & H3); [now rewrite E1|].
  set (s2 := fold_left pDo (map OWrite rs) s1) in *.
  assert (Hg : pfiles s2 = fold_left writeSet rs (fold_left readSet rs0 dempty)).
  { rewrite H1, E1. reflexivity. }
  assert (Hgg : forall d f a, pGet (pfiles s2) d f a = pGet (fold_left writeSet (rs0 ++ rs)%list dempty) d f a).
  { intros. rewrite Hg, fold_left_app. rewrite !(fold_write_last rs). f_equal.
    now apply fold_get. }
  assert (Hd : match disk s2 n with None => (rs0 ++ rs)%list = [] | Some t => t = textOf (rs0 ++ rs)%list end).
  { destruct rs as [|r rs'].
    - subst s2. cbn [map fold_left]. rewrite E1. cbn [disk]. rewrite app_nil_r. exact Hl.
    - rewrite H2 by (left; discriminate). rewrite E1. cbn [disk]. rewrite textOf_app. f_equal.
      unfold ledgerFile in Hl. destruct (dk n); subst; reflexivity. }
  assert (Hread : forall df g0 d f a,
     pGet (pfiles (fst (pGetFiles (mkP df g0 (disk s2)) (Some n)))) d f a =
     pGet (fold_left readSet (rs0 ++ rs)%list g0) d f a).
  { intros df g0 d f a. unfold pGetFiles. destruct n as [|x n']; [congruence|]. cbn [disk].
    destruct (disk s2 (String x n')) as [t|].
    - subst t. rewrite universal_clean by now apply textOf_cr.
      cbn [pfiles]. now rewrite readLines_text.
    - now rewrite Hd. }
  split; intros d f a.
  - rewrite Hgg, Hread. now apply fold_get.
  - rewrite Hgg. specialize (Hread (datfile s2) (pfiles s2) d f a).
    replace (mkP (datfile s2) (pfiles s2) (disk s2)) with s2 in Hread by now destruct s2.
    rewrite Hread.
    rewrite (fold_get (rs0 ++ rs)%list (pfiles s2) (fold_left writeSet (rs0 ++ rs)%list dempty)) by auto.
    rewrite (fold_write_last (rs0 ++ rs)%list (fold_left writeSet (rs0 ++ rs)%list dempty)).
    destruct (after_idem (rs0 ++ rs)%list d f a (pGet (fold_left writeSet (rs0 ++ rs)%list dempty) d f a)) as [[v H]|H].
    + rewrite H. rewrite fold_write_last. now rewrite H.
    + exact H.
Qed.

(** Within one process: an attribute of a file keeps its answer while no call
    records that attribute of that file. *)
Definition touches (d f a : string) (o : pop) : Prop :=
  match o with
  | OSet d' f' a' _ => (d', f', a') = (d, f, a)
  | OWrite r => (sdir r, sname r) = (d, f) /\ (a = "md5sum" \/ a = "moddate")
  end.

Lemma pDo_other s o d f a : ~ touches d f a o -> pGet (pfiles (pDo s o)) d f a = pGet (pfiles s) d f a.
Proof.
  intros N. destruct o as [d' f' a' v|r]; cbn [pDo].
  - cbn [pfiles]. apply pGet_other. intros E. apply N. cbn. congruence.
  - unfold pWrite. destruct (datfile s) as [[|x n]|]; try reflexivity. cbn [fst pfiles].
    change (pGet (writeSet (pfiles s) r) d f a = pGet (pfiles s) d f a). rewrite writeSet_get.
    unfold after. destruct (String.eqb_spec d (sdir r)) as [->|]; [|reflexivity].
    destruct (String.eqb_spec f (sname r)) as [->|]; [|reflexivity]. cbn [andb].
    destruct (String.eqb_spec a "md5sum") as [->|]; [exfalso; apply N; cbn; auto|].
    destruct (String.eqb_spec a "moddate") as [->|]; [exfalso; apply N; cbn; auto|]. reflexivity.
Qed.

Lemma run_other os d f a : Forall (fun o => ~ touches d f a o) os -> forall s,
  pGet (pfiles (fold_left pDo os s)) d f a = pGet (pfiles s) d f a.
Proof.
  induction 1 as [|o os H _ IH]; intros s; cbn [fold_left]; [auto|].
  rewrite IH. now apply pDo_other.
Qed.

Lemma pWrite_get s r n : datfile s = Some n -> n <> "" ->
  snd (pWrite s (Some r)) = PRet 1 /\
  pGet (pfiles (pDo s (OWrite r))) (sdir r) (sname r) "md5sum" = Some (smd5 r) /\
  pGet (pfiles (pDo s (OWrite r))) (sdir r) (sname r) "moddate" = Some (smod r).
Proof.
  intros Hs Hn. cbn [pDo]. unfold pWrite. rewrite Hs. destruct n; [congruence|]. cbn [fst snd pfiles].
  split; [reflexivity|]. change (pGet (writeSet (pfiles s) r) (sdir r) (sname r) "md5sum" = Some (smd5 r) /\
    pGet (writeSet (pfiles s) r) (sdir r) (sname r) "moddate" = Some (smod r)).
  rewrite !writeSet_get. unfold after. now rewrite !String.eqb_refl.
Qed.
