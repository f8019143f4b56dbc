(** C200, C201: wind multipliers kept in S3 buckets. *)
From Coq Require Import List Arith Bool Ascii String Lia.
From Verif Require Import NamesModel TextModel TextProps S3Model.
Import ListNotations.
Open Scope list_scope.

Definition noSlash (s : str) : Prop := ~ In slash s.

(** ** Splitting *)
Lemma split_nil s : split s <> [].
Proof. destruct s as [|c s]; cbn; [discriminate|]. destruct (Ascii.eqb c slash); [discriminate|]. destruct (split s); discriminate. Qed.
Lemma join_split s : join (split s) = s.
Proof.
  induction s as [|c s IH]; [reflexivity|]. cbn [split]. destruct (Ascii.eqb c slash) eqn:E.
  - apply Ascii.eqb_eq in E as ->. pose proof (split_nil s). destruct (split s) as [|x r] eqn:Sp; [congruence|]. cbn [join app] in *. now rewrite IH.
  - destruct (split s) as [|x r] eqn:Sp; [now apply split_nil in Sp|]. destruct r as [|y r]; cbn [join app] in *; now rewrite IH.
Qed.
Lemma split_app a b : noSlash a -> split (a ++ slash :: b) = a :: split b.
Proof.
  induction a as [|c a IH]; intros N; [reflexivity|]. cbn [app split].
  assert (E : Ascii.eqb c slash = false) by (apply Ascii.eqb_neq; intros ->; apply N; now left). rewrite E.
  rewrite IH; [reflexivity|]. intros H. apply N. now right.
Qed.
Lemma split_one a : noSlash a -> split a = [a].
Proof.
  induction a as [|c a IH]; intros N; [reflexivity|]. cbn [split].
  assert (E : Ascii.eqb c slash = false) by (apply Ascii.eqb_neq; intros ->; apply N; now left). rewrite E.
  rewrite IH; [reflexivity|]. intros H. apply N. now right.
Qed.
Lemma split_parts s x : In x (split s) -> noSlash x.
Proof.
  revert x. induction s as [|c s IH]; intros x; cbn [split].
  - intros [<-|[]] [].
  - destruct (Ascii.eqb c slash) eqn:E.
    + intros [<-|H]; [intros []|now apply IH].
    + apply Ascii.eqb_neq in E. destruct (split s) as [|y r]; [intros [<-|[]] [H|[]]; congruence|].
      intros [<-|H].
      * intros [H|H]; [congruence|]. apply (IH y); [now left|exact H].
      * apply IH. now right.
Qed.
Lemma last_split a f : noSlash f -> last (split (a ++ slash :: f)) [] = f.
Proof.
  intros N. induction a as [|c a IH]; cbn [app split].
  - change (last ([] :: split f) [] = f). rewrite (split_one f N). reflexivity.
  - destruct (Ascii.eqb c slash).
    + pose proof (split_nil (a ++ slash :: f)). destruct (split (a ++ slash :: f)); [congruence|exact IH].
    + destruct (split (a ++ slash :: f)) as [|x r] eqn:Sp; [now apply split_nil in Sp|].
      destruct r; [|exact IH]. exfalso.
      apply (f_equal (@List.length str)) in Sp. clear - Sp. revert Sp.
      induction a as [|d a IH]; cbn [app split].
      * change (List.length ([] :: split f) = List.length [x] -> False). pose proof (split_nil f). destruct (split f); [congruence|discriminate].
      * destruct (Ascii.eqb d slash); [pose proof (split_nil (a ++ slash :: f)); destruct (split (a ++ slash :: f)); [congruence|discriminate]|].
        destruct (split (a ++ slash :: f)) eqn:Sp; [now apply split_nil in Sp|]. cbn. intros H. apply IH. cbn. exact H.
Qed.

Lemma vsis3_split r : split (vsis3 ++ r) = [] :: lit "vsis3" :: split r.
Proof. reflexivity. Qed.
Lemma segments_in bucket rest : noSlash bucket ->
  segments (vsis3 ++ bucket ++ slash :: rest) = SegOk bucket rest (last (split (bucket ++ slash :: rest)) []).
Proof.
  intros N. unfold segments. rewrite vsis3_split, split_app by exact N. cbn -[join last split].
  rewrite join_split. reflexivity.
Qed.

(** ** C200 *)
(** The parts of a path *)
Theorem c200_segments : forall bucket dir f, noSlash bucket -> noSlash f ->
  segments (vsis3 ++ bucket ++ slash :: dir ++ slash :: f) = SegOk bucket (dir ++ slash :: f) f /\
  segments (vsis3 ++ bucket ++ slash :: f) = SegOk bucket f f.
Proof.
  intros bucket dir f Nb Nf. split.
  - rewrite segments_in by exact Nb. f_equal. rewrite app_comm_cons, app_assoc. now apply last_split.
  - rewrite segments_in by exact Nb. f_equal. now apply last_split.
Qed.
(** Whatever is accepted is such a path *)
Theorem c200_sound : forall path b k f, segments path = SegOk b k f ->
  noSlash b /\ noSlash f /\ (path = vsis3 ++ b ++ slash :: k \/ path = vsis3 ++ b /\ k = []).
Proof.
  intros path b k f. unfold segments. destruct (split path) as [|s0 [|s1 [|b0 r]]] eqn:Sp; try discriminate;
    try (destruct (negb (str_eqb s0 [])); discriminate).
  - destruct (negb (str_eqb s0 [])); [discriminate|]. destruct (negb (str_eqb s1 (lit "vsis3"))); discriminate.
  - destruct (str_eqb s0 []) eqn:E0; [|discriminate]. destruct (str_eqb s1 (lit "vsis3")) eqn:E1; [|discriminate]. cbn [negb].
    apply str_eqb_iff in E0, E1. subst s0 s1. intros H. injection H as -> <- <-.
    assert (P : forall x, In x (split path) -> noSlash x) by apply split_parts. rewrite Sp in P.
    split; [apply P; cbn; tauto|]. split.
    + apply P. destruct r as [|y r]; [cbn; tauto|]. right. right. right. destruct (@exists_last _ (y :: r)) as (l & z & E); [discriminate|]. rewrite E.
      change ([] :: lit "vsis3" :: b :: l ++ [z]) with (([] :: lit "vsis3" :: b :: l) ++ [z]). rewrite last_last. apply in_or_app. right. now left.
    + rewrite <- (join_split path), Sp. destruct r as [|y r]; [right|left]; auto.
Qed.

(** *** Ends and joins *)
Lemma ends_app s : endsSlash (s ++ [slash]) = true.
Proof. unfold endsSlash. rewrite rev_app_distr. reflexivity. Qed.
Lemma ends_true s : endsSlash s = true -> exists t, s = t ++ [slash].
Proof.
  unfold endsSlash. destruct (rev s) as [|c r] eqn:E; [discriminate|]. intros H. apply Ascii.eqb_eq in H as ->.
  exists (rev r). rewrite <- (rev_involutive s), E. reflexivity.
Qed.
Lemma with_ends s : endsSlash (withSlash s) = true.
Proof. unfold withSlash. destruct (endsSlash s) eqn:E; [exact E|apply ends_app]. Qed.
Lemma with_idem s : withSlash (withSlash s) = withSlash s.
Proof. unfold withSlash at 1. now rewrite with_ends. Qed.
(** The directory and a relative name joined: the directory with its slash, and the name *)
Lemma pjoin_with d n : d <> [] -> (forall c s, n = c :: s -> c <> slash) -> pjoin d n = withSlash d ++ n.
Proof.
  intros D N. unfold pjoin, withSlash. destruct (str_eqb d []) eqn:E; [apply str_eqb_iff in E; congruence|].
  rewrite orb_false_r. destruct n as [|c n]; [destruct (endsSlash d); now rewrite app_nil_r|].
  assert (E' : Ascii.eqb c slash = false) by (apply Ascii.eqb_neq; now apply (N c n)). rewrite E'.
  destruct (endsSlash d); [reflexivity|]. now rewrite <- app_assoc.
Qed.

(** A local gust file is used where it is; one in a bucket is brought into the working directory *)
Theorem c200_gust : forall V dirs (st : bucketOf V) gust wd fs,
  (starts_with vsis3 gust = false -> gustFile dirs st gust wd fs = (fs, inl gust)) /\
  (forall bucket dir f v, noSlash bucket -> noSlash f -> f <> [] -> wd <> [] -> isDir dirs wd = true ->
   gust = vsis3 ++ bucket ++ slash :: dir ++ slash :: f -> object bucket (dir ++ slash :: f) st = Some v ->
   exists fs', gustFile dirs st gust wd fs = (fs', inl (withSlash wd ++ f)) /\
     look (withSlash wd ++ f) fs' = Some v /\ forall p, p <> withSlash wd ++ f -> look p fs' = look p fs).
Proof.
  intros V dirs st gust wd fs. unfold gustFile. split; [now intros ->|].
  intros bucket dir f v Nb Nf F Wd D -> O. cbn [vsis3]. 
  replace (starts_with vsis3 (vsis3 ++ bucket ++ slash :: dir ++ slash :: f)) with true by reflexivity.
  unfold download. rewrite (proj1 (c200_segments bucket dir f Nb Nf)). cbn [ofSeg]. unfold fetch. rewrite O, D.
  rewrite str_eqb_false by exact F. cbn [negb andb].
  assert (J : pjoin wd f = withSlash wd ++ f).
  { apply pjoin_with; [exact Wd|]. intros c s -> ->. apply Nf. now left. }
  rewrite J. eexists. split; [reflexivity|]. cbn [look]. split.
  - now rewrite (proj2 (str_eqb_iff _ _) eq_refl).
  - intros p Hp. rewrite str_eqb_false; [reflexivity|]. congruence.
Qed.

(** A working directory in a bucket stands for one local directory, however often it is asked for, and the results
    go to the bucket; a local one is used as it is and nothing is uploaded *)
Theorem c200_work : forall fresh fresh' w wd,
  (starts_with vsis3 wd = false -> workDir fresh w wd = (w, wd)) /\
  (starts_with vsis3 wd = true -> exists w' d, workDir fresh w wd = (w', d) /\ uploadPath w' = Some wd /\ endsSlash d = true /\
     workDir fresh' w' wd = (w', d) /\
     (forall t, tmpName w = Some t -> d = withSlash t /\ wdirs w' = wdirs w) /\
     (tmpName w = None -> d = withSlash fresh /\ wdirs w' = fresh :: wdirs w)).
Proof.
  intros fresh fresh' w wd. unfold workDir. split; intros ->; [reflexivity|].
  destruct (tmpName w) as [t|] eqn:T; do 2 eexists; (split; [reflexivity|]); cbn; repeat split; try apply with_ends; try congruence;
    intros; congruence.
Qed.

(** Uploading: every file is in the bucket under the path and its name, with or without a slash at the end of the
    path, and nothing else is changed *)
Lemma object_put {V} b b' k k' (v : V) st : object b k ((b', k', v) :: st) = if str_eqb b' b && str_eqb k' k then Some v else object b k st.
Proof. reflexivity. Qed.
Lemma putAll_all V b k dir (fs : files V) names : forall st, (forall n, In n names -> look (pjoin dir n) fs <> None) ->
  exists st', putAll b k dir names fs st = (st', None) /\
    (forall n, In n names -> object b (k ++ n) st' = look (pjoin dir n) fs) /\
    (forall b' k', ~ (b' = b /\ exists n, In n names /\ k' = k ++ n) -> object b' k' st' = object b' k' st).
Proof.
  induction names as [|n ns IH]; intros st H; cbn [putAll].
  - exists st. repeat split; auto. intros n [].
  - destruct (look (pjoin dir n) fs) as [v|] eqn:L; [|exfalso; apply (H n); [now left|exact L]].
    destruct (IH ((b, k ++ n, v) :: st)) as (st' & E & A & B); [intros m Hm; apply H; now right|].
    exists st'. split; [exact E|]. split.
    + intros m [<-|Hm]; [|now apply A].
      destruct (in_dec (list_eq_dec Ascii.ascii_dec) n ns) as [I|I]; [now apply A|].
      rewrite B.
      * rewrite object_put, !(proj2 (str_eqb_iff _ _) eq_refl). cbn. now rewrite L.
      * intros (_ & m & Hm & Em). apply app_inv_head in Em. subst m. contradiction.
    + intros b' k' Hn. rewrite B.
      * rewrite object_put. destruct (str_eqb b b') eqn:E1; [|reflexivity]. destruct (str_eqb (k ++ n) k') eqn:E2; [|reflexivity].
        apply str_eqb_iff in E1, E2. exfalso. apply Hn. split; [auto|]. exists n. split; [now left|auto].
      * intros (E1 & m & Hm & E2). apply Hn. split; [exact E1|]. exists m. split; [now right|exact E2].
Qed.
Lemma ends_last a b : b <> [] -> endsSlash (a ++ b) = endsSlash b.
Proof. intros H. destruct (@exists_last _ b H) as (l & c & ->). unfold endsSlash. now rewrite app_assoc, !rev_app_distr. Qed.
Lemma with_last a b : b <> [] -> withSlash (a ++ b) = a ++ withSlash b.
Proof. intros H. unfold withSlash. rewrite ends_last by exact H. destruct (endsSlash b); [reflexivity|]. now rewrite app_assoc. Qed.
Lemma with_end a : withSlash (a ++ [slash]) = a ++ [slash].
Proof. unfold withSlash. now rewrite ends_app. Qed.

Theorem c200_upload : forall V dir bucket d names (fs : files V) st, noSlash bucket ->
  (forall n, In n names -> look (pjoin dir n) fs <> None) ->
  exists st', upload dir (vsis3 ++ bucket ++ slash :: d ++ [slash]) names fs st = (st', None) /\
    (d <> [] -> endsSlash d = false -> upload dir (vsis3 ++ bucket ++ slash :: d) names fs st = (st', None)) /\
    (forall n, In n names -> object bucket (d ++ slash :: n) st' = look (pjoin dir n) fs) /\
    (forall b' k', ~ (b' = bucket /\ exists n, In n names /\ k' = d ++ slash :: n) -> object b' k' st' = object b' k' st).
Proof.
  intros V dir bucket d names fs st Nb H.
  destruct (putAll_all V bucket (d ++ [slash]) dir fs names st H) as (st' & E & A & B). exists st'. unfold upload.
  assert (W : withSlash (vsis3 ++ bucket ++ slash :: d ++ [slash]) = vsis3 ++ bucket ++ slash :: d ++ [slash]).
  { replace (vsis3 ++ bucket ++ slash :: d ++ [slash]) with ((vsis3 ++ bucket ++ slash :: d) ++ [slash]) by (now rewrite <- !app_assoc). apply with_end. }
  rewrite W, segments_in by exact Nb. cbn [ofSeg]. split; [exact E|]. split; [|split].
  - intros Nd Ed. replace (withSlash (vsis3 ++ bucket ++ slash :: d)) with (vsis3 ++ bucket ++ slash :: d ++ [slash]).
    + rewrite segments_in by exact Nb. exact E.
    + unfold withSlash. replace (vsis3 ++ bucket ++ slash :: d) with ((vsis3 ++ bucket ++ [slash]) ++ d) by (now rewrite <- !app_assoc).
      rewrite ends_last by exact Nd. rewrite Ed. now rewrite <- !app_assoc.
  - intros n Hn. specialize (A n Hn). now rewrite <- app_assoc in A.
  - intros b' k' Hn. apply B. intros (E1 & n & Hn' & E2). apply Hn. split; [exact E1|]. exists n. split; [exact Hn'|].
    now rewrite <- app_assoc in E2.
Qed.
(** What was uploaded comes back *)
Theorem c200_back : forall V dir bucket d names (fs : files V) st n dest dirs fs2, noSlash bucket ->
  (forall n, In n names -> look (pjoin dir n) fs <> None) -> In n names -> noSlash n -> n <> [] ->
  dest <> [] -> isDir dirs dest = true ->
  exists fs3, download dirs (fst (upload dir (vsis3 ++ bucket ++ slash :: d ++ [slash]) names fs st))
      (vsis3 ++ bucket ++ slash :: d ++ slash :: n) dest fs2 = (fs3, inl (withSlash dest ++ n)) /\
    look (withSlash dest ++ n) fs3 = look (pjoin dir n) fs.
Proof.
  intros V dir bucket d names fs st n dest dirs fs2 Nb H Hn Nn N0 D0 D.
  destruct (c200_upload V dir bucket d names fs st Nb H) as (st' & -> & _ & A & _). cbn [fst].
  destruct (look (pjoin dir n) fs) as [v|] eqn:L; [|exfalso; now apply (H n)].
  destruct (c200_gust V dirs st' (vsis3 ++ bucket ++ slash :: d ++ slash :: n) dest fs2) as [_ G].
  destruct (G bucket d n v Nb Nn N0 D0 D eq_refl) as (fs3 & E & F & _); [rewrite (A n Hn); exact L|].
  exists fs3. split; [exact E|exact F].
Qed.

(** *** The threads *)
Definition pathOf (a : action) : str := pjoin (a_dest a) (a_name a).
Section Runs.
Variable V : Type.
Variable dirs : list str.
Variable st : bucketOf V.
Lemma fetch_ok b k dest n fs fs1 : fetch dirs st b k dest n fs = inl fs1 ->
  exists v, object b k st = Some v /\ fs1 = (pjoin dest n, v) :: fs.
Proof. unfold fetch. destruct (object b k st) as [v|]; [|discriminate]. destruct (isDir dirs dest && negb (str_eqb n [])); [|discriminate]. intros [= <-]. eauto. Qed.
Lemma runs_new ts fs fs' : runs dirs st ts fs fs' -> forall p, look p fs' = look p fs \/
  exists a, In a (List.concat ts) /\ pathOf a = p /\ look p fs' = object (a_bucket a) (a_key a) st /\ look p fs' <> None.
Proof.
  induction 1 as [ts fs H|pre a t post fs fs1 fs2 H R IH|pre a t post fs fs2 e H R IH]; intros p.
  - now left.
  - destruct (IH p) as [E|(a' & I & P & E & N)].
    + apply fetch_ok in H as (v & O & ->). cbn [look] in E. destruct (str_eqb (pjoin (a_dest a) (a_name a)) p) eqn:C; [|now left].
      apply str_eqb_iff in C. right. exists a. rewrite concat_app. cbn [List.concat app]. split; [apply in_or_app; right; now left|].
      split; [exact C|]. split; [congruence|congruence].
    + right. exists a'. split; [|auto]. rewrite concat_app in *. cbn [List.concat app] in *. apply in_app_or in I as [I|I]; apply in_or_app; [now left|right; now right].
  - destruct (IH p) as [E|(a' & I & P & E & N)]; [now left|]. right. exists a'. split; [|auto].
    rewrite concat_app in *. cbn [List.concat app] in *. apply in_app_or in I as [I|I]; apply in_or_app; [now left|right; right; apply in_or_app; now right].
Qed.
Variable val : str -> option V.
Definition fine (a : action) : Prop :=
  object (a_bucket a) (a_key a) st = val (pathOf a) /\ val (pathOf a) <> None /\ isDir dirs (a_dest a) = true /\ a_name a <> [].
Lemma runs_keep ts fs fs' : runs dirs st ts fs fs' -> (forall a, In a (List.concat ts) -> fine a) ->
  forall p, look p fs = val p -> look p fs' = val p.
Proof.
  intros R F p L. destruct (runs_new _ _ _ R p) as [E|(a & I & P & E & N)]; [congruence|].
  destruct (F a I) as (O & _). congruence.
Qed.
Lemma runs_all ts fs fs' : runs dirs st ts fs fs' -> (forall a, In a (List.concat ts) -> fine a) ->
  forall a, In a (List.concat ts) -> look (pathOf a) fs' = val (pathOf a).
Proof.
  induction 1 as [ts fs H|pre a t post fs fs1 fs2 H R IH|pre a t post fs fs2 e H R IH]; intros F a' I.
  - exfalso. apply in_concat in I as (t & It & Ia). rewrite (H t It) in Ia. destruct Ia.
  - rewrite concat_app in I, F. cbn [List.concat app] in I, F.
    assert (F' : forall x, In x (List.concat (pre ++ t :: post)) -> fine x).
    { intros x Hx. apply F. rewrite concat_app in Hx. cbn [List.concat] in Hx. apply in_app_or in Hx as [Hx|Hx]; apply in_or_app; [now left|right; now right]. }
    assert (C : a' = a \/ In a' (List.concat (pre ++ t :: post))).
    { rewrite concat_app. cbn [List.concat]. apply in_app_or in I as [I|[I|I]]; [right; apply in_or_app; now left|left; auto|right; apply in_or_app; now right]. }
    destruct C as [->|C]; [|now apply IH].
    apply (runs_keep _ _ _ R F'). apply fetch_ok in H as (v & O & ->). cbn [look]. unfold pathOf.
    rewrite (proj2 (str_eqb_iff _ _) eq_refl). destruct (F a) as (O' & _); [apply in_or_app; right; now left|]. unfold pathOf in O'. congruence.
  - exfalso. destruct (F a) as (O & N & D & M); [rewrite concat_app; cbn [List.concat app]; apply in_or_app; right; now left|].
    unfold fetch in H. rewrite O, D in H. destruct (val (pathOf a)); [|congruence]. rewrite str_eqb_false in H by exact M. discriminate.
Qed.
End Runs.
(** The threads always come to an end *)
Lemma runs_exist V dirs (st : bucketOf V) : forall n ts fs, List.length (List.concat ts) = n -> exists fs', runs dirs st ts fs fs'.
Proof.
  intros n. induction n as [n IH] using lt_wf_ind. intros ts fs L.
  assert (C : (forall t, In t ts -> t = []) \/ exists pre a t post, ts = pre ++ (a :: t) :: post).
  { clear. induction ts as [|t ts IH]; [left; intros t []|]. destruct t as [|a t]; [|right; exists [], a, t, ts; reflexivity].
    destruct IH as [IH|(pre & a & t & post & ->)]; [left; intros t [<-|H]; auto|right; exists ([] :: pre), a, t, post; reflexivity]. }
  destruct C as [C|(pre & a & t & post & ->)]; [exists fs; now constructor|].
  rewrite concat_app in L. cbn [List.concat app] in L. rewrite app_length in L. cbn [List.length] in L. rewrite app_length in L.
  destruct (fetch dirs st (a_bucket a) (a_key a) (a_dest a) (a_name a) fs) as [fs1|e] eqn:F.
  - destruct (IH (List.length (List.concat (pre ++ t :: post)))) with (ts := pre ++ t :: post) (fs := fs1) as [fs' R]; [|reflexivity|].
    + rewrite concat_app. cbn [List.concat]. rewrite !app_length. lia.
    + exists fs'. now apply (Fetched V dirs st pre a t post fs fs1).
  - destruct (IH (List.length (List.concat (pre ++ [] :: post)))) with (ts := pre ++ @nil action :: post) (fs := fs) as [fs' R]; [|reflexivity|].
    + rewrite concat_app. cbn [List.concat app]. rewrite !app_length. lia.
    + exists fs'. now apply (Failed V dirs st pre a t post fs _ e).
Qed.

(** The actions of the download of the raw multipliers *)
Definition relative (s : str) : Prop := forall c r, s = c :: r -> c <> slash.
Lemma relative_tile tile s dn : relative tile -> relative (tileFile tile s dn).
Proof. intros R c r. unfold tileFile. destruct tile as [|x t]; cbn [app lit list_ascii_of_string]; intros [= <- _]; [discriminate|]. now apply (R x t). Qed.
Lemma relative_part t x : noSlash t -> t <> [] -> relative (t ++ x).
Proof. intros N N0 c r E ->. destruct t as [|y t]; [congruence|]. injection E as -> _. apply N. now left. Qed.
Lemma ends_part t : noSlash t -> endsSlash t = false.
Proof.
  intros N. destruct (endsSlash t) eqn:E; [|reflexivity]. exfalso. apply ends_true in E as (u & ->). apply N. apply in_or_app. right. now left.
Qed.
Lemma typeDir tmp t : tmp <> [] -> noSlash t -> t <> [] -> pjoin tmp t = withSlash tmp ++ t.
Proof. intros T N N0. apply pjoin_with; [exact T|]. pose proof (relative_part t [] N N0) as R. rewrite app_nil_r in R. exact R. Qed.
Lemma with_nonempty s : withSlash s <> [].
Proof. unfold withSlash. destruct (endsSlash s) eqn:E; [|destruct s; discriminate]. intros ->. discriminate. Qed.
Lemma filePath tmp t n : tmp <> [] -> noSlash t -> t <> [] -> relative n -> pjoin (pjoin tmp t) n = withSlash tmp ++ t ++ slash :: n.
Proof.
  intros T N N0 R. rewrite (typeDir tmp t T N N0). rewrite pjoin_with; [|destruct t; [congruence|]; destruct (withSlash tmp); discriminate|exact R].
  rewrite with_last by exact N0. unfold withSlash at 2. rewrite ends_part by exact N. now rewrite <- !app_assoc.
Qed.
Lemma thread_in bucket d t dest names : noSlash bucket ->
  thread ((vsis3 ++ bucket ++ slash :: d ++ [slash]) ++ t ++ [slash]) dest names =
  map (fun n => {| a_bucket := bucket; a_key := d ++ slash :: t ++ slash :: n; a_dest := dest; a_name := n |}) names.
Proof.
  intros N. unfold thread. rewrite app_assoc, with_end.
  replace (((vsis3 ++ bucket ++ slash :: d ++ [slash]) ++ t) ++ [slash]) with (vsis3 ++ bucket ++ slash :: (d ++ slash :: t ++ [slash])) by (now rewrite <- !app_assoc, <- !app_comm_cons, <- !app_assoc).
  rewrite segments_in by exact N. apply map_ext. intros n. f_equal. now rewrite <- app_assoc, <- app_comm_cons, <- app_assoc.
Qed.
Lemma actions bucket d tmp types tiles dirns a : noSlash bucket ->
  In a (List.concat (threads (vsis3 ++ bucket ++ slash :: d ++ [slash]) tmp types tiles dirns)) <->
  exists t s tile dn, In (t, s) types /\ In tile tiles /\ In dn dirns /\
    a = {| a_bucket := bucket; a_key := d ++ slash :: t ++ slash :: tileFile tile s dn; a_dest := pjoin tmp t; a_name := tileFile tile s dn |}.
Proof.
  intros N. unfold threads. replace (withSlash (vsis3 ++ bucket ++ slash :: d ++ [slash])) with (vsis3 ++ bucket ++ slash :: d ++ [slash]).
  2:{ replace (vsis3 ++ bucket ++ slash :: d ++ [slash]) with ((vsis3 ++ bucket ++ slash :: d) ++ [slash]) by (now rewrite <- !app_assoc). now rewrite with_end. }
  rewrite <- flat_map_concat_map, in_flat_map. split.
  - intros ((t & s) & It & H). cbn [fst snd] in H. rewrite thread_in in H by exact N. apply in_map_iff in H as (n & <- & H).
    unfold wanted in H. apply in_flat_map in H as (tile & Ht & H). apply in_map_iff in H as (dn & <- & H).
    exists t, s, tile, dn. auto.
  - intros (t & s & tile & dn & It & Ht & Hd & ->). exists (t, s). split; [exact It|]. cbn [fst snd]. rewrite thread_in by exact N.
    apply (in_map (fun n => {| a_bucket := bucket; a_key := d ++ slash :: t ++ slash :: n; a_dest := pjoin tmp t; a_name := n |})).
    unfold wanted. apply in_flat_map. exists tile. split; [exact Ht|]. now apply in_map.
Qed.
Lemma rawDirs_in tmp types dirs t s : In (t, s) types -> isDir (rawDirs tmp types dirs) (pjoin tmp t) = true.
Proof.
  intros H. unfold isDir. apply existsb_exists. exists (pjoin tmp t). split.
  - unfold rawDirs. apply in_or_app. left. now apply (in_map (fun ts => pjoin tmp (fst ts)) types (t, s)).
  - now rewrite (proj2 (str_eqb_iff _ _) eq_refl).
Qed.
(** If the bucket has them, the files of every type, tile and direction are in the temporary directory at the end,
    whatever turns the threads took *)
Theorem c200_raw : forall V bucket d tmp types tiles dirns dirs (st : bucketOf V) fs fs',
  noSlash bucket -> tmp <> [] -> (forall t s, In (t, s) types -> noSlash t /\ t <> []) -> (forall tile, In tile tiles -> relative tile) ->
  (forall t s tile dn, In (t, s) types -> In tile tiles -> In dn dirns ->
     object bucket (d ++ slash :: t ++ slash :: tileFile tile s dn) st <> None) ->
  runs (rawDirs tmp types dirs) st (threads (vsis3 ++ bucket ++ slash :: d ++ [slash]) tmp types tiles dirns) fs fs' ->
  (forall t s tile dn, In (t, s) types -> In tile tiles -> In dn dirns ->
     look (withSlash tmp ++ t ++ slash :: tileFile tile s dn) fs' = object bucket (d ++ slash :: t ++ slash :: tileFile tile s dn) st) /\
  (forall p, (forall t s tile dn, In (t, s) types -> In tile tiles -> In dn dirns -> p <> withSlash tmp ++ t ++ slash :: tileFile tile s dn) ->
     look p fs' = look p fs).
Proof.
  intros V bucket d tmp types tiles dirns dirs st fs fs' Nb T Ty Ti O R.
  set (val := fun p => object bucket (d ++ slash :: skipn (List.length (withSlash tmp)) p) st).
  assert (Pa : forall a, In a (List.concat (threads (vsis3 ++ bucket ++ slash :: d ++ [slash]) tmp types tiles dirns)) ->
    fine V (rawDirs tmp types dirs) st val a /\ exists t s tile dn, In (t, s) types /\ In tile tiles /\ In dn dirns /\
      pathOf a = withSlash tmp ++ t ++ slash :: tileFile tile s dn).
  { intros a Ha. apply actions in Ha as (t & s & tile & dn & It & Ht & Hd & ->); [|exact Nb].
    destruct (Ty t s It) as [Nt N0].
    assert (P : pathOf {| a_bucket := bucket; a_key := d ++ slash :: t ++ slash :: tileFile tile s dn; a_dest := pjoin tmp t; a_name := tileFile tile s dn |}
      = withSlash tmp ++ t ++ slash :: tileFile tile s dn).
    { unfold pathOf. cbn [a_dest a_name]. apply filePath; auto. apply relative_tile. auto. }
    split; [|exists t, s, tile, dn; auto]. unfold fine. rewrite P. cbn [a_bucket a_key a_dest a_name]. unfold val.
    rewrite skipn_app, skipn_all, Nat.sub_diag. cbn [skipn app]. split; [reflexivity|]. split; [now apply O|].
    split; [now apply (rawDirs_in tmp types dirs t s)|]. unfold tileFile. destruct tile; discriminate. }
  split.
  - intros t s tile dn It Ht Hd. destruct (Ty t s It) as [Nt N0].
    set (a := {| a_bucket := bucket; a_key := d ++ slash :: t ++ slash :: tileFile tile s dn; a_dest := pjoin tmp t; a_name := tileFile tile s dn |}).
    assert (I : In a (List.concat (threads (vsis3 ++ bucket ++ slash :: d ++ [slash]) tmp types tiles dirns))).
    { apply actions; [exact Nb|]. exists t, s, tile, dn. auto. }
    assert (P : pathOf a = withSlash tmp ++ t ++ slash :: tileFile tile s dn).
    { unfold pathOf, a. cbn [a_dest a_name]. apply filePath; auto. apply relative_tile. auto. }
    pose proof (runs_all V _ st val _ fs fs' R (fun a Ha => proj1 (Pa a Ha)) a I) as E. rewrite P in E. rewrite E. unfold val.
    rewrite skipn_app, skipn_all, Nat.sub_diag. reflexivity.
  - intros p Hp. destruct (runs_new V _ st _ fs fs' R p) as [E|(a & I & P & _)]; [exact E|]. exfalso.
    destruct (Pa a I) as (_ & t & s & tile & dn & It & Ht & Hd & E). now apply (Hp t s tile dn It Ht Hd); congruence.
Qed.
Theorem c200_ends : forall V dirs (st : bucketOf V) ts fs, exists fs', runs dirs st ts fs fs'.
Proof. intros. now apply (runs_exist V dirs st (List.length (List.concat ts))). Qed.

(** ** C201 *)
(** A failed download ends its thread only: the files after it are not fetched, and nobody is told *)
Theorem c201_rest_refuted : forall V dirs (st : bucketOf V) a rest fs fs' e,
  fetch dirs st (a_bucket a) (a_key a) (a_dest a) (a_name a) fs = inr e -> runs dirs st [a :: rest] fs fs' -> fs' = fs.
Proof.
  intros V dirs st a rest fs fs' e F R. remember [a :: rest] as ts eqn:E.
  destruct R as [ts fs H|pre a' t post fs fs1 fs2 H R|pre a' t post fs fs2 e' H R].
  - exfalso. subst. specialize (H _ (or_introl eq_refl)). discriminate.
  - destruct pre as [|x [|y pre]]; [|destruct post; discriminate|destruct pre; discriminate]. injection E as -> -> ->. congruence.
  - destruct pre as [|x [|y pre]]; [|destruct post; discriminate|destruct pre; discriminate]. injection E as -> -> ->.
    clear F H. remember ([] ++ [] :: []) as ts eqn:E. destruct R as [ts fs H|pre a' t post fs fs1 fs2 H R|pre a' t post fs fs2 e2 H R]; [reflexivity| |];
    exfalso; destruct pre as [|x [|y pre]]; discriminate.
Qed.
(** A type that is not in the bucket at all: the run goes on with the temporary directory, without a file of it *)
Theorem c201_type_refuted : forall V bucket d tmp types tiles dirns dirs (st : bucketOf V) fs fs' t n,
  noSlash bucket -> tmp <> [] -> (forall t s, In (t, s) types -> noSlash t /\ t <> []) -> (forall tile, In tile tiles -> relative tile) ->
  (forall x, object bucket (d ++ slash :: t ++ slash :: x) st = None) ->
  runs (rawDirs tmp types dirs) st (threads (vsis3 ++ bucket ++ slash :: d ++ [slash]) tmp types tiles dirns) fs fs' ->
  rawSource (vsis3 ++ bucket ++ slash :: d ++ [slash]) tmp = tmp ++ [slash] /\
  look (withSlash tmp ++ t ++ slash :: n) fs' = look (withSlash tmp ++ t ++ slash :: n) fs.
Proof.
  intros V bucket d tmp types tiles dirns dirs st fs fs' t n Nb T Ty Ti O R. split; [reflexivity|].
  destruct (runs_new V _ st _ fs fs' R (withSlash tmp ++ t ++ slash :: n)) as [E|(a & I & P & E & N)]; [exact E|]. exfalso.
  apply actions in I as (t' & s & tile & dn & It & Ht & Hd & ->); [|exact Nb]. destruct (Ty t' s It) as [Nt N0].
  unfold pathOf in P. cbn [a_dest a_name a_bucket a_key] in *. rewrite filePath in P; auto; [|now apply relative_tile; auto].
  apply app_inv_head in P. rewrite P, O in E. congruence.
Qed.
(** The gust file is fetched before the directory is made: a temporary directory named in the settings that is not
    there yet, or such a local working directory, ends the run *)
Theorem c201_order_refuted : forall V fresh w (st : bucketOf V) wd bucket dir f fs,
  noSlash bucket -> noSlash f ->
  (starts_with vsis3 wd = false /\ isDir (wdirs w) wd = false \/
   starts_with vsis3 wd = true /\ exists t, tmpName w = Some t /\ isDir (wdirs w) (withSlash t) = false) ->
  exists w' wd' e, start fresh w st wd (vsis3 ++ bucket ++ slash :: dir ++ slash :: f) fs = (w', wd', fs, inr e) /\ wdirs w' = wdirs w.
Proof.
  intros V fresh w st wd bucket dir f fs Nb Nf H. unfold start, workDir, gustFile.
  replace (starts_with vsis3 (vsis3 ++ bucket ++ slash :: dir ++ slash :: f)) with true by reflexivity.
  unfold download. rewrite (proj1 (c200_segments bucket dir f Nb Nf)). cbn [ofSeg]. unfold fetch.
  destruct H as [(-> & D)|(-> & t & -> & D)]; cbn [wdirs tmpName]; rewrite D; cbn [andb];
    destruct (object bucket (dir ++ slash :: f) st); do 3 eexists; split; reflexivity.
Qed.
(** Paths with too few parts are not reported as invalid *)
Theorem c201_short_refuted : segments [] = SegIndex /\ segments (lit "/vsis3") = SegIndex.
Proof. split; reflexivity. Qed.
(** A gust file given with a slash at the end passes the checks and cannot be stored *)
Theorem c201_slash_refuted : forall V dirs (st : bucketOf V) bucket dir wd fs, noSlash bucket ->
  exists e, download dirs st (vsis3 ++ bucket ++ slash :: dir ++ [slash]) wd fs = (fs, inr e) /\ (e = EClient \/ e = EOs).
Proof.
  intros V dirs st bucket dir wd fs Nb. unfold download.
  rewrite (proj1 (c200_segments bucket dir [] Nb (fun H => H))). cbn [ofSeg]. unfold fetch.
  destruct (object bucket (dir ++ [slash]) st); [|eauto]. cbn [str_eqb negb]. rewrite andb_false_r. eauto.
Qed.
(** No tiles: a message about an unset variable *)
Theorem c201_none_refuted : forall V dirs (st : bucketOf V) bucket d dest fs, noSlash bucket ->
  downloadAll dirs st (vsis3 ++ bucket ++ slash :: d ++ [slash]) dest [] fs = (fs, inr EUnbound).
Proof.
  intros. unfold downloadAll. replace (vsis3 ++ bucket ++ slash :: d ++ [slash]) with ((vsis3 ++ bucket ++ slash :: d) ++ [slash]) by (now rewrite <- !app_assoc).
  rewrite with_end. rewrite <- !app_assoc, <- app_comm_cons. rewrite segments_in by assumption. reflexivity.
Qed.
(** A result that is missing: the results before it are in the bucket, those after it are not *)
Theorem c201_half_refuted : forall V dir bucket d a n b (fs : files V) st, noSlash bucket ->
  (forall x, In x a -> look (pjoin dir x) fs <> None) -> look (pjoin dir n) fs = None ->
  exists st', upload dir (vsis3 ++ bucket ++ slash :: d ++ [slash]) (a ++ n :: b) fs st = (st', Some EOs) /\
    upload dir (vsis3 ++ bucket ++ slash :: d ++ [slash]) a fs st = (st', None).
Proof.
  intros V dir bucket d a n b fs st Nb H L. destruct (c200_upload V dir bucket d a fs st Nb H) as (st' & E & _). exists st'. split; [|exact E].
  unfold upload in *. replace (withSlash (vsis3 ++ bucket ++ slash :: d ++ [slash])) with (vsis3 ++ bucket ++ slash :: d ++ [slash]) in *.
  2:{ replace (vsis3 ++ bucket ++ slash :: d ++ [slash]) with ((vsis3 ++ bucket ++ slash :: d) ++ [slash]) by (now rewrite <- !app_assoc). now rewrite with_end. }
  rewrite segments_in in * by exact Nb. cbn [ofSeg] in *. clear H. revert st E. induction a as [|x a IH]; intros st; cbn [putAll app].
  - intros [= ->]. now rewrite L.
  - destruct (look (pjoin dir x) fs); [|discriminate]. apply IH.
Qed.

(** ** Examples *)
Example c200_segments_met : segments (lit "/vsis3/bucket/multipliers/terrain/a_mz_n.nc") =
  SegOk (lit "bucket") (lit "multipliers/terrain/a_mz_n.nc") (lit "a_mz_n.nc").
Proof. reflexivity. Qed.
Example c200_raw_met : exists fs', runs (rawDirs (lit "/tmp/x") [(lit "terrain", lit "mz")] []) [(lit "b", lit "m/terrain/a_mz_n.nc", 1)]
    (threads (lit "/vsis3/b/m/") (lit "/tmp/x") [(lit "terrain", lit "mz")] [lit "a"] [lit "n"]) [] fs' /\
  look (lit "/tmp/x/terrain/a_mz_n.nc") fs' = Some 1.
Proof.
  eexists. split.
  - eapply (Fetched _ _ _ [] _ [] []); [vm_compute; reflexivity|]. apply AllDone. intros t [<-|[]]. reflexivity.
  - reflexivity.
Qed.
Example c200_gust_met : gustFile [lit "/work"] [(lit "b", lit "g/gust.nc", 7)] (lit "/vsis3/b/g/gust.nc") (lit "/work") [] =
  ([(lit "/work/gust.nc", 7)], inl (lit "/work/gust.nc")).
Proof. reflexivity. Qed.
Example c201_order_met : isDir [] (lit "/data/work/") = false.
Proof. reflexivity. Qed.

Print Assumptions c200_segments.
Print Assumptions c200_sound.
Print Assumptions c200_gust.
Print Assumptions c200_work.
Print Assumptions c200_upload.
Print Assumptions c200_back.
Print Assumptions c200_raw.
Print Assumptions c200_ends.
Print Assumptions c201_rest_refuted.
Print Assumptions c201_type_refuted.
Print Assumptions c201_order_refuted.
Print Assumptions c201_short_refuted.
Print Assumptions c201_slash_refuted.
Print Assumptions c201_none_refuted.
Print Assumptions c201_half_refuted.
