(** C160, C161: template files and the archive of processed files. *)
From Coq Require Import List Arith Bool Ascii String Lia Permutation.
From Verif Require Import NamesModel TextModel.
Import ListNotations.
Open Scope nat_scope.
Local Open Scope list_scope.

(** * Templates *)
(** A line of a template: text and placeholders. *)
Inductive piece := Lit (t : str) | Ref (k : str).
Definition render1 (p : piece) : str := match p with Lit t => t | Ref k => opening :: k ++ [closing] end.
Definition render (ps : list piece) : str := flat_map render1 ps.
Definition ok_piece (p : piece) : Prop :=
  match p with Lit t => ~ In opening t | Ref k => ~ In opening k /\ ~ In closing k end.
Fixpoint value_of (r : list (str * str)) (k : str) : option str :=
  match r with [] => None | (k', v) :: t => if list_eq_dec ascii_dec k k' then Some v else value_of t k end.
Definition fill (r : list (str * str)) (p : piece) : piece :=
  match p with Lit t => Lit t | Ref k => match value_of r k with Some v => Lit v | None => Ref k end end.
(** names that can be used for a placeholder, and texts that can be filled in *)
Definition usable (kv : str * str) : Prop :=
  ~ In opening (fst kv) /\ ~ In closing (fst kv) /\ (fst kv = [] \/ repetition (fst kv) = false) /\
  ~ In backslash (snd kv) /\ ~ In opening (snd kv).

Lemma expand_plain v : ~ In backslash v -> expand v = Some v.
Proof.
  induction v as [|c v IH]; intros H; [reflexivity|]. cbn. destruct (Ascii.eqb c backslash) eqn:E.
  - apply Ascii.eqb_eq in E. subst. exfalso. apply H. now left.
  - rewrite IH; [reflexivity|]. intros I. apply H. now right.
Qed.
Lemma sub_skip pat val a b : sub pat val (List.length a) (a ++ b) = sub pat val 0 b.
Proof. induction a as [|x a IH]; [reflexivity|]. cbn. exact IH. Qed.
Lemma sub_plain p val a b : ~ In opening a -> sub (opening :: p) val 0 (a ++ b) = a ++ sub (opening :: p) val 0 b.
Proof.
  induction a as [|x a IH]; intros H; [reflexivity|]. cbn [app sub after]. destruct (Ascii.eqb opening x) eqn:E.
  - apply Ascii.eqb_eq in E. subst. exfalso. apply H. now left.
  - f_equal. apply IH. intros I. apply H. now right.
Qed.
Lemma after_self p s : after p (p ++ s) = Some s.
Proof. induction p as [|x p IH]; [reflexivity|]. cbn. now rewrite Ascii.eqb_refl. Qed.
Lemma after_other key : forall k s, ~ In closing key -> ~ In closing k -> k <> key -> after (key ++ [closing]) (k ++ closing :: s) = None.
Proof.
  induction key as [|x key IH]; intros k s Hx Hk N.
  - destruct k as [|y k]; [congruence|]. cbn [after app]. destruct (Ascii.eqb closing y) eqn:E; [|reflexivity]. apply Ascii.eqb_eq in E. subst. exfalso. apply Hk. now left.
  - destruct k as [|y k]; cbn [after app].
    + destruct (Ascii.eqb x closing) eqn:E; [|reflexivity]. apply Ascii.eqb_eq in E. subst. exfalso. apply Hx. now left.
    + destruct (Ascii.eqb x y) eqn:E; [|reflexivity]. apply Ascii.eqb_eq in E. subst. apply IH; [intros I; apply Hx; now right | intros I; apply Hk; now right | congruence].
Qed.
Definition step (key val : str) (p : piece) : piece :=
  match p with Lit t => Lit t | Ref k => if list_eq_dec ascii_dec k key then Lit val else Ref k end.
Lemma sub_render key val ps : ~ In closing key -> Forall ok_piece ps ->
  sub (opening :: key ++ [closing]) val 0 (render ps) = render (map (step key val) ps).
Proof.
  intros Hk F. induction F as [|p ps P F IH]; [reflexivity|]. cbn [map render flat_map]. fold (render ps). fold (render (map (step key val) ps)).
  destruct p as [t|k]; cbn [render1 step].
  - rewrite sub_plain by exact P. now rewrite IH.
  - destruct P as [P1 P2]. destruct (list_eq_dec ascii_dec k key) as [->|N].
    + cbn [render1]. set (pat := opening :: key ++ [closing]). change (sub pat val 0 (opening :: ((key ++ [closing]) ++ render ps)) = val ++ render (map (step key val) ps)).
      cbn [sub]. change (opening :: (key ++ [closing]) ++ render ps) with (pat ++ render ps). rewrite after_self. f_equal.
      replace (List.length pat - 1) with (List.length (key ++ [closing])) by (unfold pat; cbn; lia). rewrite sub_skip. exact IH.
    + cbn [render1]. assert (A : after (opening :: key ++ [closing]) (opening :: (k ++ [closing]) ++ render ps) = None).
      { cbn [after]. rewrite Ascii.eqb_refl, <- app_assoc. apply after_other; assumption. }
      change ((opening :: k ++ [closing]) ++ render ps) with (opening :: (k ++ [closing]) ++ render ps). cbn [sub]. rewrite A.
      rewrite sub_plain. 2:{ intros I. apply in_app_or in I. destruct I as [I|[I|[]]]; [contradiction | discriminate I]. }
      rewrite IH. reflexivity.
Qed.
Lemma pattern_usable kv : usable kv -> pattern (fst kv) = Some (opening :: fst kv ++ [closing]).
Proof. intros (_ & _ & H & _). unfold pattern. destruct (fst kv) as [|c k]; [reflexivity|]. destruct H as [H|H]; [discriminate | now rewrite H]. Qed.
Lemma line_filled r : Forall usable r -> forall ps, Forall ok_piece ps -> replaceLine r (render ps) = Some (render (map (fill r) ps)).
Proof.
  induction r as [|kv r IH]; intros U ps P.
  - cbn. f_equal. f_equal. induction ps as [|p ps IHp]; [reflexivity|]. cbn. inversion P; subst. rewrite <- IHp by assumption. now destruct p.
  - inversion U as [|? ? U1 U2]; subst. cbn [replaceLine]. unfold subKey. rewrite (pattern_usable kv U1). destruct kv as [k v]. destruct U1 as (K1 & K2 & _ & V1 & V2). cbn [fst snd] in *.
    rewrite expand_plain by exact V1. rewrite sub_render by assumption. rewrite IH; [|exact U2|].
    + f_equal. f_equal. rewrite map_map. apply map_ext. intros [t|k']; cbn; [reflexivity|]. destruct (list_eq_dec ascii_dec k' k); reflexivity.
    + rewrite Forall_forall in *. intros q Hq. apply in_map_iff in Hq. destruct Hq as ([t|k'] & <- & I); cbn.
      * apply (P _ I).
      * destruct (list_eq_dec ascii_dec k' k); [exact V2 | apply (P _ I)].
Qed.
(** C160: every placeholder with a given value is replaced by it, once, and all other text is kept. *)
Theorem c160_template : forall r lines, Forall usable r -> Forall (Forall ok_piece) lines ->
  replaceFile r (map render lines) = Some (map (fun ps => render (map (fill r) ps)) lines).
Proof.
  intros r lines U L. induction L as [|ps lines P L IH]; [reflexivity|]. cbn. rewrite (line_filled r U ps P), IH. reflexivity.
Qed.
Print Assumptions c160_template.
Lemma value_perm r r' k : Permutation r r' -> NoDup (map fst r) -> value_of r k = value_of r' k.
Proof.
  intros P. induction P as [|[a v] r r' P IH|[a v] [b w] r|r1 r2 r3 P1 IH1 P2 IH2]; intros N; cbn.
  - reflexivity.
  - inversion N; subst. now rewrite IH.
  - destruct (list_eq_dec ascii_dec k b), (list_eq_dec ascii_dec k a); try reflexivity. subst. inversion N; subst. exfalso. apply H1. now left.
  - rewrite IH1 by exact N. apply IH2. eapply Permutation_NoDup; [apply Permutation_map, P1 | exact N].
Qed.
(** The order in which the values are listed does not matter. *)
Theorem c160_template_order : forall r r' lines, Permutation r r' -> NoDup (map fst r) -> Forall usable r -> Forall (Forall ok_piece) lines ->
  replaceFile r (map render lines) = replaceFile r' (map render lines).
Proof.
  intros r r' lines P N U L. assert (U' : Forall usable r') by (rewrite Forall_forall in *; intros x I; apply U; eapply Permutation_in; [symmetry; exact P | exact I]).
  rewrite (c160_template r lines U L), (c160_template r' lines U' L). f_equal. apply map_ext. intros ps. f_equal. apply map_ext.
  intros [t|k]; cbn; [reflexivity|]. now rewrite (value_perm r r' k P N).
Qed.
Print Assumptions c160_template_order.
Example c160_template_example : replaceFile [(lit "PATH", lit "/foo/baz"); (lit "N", lit "3")] [lit "Input = {PATH}/{N}.{X}"] = Some [lit "Input = /foo/baz/3.{X}"].
Proof. reflexivity. Qed.

(** * Archive *)
Lemma str_eqb_iff a b : str_eqb a b = true <-> a = b.
Proof.
  revert b. induction a as [|x a IH]; intros [|y b]; cbn; split; try congruence; try reflexivity; intros H.
  - apply andb_true_iff in H. destruct H as [H1 H2]. apply Ascii.eqb_eq in H1. apply IH in H2. now subst.
  - injection H as -> H. rewrite Ascii.eqb_refl. now apply IH.
Qed.
Lemma str_eqb_false a b : a <> b -> str_eqb a b = false.
Proof. intros H. destruct (str_eqb a b) eqn:E; [apply str_eqb_iff in E; contradiction | reflexivity]. Qed.
Lemma put_same {A T} (d : @fs A T) p v : put d p v p = v.
Proof. unfold put. now rewrite (proj2 (str_eqb_iff p p) eq_refl). Qed.
Lemma put_other {A T} (d : @fs A T) p v x : x <> p -> put d p v x = d x.
Proof. intros H. unfold put. now rewrite str_eqb_false. Qed.
(** the name a file gets in the archive *)
Definition target {T} (stamp : str -> T -> str) (s : arch) (f : str) (t : T) : str :=
  archiveName s f (if timestamp s then stamp (datefmt s) t else []).
Lemma archive_eq {A T} stamp allowed (s : arch) f (d : @fs A T) v : d f = Some v ->
  pArchiveFile stamp allowed true s f d = (let '(d', rc) := pMoveFile allowed f (target stamp s f (snd v)) d in (d', Done rc)).
Proof.
  intros H. unfold pArchiveFile, target. replace (match archdir s with [] => true | _ => true end) with true by (destruct (archdir s); reflexivity). cbn [negb].
  rewrite H. destruct (timestamp s); reflexivity.
Qed.
(** A file that is archived disappears from its place and is found unchanged under its archive name; all other files
    stay as they are.  If it cannot be moved nothing changes. *)
Theorem c160_archive : forall A T (stamp : str -> T -> str) allowed (s : arch) f (d : @fs A T) v, d f = Some v ->
  let a := target stamp s f (snd v) in
  let '(d', o) := pArchiveFile stamp allowed true s f d in
  (o = Done 1 /\ d' a = Some v /\ (f <> a -> d' f = None) /\ forall x, x <> f -> x <> a -> d' x = d x) \/
  (o = Done 0 /\ d' = d /\ allowed f a = false).
Proof.
  intros A T stamp allowed s f d v H a. rewrite (archive_eq stamp allowed s f d v H). fold a. unfold pMoveFile. rewrite H.
  destruct (allowed f a) eqn:E; [left | right; auto]. split; [reflexivity|]. split; [apply put_same|]. split.
  - intros N. rewrite put_other by exact N. apply put_same.
  - intros x X1 X2. rewrite !put_other by assumption. reflexivity.
Qed.
Print Assumptions c160_archive.
Lemma splitLast_app c a b : ~ In c b -> splitLast c (a ++ c :: b) = Some (a, b).
Proof.
  intros H. assert (N : splitLast c b = None).
  { clear -H. induction b as [|x b IH]; [reflexivity|]. cbn. rewrite IH by (intros I; apply H; now right). destruct (Ascii.eqb x c) eqn:E; [|reflexivity].
    apply Ascii.eqb_eq in E. subst. exfalso. apply H. now left. }
  induction a as [|x a IH]; cbn.
  - rewrite N, Ascii.eqb_refl. reflexivity.
  - now rewrite IH.
Qed.
Lemma splitLast_none c b : ~ In c b -> splitLast c b = None.
Proof.
  intros H. induction b as [|x b IH]; [reflexivity|]. cbn. rewrite IH by (intros I; apply H; now right). destruct (Ascii.eqb x c) eqn:E; [|reflexivity].
  apply Ascii.eqb_eq in E. subst. exfalso. apply H. now left.
Qed.
Lemma splitLast_spec c s a b : splitLast c s = Some (a, b) -> s = a ++ c :: b /\ ~ In c b.
Proof.
  revert a b. induction s as [|x s IH]; intros a b H; [discriminate|]. cbn in H. destruct (splitLast c s) as [[a' b']|] eqn:E.
  - injection H as <- <-. destruct (IH a' b' eq_refl) as [-> N]. split; [reflexivity | exact N].
  - destruct (Ascii.eqb x c) eqn:X; [|discriminate]. injection H as <- <-. apply Ascii.eqb_eq in X. subst. split; [reflexivity|].
    clear -E. induction s as [|y s IH]; [intros []|]. cbn in E. destruct (splitLast c s) as [[? ?]|]; [discriminate|]. destruct (Ascii.eqb y c) eqn:Y; [discriminate|].
    apply Ascii.eqb_neq in Y. intros [I|I]; [congruence | now apply IH].
Qed.
(** The archive name: the name of the file with the time of its last change before the extension. *)
Theorem c160_name : forall s dir base ext date, timestamp s = true ->
  ~ In slash base -> ~ In slash ext -> ~ In dot ext -> (exists c, In c base /\ c <> dot) ->
  archiveName s (dir ++ slash :: base ++ dot :: ext) date = pjoin (archdir s) (base ++ dot :: date ++ dot :: ext).
Proof.
  intros s dir base ext date Ts B1 E1 E2 (c & C1 & C2). unfold archiveName, fileName.
  rewrite splitLast_app. 2:{ intros I. apply in_app_or in I. destruct I as [I|[I|I]]; [contradiction | discriminate I | contradiction]. }
  unfold splitext. rewrite splitLast_app by exact E2. destruct (forallb (Ascii.eqb dot) base) eqn:F.
  - rewrite forallb_forall in F. specialize (F c C1). apply Ascii.eqb_eq in F. congruence.
  - now rewrite Ts.
Qed.
Print Assumptions c160_name.
Lemma pjoin_inj d a b : pjoin d a = pjoin d b -> a = b.
Proof.
  unfold pjoin. destruct d as [|x d]; [auto|]. destruct (Ascii.eqb _ _); intros H.
  - apply app_inv_head in H. exact H.
  - apply app_inv_head in H. now injection H.
Qed.
Lemma splitext_nodot f : ~ In dot (snd (splitext f)).
Proof.
  unfold splitext. destruct (splitLast dot f) as [[b e]|] eqn:E; [|intros []]. destruct (forallb _ b); [intros []|]. cbn. apply splitLast_spec in E. apply E.
Qed.
(** Two files share an archive name only if their names agree up to the extension and they were changed at the same
    (formatted) time. *)
Theorem c160_distinct : forall s f g d1 d2, timestamp s = true -> ~ In dot d1 -> ~ In dot d2 ->
  archiveName s f d1 = archiveName s g d2 -> splitext (fileName f) = splitext (fileName g) /\ d1 = d2.
Proof.
  intros s f g d1 d2 Ts D1 D2 H. unfold archiveName in H. rewrite Ts in H.
  pose proof (splitext_nodot (fileName f)) as N1. pose proof (splitext_nodot (fileName g)) as N2.
  destruct (splitext (fileName f)) as [b1 e1], (splitext (fileName g)) as [b2 e2]. cbn [snd] in N1, N2. apply pjoin_inj in H.
  assert (S1 := splitLast_app dot (b1 ++ dot :: d1) e1 N1). assert (S2 := splitLast_app dot (b2 ++ dot :: d2) e2 N2).
  rewrite <- app_assoc in S1, S2. cbn in S1, S2. change (dot :: d1 ++ dot :: e1) with (dot :: (d1 ++ dot :: e1)) in S1.
  rewrite H in S1. rewrite S2 in S1. injection S1 as E1 E2.
  assert (T1 := splitLast_app dot b1 d1 D1). assert (T2 := splitLast_app dot b2 d2 D2). rewrite E1 in T2. rewrite T1 in T2. injection T2 as -> ->. subst. auto.
Qed.
Print Assumptions c160_distinct.
(** Archiving any number of files with different archive names loses nothing. *)
Theorem c160_batch : forall A T (stamp : str -> T -> str) allowed (s : arch) (dst : str -> str), (forall x y, allowed x y = true) ->
  forall files (d : @fs A T), NoDup files ->
  (forall f, In f files -> exists v, d f = Some v /\ dst f = target stamp s f (snd v)) ->
  (forall f g, In f files -> In g files -> dst f = dst g -> f = g) -> (forall f g, In f files -> In g files -> dst f <> g) ->
  let d' := archiveAll stamp allowed s files d in
  (forall f, In f files -> d' (dst f) = d f /\ d' f = None) /\
  (forall x, ~ In x files -> (forall f, In f files -> x <> dst f) -> d' x = d x).
Proof.
  intros A T stamp allowed s dst Al files. induction files as [|f files IH]; intros d N P I C; cbn [archiveAll].
  - split; [intros ? []|]. reflexivity.
  - inversion N as [|? ? N1 N2]; subst. destruct (P f (or_introl eq_refl)) as (v & V1 & V2).
    set (d1 := fst (pArchiveFile stamp allowed true s f d)).
    assert (E : d1 = put (put d f None) (dst f) (Some v)).
    { unfold d1. rewrite (archive_eq stamp allowed s f d v V1), <- V2. unfold pMoveFile. now rewrite V1, Al. }
    assert (Q : forall g, In g files -> d1 g = d g).
    { intros g G. rewrite E. rewrite put_other by (intros X; apply (C f g (or_introl eq_refl) (or_intror G)); congruence). apply put_other. intros ->. contradiction. }
    destruct (IH d1 N2) as [H1 H2].
    + intros g G. destruct (P g (or_intror G)) as (w & W1 & W2). exists w. rewrite (Q g G). auto.
    + intros g h G H. apply I; now right.
    + intros g h G H. apply C; now right.
    + split.
      * intros g [<-|G].
        -- split.
           ++ rewrite H2.
              ** rewrite E, put_same. now rewrite V1.
              ** intros X. apply (C f (dst f) (or_introl eq_refl) (or_intror X)). reflexivity.
              ** intros g G X. assert (f = g) by (apply I; [now left | now right | exact X]). now subst.
           ++ rewrite H2.
              ** rewrite E. rewrite put_other by (intros X; apply (C f f (or_introl eq_refl) (or_introl eq_refl)); congruence). apply put_same.
              ** exact N1.
              ** intros g G X. apply (C g f (or_intror G) (or_introl eq_refl)). congruence.
        -- destruct (H1 g G) as [X Y]. split; [now rewrite X, Q | exact Y].
      * intros x X Y. rewrite H2.
        -- rewrite E. rewrite put_other by (apply Y; now left). apply put_other. intros ->. apply X. now left.
        -- intros Z. apply X. now right.
        -- intros g G. apply Y. now right.
Qed.
Print Assumptions c160_batch.
Example c160_batch_example : let stamp := fun (_ : str) (t : nat) => padded 3 t in
  let d : @fs nat nat := put (put (fun _ => None) (lit "in/a.txt") (Some (7, 1))) (lit "in/b.txt") (Some (8, 1)) in
  let s := fst (pArchiveDir true (lit "/old") initial) in
  archiveAll stamp (fun _ _ => true) s [lit "in/a.txt"; lit "in/b.txt"] d (lit "/old/b.001.txt") = Some (8, 1).
Proof. reflexivity. Qed.

(** * C161: refutations *)
(** Two files of one name changed within the same minute: the first is lost. *)
Theorem c161_same_name_refuted : exists (stamp : str -> nat -> str) (d : @fs nat nat) files,
  NoDup files /\ (forall f, In f files -> d f <> None) /\
  exists f v, In f files /\ d f = Some v /\ forall x, archiveAll stamp (fun _ _ => true) initial files d x <> Some v.
Proof.
  exists (fun _ t => padded 3 (t / 60)), (put (put (fun _ => None) (lit "a/x.txt") (Some (7, 10))) (lit "b/x.txt") (Some (8, 20))), [lit "a/x.txt"; lit "b/x.txt"].
  split; [repeat constructor; cbn; intuition discriminate|]. split.
  - intros f [<-|[<-|[]]]; discriminate.
  - exists (lit "a/x.txt"), (7, 10). split; [now left|]. split; [reflexivity|]. intros x H.
    set (n := lit "x.000.txt").
    assert (E : forall y, archiveAll (fun _ t => padded 3 (t / 60)) (fun _ _ => true) initial [lit "a/x.txt"; lit "b/x.txt"]
       (put (put (fun _ => None) (lit "a/x.txt") (Some (7, 10))) (lit "b/x.txt") (Some (8, 20))) y
       = put (put (put (put (put (put (fun _ => None) (lit "a/x.txt") (Some (7, 10))) (lit "b/x.txt") (Some (8, 20))) (lit "a/x.txt") None) n (Some (7, 10))) (lit "b/x.txt") None) n (Some (8, 20)) y) by (intros; reflexivity).
    rewrite E in H. clear E. unfold put in H. repeat match type of H with context [str_eqb x ?y] => destruct (str_eqb x y) end; discriminate H.
Qed.
Print Assumptions c161_same_name_refuted.
(** The time stamps cannot be switched off: neither call changes the flag from true. *)
Theorem c161_timestamp_refuted : forall s flags, timestamp s = true ->
  timestamp (fold_left (fun s t => fst (pArchiveTimestamp t s)) flags s) = true.
Proof.
  intros s flags. revert s. induction flags as [|b flags IH]; intros s H; [exact H|]. cbn. apply IH. destruct b; [reflexivity | exact H].
Qed.
Print Assumptions c161_timestamp_refuted.
(** Without an archive directory the file is renamed into the current directory instead of being left alone. *)
Theorem c161_no_directory_refuted : forall A T (stamp : str -> T -> str) (d : @fs A T) v cancreate, d (lit "data/x.txt") = Some v ->
  let '(d', o) := pArchiveFile stamp (fun _ _ => true) cancreate initial (lit "data/x.txt") d in
  o = Done 1 /\ d' (lit "x." ++ stamp (lit "%Y%m%d%H%M") (snd v) ++ lit ".txt") = Some v.
Proof.
  intros A T stamp d v cc H. unfold pArchiveFile. cbn [archdir initial negb timestamp datefmt]. rewrite H. unfold pMoveFile. rewrite H. split; [reflexivity|].
  apply put_same.
Qed.
Print Assumptions c161_no_directory_refuted.
(** An archive directory that cannot be made is not reported as documented. *)
Theorem c161_report_refuted : forall A T (stamp : str -> T -> str) allowed s f (d : @fs A T), archdir s <> [] ->
  pArchiveFile stamp allowed false s f d = (d, Broken).
Proof. intros A T stamp allowed s f d H. unfold pArchiveFile. destruct (archdir s); [congruence | reflexivity]. Qed.
Print Assumptions c161_report_refuted.
(** Values that themselves contain a placeholder depend on the order of the values, *)
Theorem c161_nested_refuted : exists r r' line, Permutation r r' /\ NoDup (map fst r) /\ replaceLine r line <> replaceLine r' line.
Proof.
  exists [(lit "a", lit "{b}"); (lit "b", lit "x")], [(lit "b", lit "x"); (lit "a", lit "{b}")], (lit "{a}").
  split; [apply perm_swap|]. split; [repeat constructor; cbn; intuition discriminate|]. discriminate.
Qed.
Print Assumptions c161_nested_refuted.
(** paths with backslashes are altered or refused, *)
Theorem c161_backslash_refuted :
  replaceLine [(lit "P", lit "C:\new")] (lit "{P}") = Some (lit "C:" ++ "010"%char :: lit "ew") /\
  replaceLine [(lit "P", lit "C:\data")] (lit "{P}") = None.
Proof. split; reflexivity. Qed.
Print Assumptions c161_backslash_refuted.
(** and numbered placeholders are errors, on every line. *)
Theorem c161_number_refuted : forall v line, replaceLine [(lit "1", v)] line = None.
Proof. reflexivity. Qed.
Print Assumptions c161_number_refuted.
