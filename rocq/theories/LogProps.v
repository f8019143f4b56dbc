From Coq Require Import List Arith Bool Ascii String Lia.
From Verif Require Import NamesModel TextModel TextProps LogModel.
Import ListNotations.
Close Scope string_scope. Open Scope nat_scope. Local Open Scope list_scope.

(** What a program says, with levels *)
Definition saying (a : act) : list (nat * msg) :=
  match a with
  | ASay l n => [(l, Said n)]
  | AStart e c => match levelOf (c_level c) with
                  | Some _ => [(20, Started (logName e c) (c_level c)); (20, Running)]
                  | None => []
                  end
  end.
Definition sayings (acts : list act) : list (nat * msg) := flat_map saying acts.
Definition atLeast (level : nat) (l : list (nat * msg)) : list msg := map snd (filter (fun p => level <=? fst p) l).

Lemma str_refl s : str_eqb s s = true.
Proof. now apply str_eqb_iff. Qed.
(** A logger with the file of the first start, and perhaps a console *)
Inductive logging (f : str) (r : nat) : st -> option nat -> Prop :=
| OnFile d sc : logging f r (mk [HFile f] r d sc) None
| OnBoth c d sc : logging f r (mk [HFile f; HConsole c] r d sc) (Some c).
Definition consoleAt (r : nat) (c : option nat) (l : list (nat * msg)) : list msg :=
  match c with Some c => atLeast (Nat.max r c) l | None => [] end.

Lemma say_logging f r s c l m t : logging f r s c -> disk s f = Some t ->
  logging f r (say l m s) c /\ disk (say l m s) f = Some (t ++ atLeast r [(l, m)]) /\
  (forall g, g <> f -> disk (say l m s) g = disk s g) /\ screen (say l m s) = screen s ++ consoleAt r c [(l, m)].
Proof.
  intros L D. unfold say, atLeast, consoleAt, atLeast.
  destruct L as [d sc|c d sc]; cbn [rootLevel handlers disk screen fold_left handle] in *; cbn [filter fst].
  - destruct (r <=? l); cbn [map snd]; rewrite ?app_nil_r.
    + split; [constructor|]. cbn [disk screen]. rewrite str_refl, D. split; [reflexivity|]. split; [|reflexivity].
      intros g N. now rewrite (str_eqb_false g f N).
    + repeat split; auto. constructor.
  - destruct (r <=? l) eqn:R; cbn [map snd]; rewrite ?app_nil_r.
    + cbn [fold_left handle disk handlers rootLevel screen]. replace (Nat.max r c <=? l) with (c <=? l)
        by (apply Nat.leb_le in R; destruct (Nat.leb_spec c l), (Nat.leb_spec (Nat.max r c) l); try reflexivity; lia).
      destruct (c <=? l); cbn [map snd disk screen]; rewrite ?app_nil_r; (split; [constructor|]); cbn [disk screen];
        rewrite str_refl, D; (split; [reflexivity|]); (split; [|reflexivity]); intros g N; now rewrite (str_eqb_false g f N).
    + replace (Nat.max r c <=? l) with false
        by (apply Nat.leb_gt in R; destruct (Nat.leb_spec (Nat.max r c) l); [lia|reflexivity]).
      cbn [map snd]. rewrite app_nil_r. repeat split; auto. constructor.
Qed.
Lemma atLeast_app r a b : atLeast r (a ++ b) = atLeast r a ++ atLeast r b.
Proof. unfold atLeast. now rewrite filter_app, map_app. Qed.
Lemma consoleAt_app r c a b : consoleAt r c (a ++ b) = consoleAt r c a ++ consoleAt r c b.
Proof. destruct c; [apply atLeast_app|reflexivity]. Qed.
Lemma two_logging f r s c l1 m1 l2 m2 t : logging f r s c -> disk s f = Some t ->
  let s' := say l2 m2 (say l1 m1 s) in
  logging f r s' c /\ disk s' f = Some (t ++ atLeast r [(l1, m1); (l2, m2)]) /\
  (forall g, g <> f -> disk s' g = disk s g) /\ screen s' = screen s ++ consoleAt r c [(l1, m1); (l2, m2)].
Proof.
  intros L D s'. destruct (say_logging f r s c l1 m1 t L D) as (L1 & D1 & O1 & S1).
  destruct (say_logging f r _ c l2 m2 _ L1 D1) as (L2 & D2 & O2 & S2). fold s' in L2, D2, O2, S2.
  split; [exact L2|]. change [(l1, m1); (l2, m2)] with ([(l1, m1)] ++ [(l2, m2)]).
  rewrite atLeast_app, consoleAt_app, !app_assoc. split; [exact D2|]. split; [|now rewrite S2, S1].
  intros g N. now rewrite O2, O1.
Qed.

(** * C209 *)
(** The first start opens the file it was given, emptied or not as wanted, and touches no other; it says so there if the
    level lets it *)
Theorem c209_first : forall e c d l, levelOf (c_level c) = Some l -> e_open e (logName e c) = true ->
  exists s, flStartLog e c (fresh d) = (s, None) /\
    logging (logName e c) l s (if c_verbose c then Some l else None) /\
    disk s (logName e c) = Some ((if c_new c then [] else match d (logName e c) with Some t => t | None => [] end) ++
      if l <=? 20 then [Started (logName e c) (c_level c); Running] else []) /\
    forall g, g <> logName e c -> disk s g = d g.
Proof.
  intros e c d l E O. unfold flStartLog. cbv zeta. rewrite E. unfold basicConfig, fresh. cbn [handlers]. rewrite O.
  set (f := logName e c). eexists. split; [reflexivity|]. unfold console. cbn [handlers List.length Nat.ltb Nat.leb andb rootLevel disk screen].
  set (t0 := if c_new c then [] else _).
  set (s1 := if c_verbose c then _ else _).
  assert (L : logging f l s1 (if c_verbose c then Some l else None)) by (unfold s1; destruct (c_verbose c); constructor).
  assert (D : disk s1 f = Some t0) by (unfold s1; destruct (c_verbose c); cbn [disk]; now rewrite str_refl).
  assert (G : forall g, g <> f -> disk s1 g = d g)
    by (intros g N; unfold s1; destruct (c_verbose c); cbn [disk]; now rewrite (str_eqb_false g f N)).
  destruct (two_logging f l s1 _ info (Started f (c_level c)) info Running t0 L D) as (A & B & C & _).
  split; [exact A|]. split; [|intros g N; now rewrite C, G]. rewrite B. do 2 f_equal. unfold atLeast. cbn [filter fst].
  change info with 20. now destruct (l <=? 20).
Qed.
(** From then on, whatever is started again: the file gets every message of the level of the first start, in order and
    once, no other file is touched, and there is at most one console, which shows a part of the same once *)
Theorem c209_always : forall acts f r s c t, logging f r s c -> disk s f = Some t ->
  let s' := run acts s in
  (exists c', logging f r s' c' /\ (c <> None -> c' = c)) /\
  disk s' f = Some (t ++ atLeast r (sayings acts)) /\
  (forall g, g <> f -> disk s' g = disk s g) /\
  (forall k, c = Some k -> screen s' = screen s ++ atLeast (Nat.max r k) (sayings acts)).
Proof.
  induction acts as [|a acts IH]; intros f r s c t L D s'.
  - cbn in s'. subst s'. unfold sayings, atLeast. cbn. rewrite app_nil_r. repeat split; eauto. intros. now rewrite app_nil_r.
  - assert (K : exists c1, logging f r (perform s a) c1 /\ (c <> None -> c1 = c) /\
      disk (perform s a) f = Some (t ++ atLeast r (saying a)) /\ (forall g, g <> f -> disk (perform s a) g = disk s g) /\
      screen (perform s a) = screen s ++ consoleAt r c1 (saying a)).
    { destruct a as [e k|l n]; cbn [perform saying].
      - unfold flStartLog. cbv zeta. destruct (levelOf (c_level k)) as [l|].
        2: { exists c. cbn [fst]. unfold atLeast, consoleAt. cbn. rewrite app_nil_r. repeat split; auto. destruct c; now rewrite app_nil_r. }
        assert (B : basicConfig e (logName e k) l (c_new k) s = (s, None)) by (destruct L; reflexivity). rewrite B. cbn [fst].
        set (s1 := console (c_verbose k) l s).
        assert (exists c1, logging f r s1 c1 /\ (c <> None -> c1 = c) /\ disk s1 = disk s /\ screen s1 = screen s) as (c1 & L1 & C1 & D1 & S1).
        { unfold s1, console. destruct L as [d sc|c d sc]; cbn [handlers List.length].
          - change (1 <? 2) with true. cbn [andb]. destruct (c_verbose k); cbn [handlers rootLevel disk screen app].
            + exists (Some l). repeat split; [constructor|congruence].
            + exists None. repeat split. constructor.
          - change (2 <? 2) with false. cbn [andb]. exists (Some c). repeat split. constructor. }
        destruct (two_logging f r s1 c1 info (Started (logName e k) (c_level k)) info Running t L1) as (A & B1 & C & E); [now rewrite D1|].
        exists c1. repeat split; auto.
        + intros g N. rewrite C by exact N. now rewrite D1.
        + rewrite E, S1. reflexivity.
      - destruct (say_logging f r s c l (Said n) t L D) as (A & B & C & E). exists c. repeat split; auto. }
    destruct K as (c1 & L1 & C1 & D1 & O1 & S1).
    destruct (IH f r (perform s a) c1 _ L1 D1) as ((c' & L' & C') & D' & O' & S'). fold (run acts (perform s a)) in *.
    change (run (a :: acts) s) with (run acts (perform s a)) in s'. fold s' in L', D', O', S'.
    change (sayings (a :: acts)) with (saying a ++ sayings acts). rewrite atLeast_app, app_assoc.
    split; [exists c'; split; [exact L'|intros H; rewrite C'; [apply C1, H|rewrite C1; auto]]|].
    split; [exact D'|]. split; [intros g N; now rewrite O', O1|].
    intros k ->. rewrite atLeast_app, app_assoc. rewrite (S' k) by (apply C1; discriminate). rewrite S1.
    now rewrite (C1 ltac:(discriminate)).
Qed.
(** Without a verbose start there is nothing on the screen *)
Theorem c209_quiet : forall acts f r s, logging f r s None -> (forall e c, In (AStart e c) acts -> c_verbose c = false) ->
  screen (run acts s) = screen s.
Proof.
  induction acts as [|a acts IH]; intros f r s L V; [reflexivity|]. change (run (a :: acts) s) with (run acts (perform s a)).
  assert (K : forall l m s, logging f r s None -> logging f r (say l m s) None /\ screen (say l m s) = screen s).
  { clear. intros l m s L. unfold say. inversion L as [d sc E|]; subst. cbn [rootLevel handlers fold_left handle disk screen].
    destruct (r <=? l); split; constructor. }
  assert (P : logging f r (perform s a) None /\ screen (perform s a) = screen s).
  { destruct a as [e k|l n]; cbn [perform]; [|now apply K]. unfold flStartLog. cbv zeta.
    destruct (levelOf (c_level k)) as [l|]; [|now split].
    assert (B : basicConfig e (logName e k) l (c_new k) s = (s, None)) by (inversion L; reflexivity). rewrite B. cbn [fst].
    assert (C : console (c_verbose k) l s = s) by (unfold console; rewrite (V e k) by (now left); now rewrite andb_false_r). rewrite C.
    destruct (K info (Started (logName e k) (c_level k)) s L) as [L1 S1]. destruct (K info Running _ L1) as [L2 S2].
    split; [exact L2|]. now rewrite S2. }
  destruct P as [L1 S1]. rewrite <- S1. apply (IH f r); [exact L1|]. intros e c H. apply (V e c). now right.
Qed.
(** The date goes before the extension *)
Theorem c209_stamp : forall date dir base ext, ~ In slash base -> ~ In slash ext -> ~ In dot ext ->
  (exists c, In c base /\ c <> dot) ->
  stamped date (dir ++ slash :: base ++ dot :: ext) = dir ++ slash :: base ++ dot :: date ++ dot :: ext.
Proof.
  intros date dir base ext B E1 E2 (c & C1 & C2). unfold stamped, fileName.
  rewrite splitLast_app by (intros H; apply in_app_or in H as [H|[H|H]]; [auto|discriminate H|auto]).
  unfold splitext. rewrite splitLast_app by exact E2. destruct (forallb (Ascii.eqb dot) base) eqn:F.
  - rewrite forallb_forall in F. specialize (F c C1). apply Ascii.eqb_eq in F. congruence.
  - rewrite <- app_assoc. reflexivity.
Qed.
(** Where the directory cannot be made the file of that name in the current one is used *)
Theorem c209_fallback : forall e c, e_usable e (c_file c) = false -> c_stamp c = false ->
  logName e c = pjoin (e_cwd e) (fileName (c_file c)).
Proof. intros e c U S. unfold logName. rewrite S. unfold place. now rewrite U. Qed.

(** * C210, false *)
(** A second start names its file in the log but does not open it, and its level is not used *)
Theorem c210_second_refuted : forall e c s f r k, logging f r s k -> logName e c <> f -> forall t, disk s f = Some t -> r <= 20 ->
  levelOf (c_level c) <> None ->
  exists s', flStartLog e c s = (s', None) /\ disk s' (logName e c) = disk s (logName e c) /\ rootLevel s' = r /\
    disk s' f = Some (t ++ [Started (logName e c) (c_level c); Running]).
Proof.
  intros e c s f r k L N t D R V. destruct (c209_always [AStart e c] f r s k t L D) as ((c' & L' & _) & D' & O' & _).
  change (run [AStart e c] s) with (fst (flStartLog e c s)) in *.
  assert (F : snd (flStartLog e c s) = None).
  { unfold flStartLog. cbv zeta. destruct (levelOf (c_level c)); [|congruence]. now destruct L. }
  destruct (flStartLog e c s) as [s' x]. cbn [fst snd] in *. subst x. exists s'. split; [reflexivity|]. split; [now apply O'|].
  split; [now destruct L'|]. rewrite D'. do 2 f_equal. unfold sayings. cbn [flat_map saying app].
  destruct (levelOf (c_level c)); [|congruence]. unfold atLeast. cbn [app filter fst].
  apply Nat.leb_le in R. now rewrite R.
Qed.
(** With a handler of another library there is no log file at all *)
Theorem c210_other_refuted : forall e c d sc r, levelOf (c_level c) <> None ->
  exists s', flStartLog e c (mk [HOther] r d sc) = (s', None) /\ disk s' = d /\ rootLevel s' = r.
Proof.
  intros e c d sc r V. unfold flStartLog. cbv zeta. destruct (levelOf (c_level c)) as [l|]; [|congruence].
  cbn [basicConfig handlers]. eexists. split; [reflexivity|]. unfold console. cbn [handlers List.length].
  change (1 <? 2) with true. cbn [andb]. destruct (c_verbose c); unfold say; cbn [rootLevel handlers app fold_left handle disk screen];
    (destruct (r <=? info) eqn:R; cbn [rootLevel handlers fold_left handle disk screen]);
    repeat (match goal with |- context [if ?b then _ else _] => destruct b end; cbn [rootLevel handlers fold_left handle disk screen]); auto.
Qed.
(** and with two handlers a verbose start shows nothing *)
Theorem c210_verbose_refuted : forall e c f d r, c_verbose c = true -> levelOf (c_level c) <> None ->
  screen (fst (flStartLog e c (mk [HFile f; HOther] r d []))) = [].
Proof.
  intros e c f d r V H. unfold flStartLog. cbv zeta. destruct (levelOf (c_level c)) as [l|]; [|congruence].
  cbn [basicConfig handlers]. unfold console. cbn [handlers List.length]. change (2 <? 2) with false. cbn [andb fst].
  unfold say. cbn [rootLevel handlers fold_left handle disk screen].
  destruct (r <=? info) eqn:R; cbn [rootLevel handlers fold_left handle disk screen]; rewrite ?R; reflexivity.
Qed.
(** A name without extension ends in a dot *)
Theorem c210_extension_refuted : forall date dir base, ~ In slash base -> ~ In dot base ->
  stamped date (dir ++ slash :: base) = dir ++ slash :: base ++ dot :: date ++ [dot].
Proof.
  intros date dir base B D. unfold stamped, fileName. rewrite splitLast_app by exact B.
  unfold splitext. assert (N : splitLast dot base = None).
  { clear B. induction base as [|x b IH]; [reflexivity|]. cbn. rewrite IH by (intros H; apply D; now right).
    destruct (Ascii.eqb_spec x dot) as [->|]; [|reflexivity]. exfalso. apply D. now left. }
  rewrite N, <- app_assoc. reflexivity.
Qed.
(** Two runs in a minute have the same stamp: the log of the first is lost *)
Theorem c210_minute_refuted : forall e c d s1 acts n, c_stamp c = true -> c_new c = true ->
  flStartLog e c (fresh d) = (s1, None) -> In (ASay 50 n) acts ->
  (exists t, disk (run acts s1) (logName e c) = Some t /\ In (Said n) t) /\
  exists s2 u, flStartLog e c (fresh (disk (run acts s1))) = (s2, None) /\ disk s2 (logName e c) = Some u /\
    forall k, ~ In (Said k) u.
Proof.
  intros e c d s1 acts n _ N E1 I. assert (exists l, levelOf (c_level c) = Some l) as [l L].
  { unfold flStartLog in E1. cbv zeta in E1. destruct (levelOf (c_level c)); [eauto|discriminate]. }
  assert (O : e_open e (logName e c) = true).
  { unfold flStartLog in E1. cbv zeta in E1. rewrite L in E1. cbn [basicConfig handlers fresh] in E1.
    destruct (e_open e (logName e c)); [reflexivity|discriminate]. }
  split.
  - destruct (c209_first e c d l L O) as (s & E & Lg & D & _). rewrite E1 in E. injection E as <-.
    destruct (c209_always acts _ _ _ _ _ Lg D) as (_ & D' & _). eexists. split; [exact D'|]. apply in_or_app. right.
    unfold atLeast. apply in_map_iff. exists (50, Said n). split; [reflexivity|]. apply filter_In. split.
    + unfold sayings. apply in_flat_map. exists (ASay 50 n). split; [exact I|now left].
    + apply Nat.leb_le. cbn [fst]. clear -L. unfold levelOf in L.
      repeat match type of L with context [if ?b then _ else _] => destruct b end; injection L as <- || discriminate L; lia.
  - destruct (c209_first e c (disk (run acts s1)) l L O) as (s & E & _ & D & _). rewrite N in D.
    exists s. eexists. split; [exact E|]. split; [exact D|]. cbn [app]. intros k H.
    destruct (l <=? 20); cbn in H; [destruct H as [H|[H|H]]; try discriminate H|]; exact H.
Qed.

Definition somewhere : env := mkEnv (lit "202601010000") (fun _ => true) (lit "/tmp") (fun _ => true).
Definition plain : call := mkCall (lit "/log/tcrm.log") (lit "INFO") true true true.
Example c209_example : exists s, flStartLog somewhere plain (fresh (fun _ => None)) = (s, None) /\
  disk (run [ASay 10 1; ASay 30 2] s) (lit "/log/tcrm.202601010000.log") =
    Some [Started (lit "/log/tcrm.202601010000.log") (lit "INFO"); Running; Said 2] /\
  List.length (screen (run [ASay 10 1; ASay 30 2] s)) = 3.
Proof. eexists. split; [reflexivity|]. split; reflexivity. Qed.
Print Assumptions c209_first.
Print Assumptions c209_always.
Print Assumptions c209_quiet.
Print Assumptions c209_stamp.
Print Assumptions c209_fallback.
Print Assumptions c210_second_refuted.
Print Assumptions c210_other_refuted.
Print Assumptions c210_verbose_refuted.
Print Assumptions c210_extension_refuted.
Print Assumptions c210_minute_refuted.
