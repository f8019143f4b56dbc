From Coq Require Import List Arith ZArith Lia Bool Ascii String.
From Verif Require Import UtilModel UtilProofs.
Import ListNotations.
Open Scope string_scope.

(** * Configuration *)
(** RawConfigParser refuses a file with a repeated section or option. *)
Definition wellFormed (c : content) : Prop :=
  NoDup (map fst c) /\ forall sec opts, In (sec, opts) c -> NoDup (map (fun p => lower (fst p)) opts).

(** The file gives option [o] of section [sec] the text [v]. *)
Definition gives (c : content) (sec o v : string) : Prop :=
  exists opts o', In (sec, opts) c /\ In (o', v) opts /\ lower o' = lower o.

Lemma fold_putOpt_notin opts : forall d k, ~ In k (map (fun p => lower (fst p)) opts) ->
  fold_left putOpt opts d k = d k.
Proof.
  induction opts as [|p opts IH]; intros d k N; cbn [fold_left]; [auto|].
  rewrite IH by (cbn in N; tauto). unfold putOpt. apply dput_other. cbn in N. intuition.
Qed.

Lemma fold_putOpt_in opts o v : NoDup (map (fun p => lower (fst p)) opts) -> In (o, v) opts ->
  forall d, fold_left putOpt opts d (lower o) = Some (VStr v).
Proof.
  induction opts as [|p opts IH]; intros N H d; [contradiction|]. inversion N as [|? ? N1 N2]; subst.
  cbn [fold_left]. destruct H as [->|H].
  - rewrite fold_putOpt_notin by exact N1. unfold putOpt. apply dput_same.
  - now apply IH.
Qed.

Lemma merge_sec_notin c : forall g sec, ~ In sec (map fst c) -> merge g c sec = g sec.
Proof.
  induction c as [|x c IH]; intros g sec N; [reflexivity|]. unfold merge in *. cbn [fold_left].
  rewrite IH by (cbn in N; tauto). unfold putSec. apply dput_other. cbn in N. intuition.
Qed.

Lemma merge_sec_in c sec opts : NoDup (map fst c) -> In (sec, opts) c -> forall g,
  merge g c sec = Some (fold_left putOpt opts (match g sec with Some d => d | None => dempty end)).
Proof.
  induction c as [|x c IH]; intros N H g; [contradiction|]. inversion N as [|? ? N1 N2]; subst.
  unfold merge in *. cbn [fold_left]. destruct H as [->|H].
  - fold (merge (putSec g (sec, opts)) c). rewrite merge_sec_notin by exact N1.
    unfold putSec. cbn [fst snd]. apply dput_same.
  - rewrite IH by auto. unfold putSec. rewrite dput_other; auto.
    intros ->. apply N1. change (fst x) with (fst x). apply in_map_iff. exists (fst x, opts). auto.
Qed.

Lemma get_given g c b sec o v : wellFormed c -> gives c sec o v ->
  cfgGet (mkCfg (merge g c) b) sec o = COk (VStr v).
Proof.
  intros [W1 W2] (opts & o' & H1 & H2 & H3). unfold cfgGet. cbn [secs].
  rewrite (merge_sec_in c sec opts W1 H1), <- H3.
  rewrite (fold_putOpt_in opts o' v); auto. eapply W2; eauto.
Qed.

Lemma get_not_given g c b b' sec o w : wellFormed c -> (forall v, ~ gives c sec o v) ->
  cfgGet (mkCfg (merge g c) b) sec o = COk w <-> cfgGet (mkCfg g b') sec o = COk w.
Proof.
  intros [W1 W2] N. unfold cfgGet. cbn [secs].
  destruct (in_dec string_dec sec (map fst c)) as [Hin|Hin].
  - apply in_map_iff in Hin as ([sec' opts] & E & Hin). cbn in E. subst sec'.
    rewrite (merge_sec_in c sec opts W1 Hin).
    rewrite fold_putOpt_notin.
    + destruct (g sec); [reflexivity|]. cbn. split; discriminate.
    + intros H. apply in_map_iff in H as ([o' v] & E1 & E2). apply (N v). exists opts, o'. auto.
  - now rewrite merge_sec_notin.
Qed.

Lemma read_first files s n c : readonce s = false -> files n = Some c ->
  cfgRead files s (Some n) = (mkCfg (merge (secs s) c) true, COk tt).
Proof. intros H1 H2. unfold cfgRead. now rewrite H1, H2. Qed.

Lemma do_set_once files s sec o v : readonce (cfgDo files s (CSet sec o v)) = readonce s.
Proof. cbn. unfold cfgSet. now destruct (secs s sec). Qed.

Definition isSet (o : cop) : bool := match o with CSet _ _ _ => true | _ => false end.

Lemma reads_ignored files os : forall s, readonce s = true ->
  cfgRun files s os = cfgRun files s (filter isSet os).
Proof.
  induction os as [|o os IH]; intros s H; [reflexivity|]. unfold cfgRun in *.
  destruct o as [n|sec o v]; cbn [filter isSet fold_left].
  - replace (cfgDo files s (CRead n)) with s; [now apply IH|].
    cbn. unfold cfgRead. destruct n; [|reflexivity]. now rewrite H.
  - apply IH. now rewrite do_set_once.
Qed.

Lemma set_get s sec o v o' : secs s sec <> None -> lower o' = lower o ->
  snd (cfgSet s sec o v) = COk tt /\
  cfgGet (fst (cfgSet s sec o v)) sec o' = COk (formatted sec o v).
Proof.
  intros H E. unfold cfgSet. destruct (secs s sec); [|congruence]. cbn [fst snd]. split; [reflexivity|].
  unfold cfgGet. cbn [secs]. rewrite dput_same, E, dput_same. reflexivity.
Qed.

Lemma set_other s sec o v sec' o' : (sec', lower o') <> (sec, lower o) ->
  cfgGet (fst (cfgSet s sec o v)) sec' o' = cfgGet s sec' o'.
Proof.
  intros N. unfold cfgSet. destruct (secs s sec) as [d|] eqn:E; [|reflexivity]. cbn [fst].
  unfold cfgGet. cbn [secs]. destruct (String.eqb_spec sec' sec) as [->|Ns].
  - rewrite dput_same, dput_other by congruence. now rewrite E.
  - now rewrite dput_other.
Qed.

(** A value set after the first read stays until the same option is set again. *)
Definition sets (sec o : string) (op : cop) : Prop :=
  match op with CSet sec' o' _ => (sec', lower o') = (sec, lower o) | CRead _ => False end.

Lemma run_keeps files os sec o : Forall (fun op => ~ sets sec o op) os -> forall s, readonce s = true ->
  cfgGet (cfgRun files s os) sec o = cfgGet s sec o.
Proof.
  unfold cfgRun. induction 1 as [|op os H _ IH]; intros s Hr; cbn [fold_left]; [auto|].
  destruct op as [n|sec' o' v].
  - replace (cfgDo files s (CRead n)) with s; [now apply IH|].
    cbn. unfold cfgRead. destruct n; [|reflexivity]. now rewrite Hr.
  - rewrite IH by now rewrite do_set_once. cbn [cfgDo]. apply set_other. cbn in H. congruence.
Qed.

Lemma set_persists files s os sec o v : readonce s = true -> secs s sec <> None ->
  Forall (fun op => ~ sets sec o op) os ->
  cfgGet (cfgRun files s (CSet sec o v :: os)) sec o = COk (formatted sec o v).
Proof.
  intros Hr Hs H. unfold cfgRun. cbn [fold_left]. fold (cfgRun files (cfgDo files s (CSet sec o v)) os).
  rewrite run_keeps; auto; [|now rewrite do_set_once]. cbn [cfgDo]. now apply set_get.
Qed.

Lemma formatted_id sec o v : sec ++ "_" ++ o <> "Input_mslpgrid" -> sec ++ "_" ++ o <> "TCRM_columns" ->
  formatted sec o v = v.
Proof.
  intros H1 H2. unfold formatted. apply String.eqb_neq in H1, H2. now rewrite H1, H2.
Qed.

(** * Lists and booleans *)
Lemma parse_format l : l <> [] -> Forall (fun s => occurs comma s = false) l ->
  parseList (formatList l) = l.
Proof. apply split_join. Qed.

Lemma format_parse s : formatList (parseList s) = s.
Proof. apply join_split. Qed.

Lemma format_inj_fail l : l = [] \/ Exists (fun s => occurs comma s = true) l ->
  parseList (formatList l) <> l.
Proof.
  intros [->|H] E.
  - discriminate.
  - pose proof (split_clean_all comma (formatList l)) as F. unfold parseList in E. rewrite E in F.
    rewrite Exists_exists in H. destruct H as (x & Hx & Hc). rewrite Forall_forall in F.
    rewrite (F x Hx) in Hc. discriminate.
Qed.

Lemma lowerA_notup x c : 65 <= nat_of_ascii c <= 90 -> lowerA x <> c.
Proof.
  intros H E. subst c. unfold lowerA in H.
  assert (nat_of_ascii x < 256) by apply nat_ascii_bounded.
  destruct ((65 <=? nat_of_ascii x)%nat && (nat_of_ascii x <=? 90)%nat) eqn:E1.
  - apply andb_true_iff in E1 as [A B]. apply Nat.leb_le in A, B.
    rewrite nat_ascii_embedding in H by lia. lia.
  - apply andb_false_iff in E1 as [A|A]; apply Nat.leb_gt in A; lia.
Qed.

Lemma lower_notup s : forall x t, lower s = String x t -> ~ (65 <= nat_of_ascii x <= 90).
Proof.
  destruct s as [|y s]; cbn; [discriminate|]. intros x t E H. injection E as E _.
  exact (lowerA_notup y x H E).
Qed.

Lemma smooth_text name txt : lower name = lower "SmoothPlots" -> cfgItem "Hazard" name txt = IText txt.
Proof. intros E. unfold cfgItem. rewrite E. reflexivity. Qed.

(** * Master-only functions *)
Lemma master_calls {A B} (f : A -> B) size x : (1 <= size)%nat ->
  flat_map (fun r => snd (disableOnWorkers f size r x)) (seq 0 size) = [x] /\
  fst (disableOnWorkers f size 0 x) = Some (f x) /\
  forall r, (0 < r < size)%nat -> fst (disableOnWorkers f size r x) = None.
Proof.
  intros H. split; [|split].
  - destruct size as [|n]; [lia|]. cbn [seq flat_map].
    unfold disableOnWorkers at 1. rewrite andb_comm. cbn [Nat.ltb Nat.leb andb snd app].
    f_equal. replace (flat_map _ (seq 1 n)) with (flat_map (fun _ : nat => @nil A) (seq 1 n)).
    + induction (seq 1 n); cbn; auto.
    + assert (G : forall l, (forall r, In r l -> (1 <= r <= n)%nat) ->
        flat_map (fun _ : nat => @nil A) l = flat_map (fun r => snd (disableOnWorkers f (S n) r x)) l).
      { induction l as [|r l IH]; intros Hl; [reflexivity|]. cbn [flat_map].
        rewrite IH by (intros; apply Hl; cbn; auto).
        destruct (Hl r (or_introl eq_refl)).
        unfold disableOnWorkers at 2.
        destruct (Nat.ltb_spec 1 (S n)); [|lia]. destruct (Nat.ltb_spec 0 r); [|lia]. reflexivity. }
      apply G. intros r Hr. apply in_seq in Hr. lia.
  - unfold disableOnWorkers. now rewrite andb_comm.
  - intros r Hr. unfold disableOnWorkers.
    destruct (Nat.ltb_spec 1 size); [|lia]. destruct (Nat.ltb_spec 0 r); [|lia]. reflexivity.
Qed.
