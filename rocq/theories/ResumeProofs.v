From Verif Require Import Base ResumeModel.

Section RP.
  Variables (N V T D : Type).
  Variable N_eq : forall a b : N, {a = b} + {a <> b}.
  Variable name : T -> N.
  Variable config_domain : option D.
  Variable domain_of : T -> D.
  Variable field : D -> T -> var -> V.
  Variable multipliers : bool.
  Variable tracks : list T.

  Notation st := (st N V T D).
  Notation disk := (disk N V T D).
  Notation step := (@step N V T D N_eq name domain_of field multipliers).
  Notation start := (@start N V T D config_domain tracks).
  Notation crash := (@crash N V T D config_domain tracks).
  Notation complete := (@complete N V T D).
  Notation apply_op := (@apply_op N V T D N_eq name field).

  (** All disks and states that runs and crashes (where [ok]) can produce from disk [d0]. *)
  Inductive history (ok : st -> Prop) (d0 : disk) : st -> Prop :=
  | Hstart : history ok d0 (start d0)
  | Hstep s s' : history ok d0 s -> step s s' -> history ok d0 s'
  | Hcrash s : history ok d0 s -> ok s -> history ok d0 (crash s).

  (** The file named [name t] holds exactly one entry per variable, with the track's data. *)
  Definition has_data (d : disk) (dm : D) (t : T) : Prop :=
    exists f, gust d (name t) = Some f /\
    forall v, In v [Vlat; Vlon; Vvmax; Vua; Vva; Vslp] ->
      filter (fun e => var_eqb (fst e) v) f = [(v, Some (field dm t v))].

  Lemma has_data_complete d dm t : has_data d dm t -> complete d (name t) = true.
  Proof.
    intros (f & E & H). unfold ResumeModel.complete. rewrite E.
    assert (K : forall v, In v [Vlat; Vlon; Vvmax; Vua; Vva; Vslp] -> has f v = true).
    { intros v Hv. apply existsb_exists. exists (v, Some (field dm t v)).
      assert (In (v, Some (field dm t v)) (filter (fun e => var_eqb (fst e) v) f)) as I
        by (rewrite (H v Hv); cbn; auto).
      apply filter_In in I. exact I. }
    rewrite !K by (cbn; auto 8). reflexivity.
  Qed.

  (** ** Effect of the operations on the current file *)
  Definition fop (o : op T D) (f : file V) : file V :=
    match o with
    | Open _ => []
    | Create _ v => f ++ [(v, None)]
    | Write dm t v => set_var f v (field dm t v)
    | Mult _ _ => f
    end.
  Definition target (o : op T D) : T :=
    match o with Open t => t | Create t _ => t | Write _ t _ => t | Mult _ t => t end.
  Definition is_open (o : op T D) : bool := match o with Open _ => true | _ => false end.
  Definition save := @save_ops T D multipliers.

  Lemma apply_other d o n : n <> name (target o) -> gust (apply_op d o) n = gust d n.
  Proof.
    intros H. destruct o; cbn in *; try (destruct (N_eq n (name t)); congruence); reflexivity.
  Qed.
  Lemma save_target dm t : Forall (fun o => target o = t) (save dm t).
  Proof. unfold save, save_ops. cbn. destruct multipliers; repeat constructor. Qed.

  (** File after the first [k] operations. *)
  Definition file_at (dm : D) (t : T) (k : nat) : file V := fold_left (fun f o => fop o f) (firstn k (save dm t)) [].

  Lemma save_len dm t : (14 <= length (save dm t) <= 15)%nat.
  Proof. unfold save, save_ops. cbn. destruct multipliers; cbn; lia. Qed.

  Definition finished_file dm t k := forall v, In v [Vlat; Vlon; Vvmax; Vua; Vva; Vslp] ->
      filter (fun e => var_eqb (fst e) v) (file_at dm t k) = [(v, Some (field dm t v))].
  Definition six (f : file V) := has f Vlat && has f Vlon && has f Vvmax && has f Vua && has f Vva && has f Vslp.

  (** Whenever the file looks complete it is, except just before the last data write. *)
  Lemma file_at_honest dm t k : (k < length (save dm t))%nat ->
    six (file_at dm t k) = true ->
    (nth_error (save dm t) k = Some (Write dm t Vslp)) \/ finished_file dm t k.
  Proof.
    intros Hk. assert (k < 15)%nat by (pose proof (save_len dm t); lia). clear Hk. unfold six.
    assert (C : k = 0%nat \/ k = 1%nat \/ k = 2%nat \/ k = 3%nat \/ k = 4%nat \/ k = 5%nat \/ k = 6%nat \/ k = 7%nat \/ k = 8%nat \/ k = 9%nat \/ k = 10%nat \/ k = 11%nat \/ k = 12%nat \/ k = 13%nat \/ k = 14%nat) by lia. clear H.
    repeat (destruct C as [->|C]; [try (vm_compute; discriminate)|]); [..|subst k];
      intros _; first [left; reflexivity | right; intros v Hv; cbn in Hv;
        unfold file_at, save, save_ops; cbn;
        repeat (destruct Hv as [<-|Hv]; [reflexivity|]); destruct Hv].
  Qed.
  Lemma file_at_full dm t : finished_file dm t (length (save dm t)).
  Proof.
    unfold finished_file, file_at. rewrite firstn_all. intros v Hv.
    unfold save, save_ops. destruct multipliers; cbn in *;
      (repeat (destruct Hv as [<-|Hv]; [reflexivity|]); destruct Hv).
  Qed.

  Lemma file_at_step dm t k o : nth_error (save dm t) k = Some o ->
    file_at dm t (S k) = fop o (file_at dm t k).
  Proof.
    intros H. unfold file_at.
    assert (E : firstn (S k) (save dm t) = firstn k (save dm t) ++ [o]).
    { revert H. generalize (save dm t). induction k as [|k IH]; intros [|x l] H; try discriminate.
      - cbn in *. congruence.
      - cbn [nth_error] in H. change (firstn (S (S k)) (x :: l)) with (x :: firstn (S k) l).
        rewrite (IH l H). reflexivity. }
    rewrite E, fold_left_app. reflexivity.
  Qed.

  Section WithDomain.
  Variable dm : D.
  Hypothesis Hconf : config_domain = Some dm.
  Hypothesis names : NoDup (map name tracks).

  Lemma same_name t t' : In t tracks -> In t' tracks -> name t = name t' -> t = t'.
  Proof.
    revert names. generalize tracks. intros l. induction l as [|x l IH]; intros Hn H1 H2 E; [easy|].
    cbn in Hn. inversion Hn; subst. destruct H1 as [->|H1], H2 as [->|H2]; auto.
    - exfalso. apply H3. rewrite E. now apply in_map.
    - exfalso. apply H3. rewrite <- E. now apply in_map.
  Qed.

  Definition honest_but (d : disk) (P : T -> Prop) : Prop :=
    forall t, In t tracks -> ~ P t -> complete d (name t) = true -> has_data d dm t.

  Definition Inv (s : st) : Prop :=
    dom s = Some dm /\ incl (todo s) tracks /\
    ((ops s = [] /\ honest_but (dsk s) (fun _ => False) /\
      (forall t, In t tracks -> In t (todo s) \/ has_data (dsk s) dm t))
     \/
     (exists t k, In t tracks /\ (k < length (save dm t))%nat /\ ops s = skipn k (save dm t) /\
        (k = 0%nat -> complete (dsk s) (name t) = false) /\
        (k <> 0%nat -> gust (dsk s) (name t) = Some (file_at dm t k)) /\
        honest_but (dsk s) (fun x => x = t) /\
        (forall x, In x tracks -> In x (todo s) \/ x = t \/ has_data (dsk s) dm x))).

  Lemma has_data_other d d' t : gust d' (name t) = gust d (name t) -> has_data d dm t -> has_data d' dm t.
  Proof. intros E (f & H). exists f. rewrite E. exact H. Qed.
  Lemma complete_other d d' t : gust d' (name t) = gust d (name t) -> complete d' (name t) = complete d (name t).
  Proof. unfold ResumeModel.complete. now intros ->. Qed.

  Lemma skipn_cons {A} (l : list A) k o os : skipn k l = o :: os -> nth_error l k = Some o /\ os = skipn (S k) l.
  Proof.
    revert k. induction l as [|x l IH]; intros [|k] H; cbn in *; try discriminate.
    - injection H as -> ->. auto.
    - apply IH in H. exact H.
  Qed.

  Lemma start_inv d : honest_but d (fun _ => False) -> Inv (start d).
  Proof.
    intros H. split; [exact Hconf|]. split; [apply incl_refl|]. left. cbn. auto.
  Qed.

  Lemma apply_file d t k o : In t tracks -> nth_error (save dm t) k = Some o ->
    (k <> 0%nat -> gust d (name t) = Some (file_at dm t k)) ->
    gust (apply_op d o) (name t) = Some (file_at dm t (S k)).
  Proof.
    intros Ht Ho Hf. rewrite (file_at_step _ _ _ _ Ho).
    assert (Htg : target o = t).
    { pose proof (save_target dm t) as F. rewrite Forall_forall in F. apply F. eapply nth_error_In; eauto. }
    destruct k as [|k].
    - assert (o = Open t) as ->. { unfold save, save_ops in Ho. cbn in Ho. congruence. }
      cbn. destruct (N_eq _ _); congruence.
    - specialize (Hf ltac:(lia)). destruct o as [t0|t0 v|dm0 t0 v|dm0 t0]; cbn in Htg; subst t0; cbn [ResumeModel.apply_op put gust fop].
      + exfalso. unfold save, save_ops in Ho. cbn in Ho.
        do 13 (destruct k as [|k]; [cbn in Ho; discriminate|]). cbn in Ho.
        destruct multipliers; [destruct k as [|k]; cbn in Ho; [discriminate|destruct k; discriminate]|destruct k; discriminate].
      + unfold contents. rewrite Hf. destruct (N_eq _ _); congruence.
      + unfold contents. rewrite Hf. destruct (N_eq _ _); [|congruence].
        assert (dm0 = dm) as ->; [|reflexivity].
        unfold save, save_ops in Ho. cbn in Ho.
        do 13 (destruct k as [|k]; [cbn in Ho; congruence|]). cbn in Ho.
        destruct multipliers; [destruct k as [|k]; cbn in Ho; [discriminate|destruct k; discriminate]|destruct k; discriminate].
      + exact Hf.
  Qed.

  Lemma step_inv s s' : Inv s -> step s s' -> Inv s'.
  Proof.
    intros (Hd & Hi & Hc) Hs. inversion Hs as [s0 o os Ho|s0 t ts Ho Ht Hcm|s0 t ts Ho Ht Hcm dm']; subst s0 s'.
    - (* operation *)
      destruct Hc as [(E & _)|(t & k & Ht & Hk & Eo & H0 & Hf & Hh & Hr)]; [congruence|].
      split; [exact Hd|]. split; [exact Hi|]. cbn [ops dsk todo].
      rewrite Eo in Ho. apply skipn_cons in Ho as [Hn ->].
      assert (Htg : target o = t).
      { pose proof (save_target dm t) as F. rewrite Forall_forall in F. apply F. eapply nth_error_In; eauto. }
      pose proof (apply_file (dsk s) t k o Ht Hn Hf) as Hf'.
      assert (Hoth : forall x, In x tracks -> x <> t -> gust (apply_op (dsk s) o) (name x) = gust (dsk s) (name x)).
      { intros x Hx Hxt. apply apply_other. rewrite Htg. intros C. apply Hxt. now apply same_name. }
      destruct (Nat.eq_dec (S k) (length (save dm t))) as [El|El].
      + left. rewrite El, skipn_all. split; [reflexivity|].
        assert (Hgood : has_data (apply_op (dsk s) o) dm t).
        { exists (file_at dm t (S k)). split; [exact Hf'|]. rewrite El. apply file_at_full. }
        assert (Hdec : forall x, In x tracks -> x = t \/ x <> t).
        { intros x Hx. destruct (N_eq (name x) (name t)) as [e|e]; [left; now apply same_name|right; congruence]. }
        split.
        * intros x Hx _ Hxc. destruct (Hdec x Hx) as [->|Hne]; [exact Hgood|].
          eapply has_data_other; [now apply Hoth|]. apply Hh; [exact Hx|exact Hne|].
          rewrite <- (complete_other (dsk s) (apply_op (dsk s) o)); [exact Hxc|now apply Hoth].
        * intros x Hx. destruct (Hr x Hx) as [|[->|Hg]]; [now left|now right|].
          right. destruct (Hdec x Hx) as [->|Hne]; [exact Hgood|]. eapply has_data_other; [now apply Hoth|exact Hg].
      + right. exists t, (S k). split; [exact Ht|]. split; [lia|]. split; [reflexivity|].
        split; [lia|]. split; [now intros _|]. split.
        * intros x Hx Hne Hxc. eapply has_data_other; [now apply Hoth|]. apply Hh; [exact Hx|exact Hne|].
          rewrite <- (complete_other (dsk s) (apply_op (dsk s) o)); [exact Hxc|now apply Hoth].
        * intros x Hx. destruct (Hr x Hx) as [|[->|Hg]]; auto.
          assert (Hdec : x = t \/ x <> t).
          { destruct (N_eq (name x) (name t)) as [e|e]; [left; now apply same_name|right; congruence]. }
          destruct Hdec as [->|Hne]; auto. right; right. eapply has_data_other; [now apply Hoth|exact Hg].
    - (* skip *)
      destruct Hc as [(_ & Hh & Hr)|(t' & k & _ & Hk & Eo & _)].
      2:{ exfalso. rewrite Ho in Eo. pose proof (skipn_length k (save dm t')) as L. rewrite <- Eo in L. change (length (@nil (op T D))) with 0%nat in L. lia. }
      assert (Htk : In t tracks) by (apply Hi; rewrite Ht; cbn; auto).
      split; [exact Hd|]. split; [intros x Hx; apply Hi; rewrite Ht; cbn; auto|]. left. cbn [ops dsk todo].
      split; [reflexivity|]. split; [exact Hh|]. intros x Hx. destruct (Hr x Hx) as [Hin|Hg]; [|now right].
      rewrite Ht in Hin. destruct Hin as [<-|Hin]; [|now left]. right. now apply Hh.
    - (* calc *)
      destruct Hc as [(_ & Hh & Hr)|(t' & k & _ & Hk & Eo & _)].
      2:{ exfalso. rewrite Ho in Eo. pose proof (skipn_length k (save dm t')) as L. rewrite <- Eo in L. change (length (@nil (op T D))) with 0%nat in L. lia. }
      assert (Htk : In t tracks) by (apply Hi; rewrite Ht; cbn; auto).
      assert (dm' = dm) as E by (unfold dm'; now rewrite Hd). clearbody dm'. subst dm'.
      split; [reflexivity|]. split; [intros x Hx; apply Hi; rewrite Ht; cbn; auto|]. right. cbn [ops dsk todo].
      exists t, 0%nat. split; [exact Htk|]. split; [pose proof (save_len dm t); lia|].
      split; [reflexivity|]. split; [now intros _|]. split; [congruence|]. split.
      + intros x Hx _ Hxc. now apply Hh.
      + intros x Hx. destruct (Hr x Hx) as [Hin|Hg]; [|auto]. rewrite Ht in Hin. destruct Hin as [<-|Hin]; auto.
  Qed.

  Lemma crash_inv s : Inv s -> ~ slp_unwritten s -> Inv (crash s).
  Proof.
    intros (Hd & Hi & Hc) Hno. apply start_inv. cbn.
    destruct Hc as [(_ & Hh & _)|(t & k & Ht & Hk & Eo & H0 & Hf & Hh & Hr)].
    - exact Hh.
    - intros x Hx _ Hxc. destruct (N_eq (name x) (name t)) as [e|e].
      2:{ apply Hh; [exact Hx|congruence|exact Hxc]. }
      apply same_name in e; [|assumption..]. subst x.
      destruct k as [|k]; [rewrite (H0 eq_refl) in Hxc; discriminate|].
      specialize (Hf ltac:(lia)). exists (file_at dm t (S k)). split; [exact Hf|].
      unfold ResumeModel.complete in Hxc. rewrite Hf in Hxc.
      destruct (file_at_honest dm t (S k) Hk Hxc) as [E|E]; [|exact E].
      exfalso. apply Hno. exists dm, t, (skipn (S (S k)) (save dm t)). rewrite Eo.
      clear -E. revert E. generalize (save dm t) (S k). intros l n.
      revert n. induction l as [|y l IH]; intros [|n] E; cbn in *; try discriminate; [congruence|].
      now apply IH.
  Qed.

  Lemma history_inv d0 s : honest_but d0 (fun _ => False) ->
    history (fun s => ~ slp_unwritten s) d0 s -> Inv s.
  Proof.
    intros H0 H. induction H; [now apply start_inv|eapply step_inv; eauto|now apply crash_inv].
  Qed.

  Lemma resume_ok d0 s :
    (forall t, In t tracks -> complete d0 (name t) = true -> has_data d0 dm t) ->
    history (fun s => ~ slp_unwritten s) d0 s -> finished s ->
    forall t, In t tracks -> has_data (dsk s) dm t.
  Proof.
    intros H0 H [F1 F2] t Ht. apply history_inv in H; [|intros x Hx _; now apply H0].
    destruct H as (_ & _ & [(_ & _ & Hr)|(t' & k & _ & Hk & Eo & _)]).
    - destruct (Hr t Ht) as [Hin|Hg]; [rewrite F2 in Hin; destruct Hin|exact Hg].
    - exfalso. rewrite F1 in Eo. pose proof (skipn_length k (save dm t')) as L. rewrite <- Eo in L. change (length (@nil (op T D))) with 0%nat in L. lia.
  Qed.
  End WithDomain.

  (** ** Files recognised as complete are not written again (any domain, any crash). *)
  Inductive later (s : st) : st -> Prop :=
  | Lrefl : later s s
  | Lstep s1 s2 : later s s1 -> step s1 s2 -> later s s2
  | Lcrash s1 : later s s1 -> later s (crash s1).
  Lemma not_rewritten s s' n : ops s = [] -> complete (dsk s) n = true -> later s s' ->
    gust (dsk s') n = gust (dsk s) n.
  Proof.
    intros Ho Hc H.
    enough (K : gust (dsk s') n = gust (dsk s) n /\ Forall (fun o => name (target o) <> n) (ops s')) by apply K.
    induction H as [|s1 s2 H [IH1 IH2] Hs|s1 H [IH1 IH2]].
    - split; [reflexivity|]. rewrite Ho. constructor.
    - assert (Hc1 : complete (dsk s1) n = true) by (unfold ResumeModel.complete in *; now rewrite IH1).
      inversion Hs as [s0 o os E|s0 t ts E Ht Hcm|s0 t ts E Ht Hcm dm']; subst s0 s2; cbn [dsk ops].
      + rewrite E in IH2. inversion IH2; subst. split; [|assumption].
        rewrite apply_other by congruence. exact IH1.
      + auto.
      + split; [exact IH1|]. assert (name t <> n) by congruence.
        pose proof (save_target dm' t) as F. eapply Forall_impl; [|exact F]. cbn. intros o ->. assumption.
    - split; [exact IH1|constructor].
  Qed.

  (** ** A run without crash ends. *)
  Inductive nsteps : nat -> st -> st -> Prop :=
  | N0 s : nsteps 0 s s
  | NS n s1 s2 s3 : step s1 s2 -> nsteps n s2 s3 -> nsteps (S n) s1 s3.
  Definition mea (s : st) : nat := length (ops s) + 16 * length (todo s).
  Lemma mea_step s s' : step s s' -> (mea s' < mea s)%nat.
  Proof.
    intros H. inversion H as [s0 o os E|s0 t ts E Ht Hcm|s0 t ts E Ht Hcm dm']; subst s0 s'; unfold mea; cbn [ops todo].
    - rewrite E. cbn. lia.
    - rewrite E, Ht. cbn. lia.
    - rewrite E, Ht. pose proof (save_len dm' t). unfold save in *. cbn [length]. lia.
  Qed.
  Lemma run_bounded d n s : nsteps n (start d) s -> (n <= 16 * length tracks)%nat.
  Proof.
    assert (K : forall n s1 s2, nsteps n s1 s2 -> (n + mea s2 <= mea s1)%nat).
    { intros n0 s1 s2 H. induction H; [lia|]. apply mea_step in H. lia. }
    intros H. apply K in H. unfold mea in H. cbn [start ops todo] in H. cbn in H. lia.
  Qed.
  Lemma run_progress s : finished s \/ exists s', step s s'.
  Proof.
    destruct (ops s) as [|o os] eqn:Eo.
    - destruct (todo s) as [|t ts] eqn:Et; [left; now split|right].
      destruct (complete (dsk s) (name t)) eqn:Ec; eexists.
      + eapply Sskip; eauto.
      + eapply Scalc; eauto.
    - right. eexists. eapply Sop; eauto.
  Qed.
End RP.

(** An executable scheduler for witnesses. *)
Section Exec.
  Variables (N V T D : Type).
  Variable N_eq : forall a b : N, {a = b} + {a <> b}.
  Variable name : T -> N.
  Variable domain_of : T -> D.
  Variable field : D -> T -> var -> V.
  Variable multipliers : bool.
  Definition stepf (s : st N V T D) : st N V T D :=
    match ops s with
    | o :: os => {| dom := dom s; todo := todo s; ops := os; dsk := apply_op N_eq name field (dsk s) o |}
    | [] => match todo s with
            | [] => s
            | t :: ts => if complete (dsk s) (name t)
                         then {| dom := dom s; todo := ts; ops := []; dsk := dsk s |}
                         else let dm := match dom s with Some x => x | None => domain_of t end in
                              {| dom := Some dm; todo := ts; ops := save_ops multipliers dm t; dsk := dsk s |}
            end
    end.
  Lemma stepf_ok s : stepf s = s \/ step N_eq name domain_of field multipliers s (stepf s).
  Proof.
    unfold stepf. destruct (ops s) as [|o os] eqn:Eo.
    - destruct (todo s) as [|t ts] eqn:Et; [now left|right].
      destruct (complete (dsk s) (name t)) eqn:Ec.
      + eapply Sskip; eauto.
      + apply (Scalc N_eq name domain_of field multipliers s Eo Et Ec).
    - right. apply (Sop N_eq name domain_of field multipliers s Eo).
  Qed.
  Variable config_domain : option D.
  Variable tracks : list T.
  Lemma iter_history ok d0 s n :
    history N V T D N_eq name config_domain domain_of field multipliers tracks ok d0 s ->
    history N V T D N_eq name config_domain domain_of field multipliers tracks ok d0 (Nat.iter n stepf s).
  Proof.
    intros H. induction n as [|n IH]; [exact H|]. cbn [Nat.iter nat_rect].
    destruct (stepf_ok (Nat.iter n stepf s)) as [E|E].
    - unfold Nat.iter in E. rewrite E. exact IH.
    - eapply Hstep; [exact IH|exact E].
  Qed.
End Exec.
