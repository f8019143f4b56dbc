From Coq Require Import Ascii String Decimal DecimalNat QArith.
From Verif Require Import Base NamesModel.
Close Scope Q_scope. Close Scope string_scope. Open Scope list_scope.

Definition digits (s : str) := Forall (fun c => is_digit c = true) s.

Lemma chars_digits d : digits (chars d).
Proof. induction d; cbn; constructor; try assumption; reflexivity. Qed.
Lemma padded_digits w n : digits (padded w n).
Proof.
  unfold padded. apply Forall_app. split; [|apply chars_digits].
  apply Forall_forall. intros c Hc. apply repeat_spec in Hc. now subst.
Qed.
Lemma int_of_acc d : forall acc, fold_left (fun a c => 10 * a + digit c) (chars d) acc = Nat.of_uint_acc d acc.
Proof.
  induction d; intros acc; cbn [chars fold_left Nat.of_uint_acc]; [reflexivity|..];
    rewrite IHd; f_equal; rewrite Nat.tail_mul_spec; cbn [digit nat_of_ascii]; 
    change (digit "0") with 0; change (digit "1") with 1; change (digit "2") with 2;
    change (digit "3") with 3; change (digit "4") with 4; change (digit "5") with 5;
    change (digit "6") with 6; change (digit "7") with 7; change (digit "8") with 8;
    change (digit "9") with 9; lia.
Qed.
Lemma int_of_decimal n : int_of (decimal n) = n.
Proof. unfold int_of, decimal. rewrite int_of_acc. apply DecimalNat.Unsigned.of_to. Qed.
Lemma padded_nonnil w n : padded w n <> [].
Proof.
  unfold padded. intros C. apply app_eq_nil in C as [_ C].
  pose proof (int_of_decimal n) as H. rewrite C in H. change (int_of []) with 0 in H. subst n. discriminate C.
Qed.
Lemma int_of_padded w n : int_of (padded w n) = n.
Proof.
  unfold padded. generalize (w - length (decimal n)) as k.
  intros k. unfold int_of. rewrite fold_left_app.
  replace (fold_left _ (repeat "0"%char k) 0) with 0; [apply int_of_decimal|].
  induction k; cbn [repeat fold_left]; [reflexivity|].
  change (10 * 0 + digit "0") with 0. assumption.
Qed.

(** ** findall *)
Lemma runs_digits s : forall cur rest, digits s ->
  digit_runs cur (s ++ rest) = digit_runs (cur ++ s) rest.
Proof.
  induction s as [|c s IH]; intros cur rest H; cbn [app].
  - now rewrite app_nil_r.
  - inversion H; subst. cbn [digit_runs]. rewrite H2, IH by assumption. now rewrite <- app_assoc.
Qed.
Lemma runs_sep cur c rest : is_digit c = false -> cur <> [] ->
  digit_runs cur (c :: rest) = cur :: digit_runs [] rest.
Proof. intros H Hc. cbn. rewrite H. destruct cur; [congruence|reflexivity]. Qed.
Lemma event_id_gust id : event_id (gust_name id) = Some id.
Proof.
  destruct id as [a b]. unfold event_id, gust_name, fst, snd.
  change (digit_runs [] (lit "gust." ++ padded 3 a ++ lit "-" ++ padded 5 b ++ lit ".nc"))
    with (digit_runs [] (padded 3 a ++ lit "-" ++ padded 5 b ++ lit ".nc")).
  rewrite runs_digits by apply padded_digits. cbn [app].
  change (lit "-" ++ padded 5 b ++ lit ".nc") with ("-"%char :: padded 5 b ++ lit ".nc").
  rewrite runs_sep; [|reflexivity|apply padded_nonnil].
  rewrite runs_digits by apply padded_digits. cbn [app].
  change (lit ".nc") with ("."%char :: lit "nc").
  rewrite runs_sep; [|reflexivity|apply padded_nonnil].
  change (digit_runs [] (lit "nc")) with (@nil str).
  now rewrite !int_of_padded.
Qed.
Lemma gust_name_inj a b : gust_name a = gust_name b -> a = b.
Proof.
  intros H. assert (E : event_id (gust_name a) = event_id (gust_name b)) by now rewrite H.
  rewrite !event_id_gust in E. congruence.
Qed.

(** ** glob *)
Lemma starts_with_iff p s : starts_with p s = true <-> exists r, s = p ++ r.
Proof.
  revert s. induction p as [|x p IH]; intros s; cbn.
  - split; [eauto|easy].
  - destruct s as [|y s]; [split; [easy|intros [r H]; easy]|].
    rewrite andb_true_iff, Ascii.eqb_eq, IH. split.
    + intros [-> [r ->]]. eauto.
    + intros [r [= -> ->]]. eauto.
Qed.
Lemma dash_split (x y d1 d2 : str) : digits d1 -> digits d2 ->
  x ++ "-"%char :: d1 = y ++ "-"%char :: d2 -> d1 = d2.
Proof.
  revert y. induction x as [|c x IH]; intros [|e y] H1 H2; cbn [app].
  - congruence.
  - intros [= <- ->]. exfalso. unfold digits in H1. rewrite Forall_app in H1.
    destruct H1 as [_ H1]. inversion H1; subst. discriminate.
  - intros [= -> <-]. exfalso. unfold digits in H2. rewrite Forall_app in H2.
    destruct H2 as [_ H2]. inversion H2; subst. discriminate.
  - intros [= -> H]. eauto.
Qed.
Lemma glob_year_gust y id : glob_year y (gust_name id) = true <-> snd id = y.
Proof.
  destruct id as [a b]. cbn [snd]. unfold glob_year, gust_name, fst, snd.
  assert (E1 : starts_with (lit "gust.") (lit "gust." ++ padded 3 a ++ lit "-" ++ padded 5 b ++ lit ".nc") = true)
    by (apply starts_with_iff; eauto).
  rewrite E1. rewrite skipn_app, skipn_all, Nat.sub_diag. cbn [skipn app andb].
  rewrite starts_with_iff. split.
  - intros [r H]. apply (f_equal (@rev ascii)) in H. rewrite rev_involutive, rev_app_distr, rev_involutive in H.
    rewrite !app_assoc in H. apply app_inv_tail in H. rewrite <- !app_assoc in H.
    change (lit "-" ++ padded 5 b) with ("-"%char :: padded 5 b) in H.
    change (lit "-" ++ padded 5 y) with ("-"%char :: padded 5 y) in H.
    apply dash_split in H; try apply padded_digits.
    apply (f_equal int_of) in H. now rewrite !int_of_padded in H.
  - intros ->. exists (rev (padded 3 a)). now rewrite <- rev_app_distr.
Qed.

(** ** Maxima *)
Definition is_max_of (vals : list Q) (m : Q) : Prop :=
  (exists v, In v vals /\ m = v) /\ forall v, In v vals -> (v <= m)%Q.
Lemma qmax_l a b : (a <= qmax a b)%Q.
Proof.
  unfold qmax. destruct (Qle_bool a b) eqn:E; [now apply Qle_bool_iff|apply Qle_refl].
Qed.
Lemma qmax_r a b : (b <= qmax a b)%Q.
Proof.
  unfold qmax. destruct (Qle_bool a b) eqn:E; [apply Qle_refl|].
  apply Qlt_le_weak, Qnot_le_lt. intros C. apply Qle_bool_iff in C. congruence.
Qed.
Lemma qmax_in a b : qmax a b = a \/ qmax a b = b.
Proof. unfold qmax. destruct (Qle_bool a b); auto. Qed.
Lemma fold_qmax l x : is_max_of (x :: l) (fold_left qmax l x).
Proof.
  revert x. induction l as [|y l IH]; intros x; cbn [fold_left].
  - split; [exists x; cbn; auto|]. intros v [->|[]]. apply Qle_refl.
  - destruct (IH (qmax x y)) as [(v & Hv & E) Hm]. split.
    + destruct Hv as [<-|Hv].
      * destruct (qmax_in x y) as [F|F]; [exists x|exists y]; (split; [cbn; tauto|congruence]).
      * exists v; cbn; auto.
    + intros w [<-|[<-|Hw]].
      * eapply Qle_trans; [apply qmax_l|apply Hm; cbn; auto].
      * eapply Qle_trans; [apply qmax_r|apply Hm; cbn; auto].
      * apply Hm; cbn; auto.
Qed.
Lemma is_max_unique l l' m m' : Permutation l l' -> is_max_of l m -> is_max_of l' m' -> (m == m')%Q.
Proof.
  intros P [(v & Hv & ->) H1] [(w & Hw & ->) H2]. apply Qle_antisym.
  - apply H2. eapply Permutation_in; eauto.
  - apply H1. eapply Permutation_in; [symmetry; exact P|assumption].
Qed.
Lemma all_some_map {A} (l : list A) : all_some (map Some l) = Some l.
Proof. induction l; cbn; [reflexivity|now rewrite IHl]. Qed.

Definition files_of (events : list ((nat * nat) * Q)) : dir :=
  map (fun e => (gust_name (fst e), Some (snd e))) events.
(** Gusts of the events of one year. *)
Definition gusts_in_year (events : list ((nat * nat) * Q)) (y : nat) : list Q :=
  map snd (filter (fun e => snd (fst e) =? y) events).

Lemma filter_files events y :
  map snd (filter (fun f => glob_year y (fst f)) (files_of events)) = map Some (gusts_in_year events y).
Proof.
  unfold gusts_in_year, files_of. induction events as [|[id v] l IH]; [reflexivity|].
  cbn [map filter fst snd]. pose proof (glob_year_gust y id) as G.
  destruct (glob_year y (gust_name id)), (snd id =? y) eqn:E; cbn [map filter fst snd].
  - now rewrite IH.
  - exfalso. apply Nat.eqb_neq in E. apply E. now apply G.
  - exfalso. apply Nat.eqb_eq in E. apply G in E. discriminate.
  - exact IH.
Qed.
Lemma perm_files (events : list ((nat * nat) * Q)) d : Permutation d (files_of events) ->
  exists ev', Permutation events ev' /\ d = files_of ev'.
Proof.
  intros P. symmetry in P. unfold files_of in P.
  apply Permutation_sym, Permutation_map_inv in P. destruct P as (l' & -> & P'). eauto.
Qed.
Lemma gusts_perm e1 e2 y : Permutation e1 e2 -> Permutation (gusts_in_year e1 y) (gusts_in_year e2 y).
Proof.
  intros P. unfold gusts_in_year. apply Permutation_map.
  induction P; cbn.
  - constructor.
  - destruct (_ =? y); auto.
  - destruct (snd (fst x) =? y), (snd (fst y0) =? y); auto. constructor.
  - etransitivity; eauto.
Qed.
Definition year_value (events : list ((nat * nat) * Q)) (y : nat) (m : Q) : Prop :=
  (gusts_in_year events y = [] /\ m = 0%Q) \/ is_max_of (gusts_in_year events y) m.
Lemma year_max_files events y : exists m, year_max (files_of events) y = Some m /\ year_value events y m.
Proof.
  unfold year_max, year_value. pose proof (filter_files events y) as F.
  destruct (filter _ _) as [|f fs].
  - exists 0%Q. split; [reflexivity|]. left. cbn in F. destruct (gusts_in_year events y); [auto|discriminate].
  - rewrite F, all_some_map. destruct (gusts_in_year events y) as [|x xs]; [cbn in F; discriminate|].
    eexists. split; [reflexivity|]. right. apply fold_qmax.
Qed.
Lemma is_max_perm l l' m : Permutation l l' -> is_max_of l m -> is_max_of l' m.
Proof.
  intros P [(v & Hv & ->) H]. split.
  - exists v. split; [eapply Permutation_in; eauto|reflexivity].
  - intros w Hw. apply H. eapply Permutation_in; [symmetry; exact P|assumption].
Qed.
Lemma year_value_perm e1 e2 y m : Permutation e1 e2 -> year_value e1 y m -> year_value e2 y m.
Proof.
  intros P H. pose proof (gusts_perm e1 e2 y P) as G. destruct H as [[H ->]|H].
  - left. rewrite H in G. apply Permutation_nil in G. auto.
  - right. eapply is_max_perm; eauto.
Qed.
Lemma all_some_map_ex {A B} (f : A -> option B) (P : A -> B -> Prop) l :
  (forall a, exists b, f a = Some b /\ P a b) ->
  exists r, all_some (map f l) = Some r /\ Forall2 P l r.
Proof.
  intros H. induction l as [|a l (r & IH1 & IH2)]; [exists []; split; [reflexivity|constructor]|].
  destruct (H a) as (b & E & Pb). exists (b :: r). cbn. rewrite E, IH1. split; [reflexivity|now constructor].
Qed.
Lemma Forall2_nth {A B} (P : A -> B -> Prop) l r : Forall2 P l r ->
  forall n a, nth_error l n = Some a -> exists b, nth_error r n = Some b /\ P a b.
Proof.
  induction 1; intros [|n] z Hz; cbn in *; try discriminate; [injection Hz as <-; eauto|eauto].
Qed.
Lemma Forall2_len {A B} (P : A -> B -> Prop) l r : Forall2 P l r -> length l = length r.
Proof. induction 1; cbn; lia. Qed.
Lemma c03_l events d n : Permutation d (files_of events) ->
  exists r, annual_maxima d n = Some r /\ length r = n /\
    forall y, (y < n)%nat -> exists m, nth_error r y = Some m /\ year_value events y m.
Proof.
  intros P. apply perm_files in P as (ev' & P & ->).
  destruct (all_some_map_ex (year_max (files_of ev')) (year_value ev') (seq 0 n) (year_max_files ev'))
    as (r & E & F).
  exists r. split; [exact E|]. split; [rewrite <- (Forall2_len _ _ _ F); apply seq_length|].
  intros y Hy. destruct (Forall2_nth _ _ _ F y y) as (m & Hm & V).
  { rewrite (nth_error_nth' _ 0) by (rewrite seq_length; lia). now rewrite seq_nth by lia. }
  exists m. split; [exact Hm|]. eapply year_value_perm; [symmetry; exact P|exact V].
Qed.
Lemma year_value_unique events y m m' : year_value events y m -> year_value events y m' -> (m == m')%Q.
Proof.
  intros [[E ->]|H] [[E' ->]|H']; try reflexivity.
  - rewrite E in H'. destruct H' as [(v & [] & _) _].
  - rewrite E' in H. destruct H as [(v & [] & _) _].
  - eapply is_max_unique; [apply Permutation_refl|eassumption|eassumption].
Qed.
