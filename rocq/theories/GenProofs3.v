(** The land clock, prescribed conditions, and loops that never end. *)
From Coq Require Import QArith Qabs Qround Lqa Lia.
From Verif Require Import Base SplitModel CellModel CellProofs SampModel SampProofs GenModel GenProofs GenProofs2.
Opaque lowest.
Close Scope Q_scope. Open Scope list_scope. Open Scope nat_scope.

(** The properties of exp used: 1 at 0, positive, non-decreasing. *)
Definition explike (f : Q -> Q) : Prop :=
  (f 0 == 1)%Q /\ (forall x, (0 < f x)%Q) /\ (forall x y, (x <= y)%Q -> (f x <= f y)%Q).

Section C27.
Context {G NG : Type}.
Variable w : world G NG.
(** Land flag of a position. *)
Definition isLand (q : Q * Q) : bool := match w_mask w (fst q) (snd q) with Some m => qlt 0 m | None => false end.

Lemma clock_land n : forall pts c, length pts = n -> (forall q, In q pts -> w_mask w (fst q) (snd q) <> None) ->
  (forall q, In q pts -> isLand q = true) -> exists c', clockAfter w pts c = Some c' /\ (c' == c + w_dt w * qn n)%Q.
Proof.
  induction n as [|n IH]; intros pts c L D A.
  - destruct pts; [|discriminate]. exists c. split; [reflexivity|]. change (qn 0) with 0%Q. lra.
  - destruct pts as [|[x y] pts]; [discriminate|]. cbn [clockAfter]. unfold onLand.
    pose proof (A _ (or_introl eq_refl)) as A1. unfold isLand in A1. cbn [fst snd] in A1.
    destruct (w_mask w x y) as [m|] eqn:M; [|discriminate]. rewrite A1.
    destruct (IH pts (c + w_dt w)%Q) as (c' & -> & E).
    + simpl in L. lia.
    + intros; apply D; now right.
    + intros; apply A; now right.
    + exists c'. split; [reflexivity|]. rewrite E, qn_S. ring.
Qed.
Lemma clock_app a : forall b c, clockAfter w (a ++ b) c = match clockAfter w a c with Some c' => clockAfter w b c' | None => None end.
Proof.
  induction a as [|[x y] a IH]; intros b c; [reflexivity|]. cbn [app clockAfter].
  destruct (onLand w x y c) as [[l c']|]; auto.
Qed.
Lemma clock_some pts : (forall q, In q pts -> w_mask w (fst q) (snd q) <> None) -> forall c, exists c', clockAfter w pts c = Some c'.
Proof.
  induction pts as [|[x y] pts IH]; intros D c; [exists c; reflexivity|]. cbn [clockAfter]. unfold onLand.
  pose proof (D _ (or_introl eq_refl)) as D1. cbn [fst snd] in D1.
  destruct (w_mask w x y) as [m|]; [|congruence]. destruct (qlt 0 m); apply IH; intros; apply D; now right.
Qed.
Lemma c27_clock_l pre sea land c0 :
  (forall q, In q (pre ++ sea :: land) -> w_mask w (fst q) (snd q) <> None) ->
  isLand sea = false -> (forall q, In q land -> isLand q = true) ->
  exists c, clockAfter w (pre ++ sea :: land) c0 = Some c /\ (c == w_dt w * qn (length land))%Q.
Proof.
  intros D S A. rewrite clock_app.
  destruct (clock_some pre) with (c := c0) as (c1 & ->).
  { intros; apply D, in_or_app; now left. }
  destruct sea as [x y]. cbn [clockAfter]. unfold onLand.
  pose proof (D (x, y) ltac:(apply in_or_app; right; now left)) as D1. cbn [fst snd] in D1.
  unfold isLand in S. cbn [fst snd] in S. destruct (w_mask w x y) as [m|]; [|congruence]. rewrite S.
  destruct (clock_land (length land) land 0%Q eq_refl) as (c & -> & E).
  - intros; apply D, in_or_app; right; now right.
  - auto.
  - exists c. split; [reflexivity|]. rewrite E. ring.
Qed.
Lemma c27_first_l land c0 : (forall q, In q land -> isLand q = true) ->
  exists c, clockAfter w land c0 = Some c /\ (c == c0 + w_dt w * qn (length land))%Q.
Proof.
  intros A. apply clock_land; auto. intros q Q E. specialize (A _ Q). unfold isLand in A. rewrite E in A. discriminate.
Qed.

(** pChange *)
Lemma c27_pchange_l pc pe tol tol' eps : explike (w_exp w) -> (pc <= pe)%Q ->
  (0 <= (8 # 1000) + (8 # 10000) * (pe - pc) + eps)%Q -> (0 <= tol)%Q -> (tol <= tol')%Q ->
  (pc <= pChange w pc pe tol eps)%Q /\ (pChange w pc pe tol eps <= pe)%Q /\
  (pChange w pc pe tol eps <= pChange w pc pe tol' eps)%Q.
Proof.
  intros (E0 & EP & EM) H A T T'. unfold pChange.
  set (al := ((8 # 1000) + (8 # 10000) * (pe - pc) + eps)%Q) in *. set (d := (pe - pc)%Q).
  assert (D : (0 <= d)%Q) by (unfold d; lra).
  assert (M1 : (w_exp w (- al * tol) <= 1)%Q).
  { rewrite <- E0. apply EM. assert (0 <= al * tol)%Q by (apply Qmult_le_0_compat; auto). lra. }
  assert (M2 : (w_exp w (- al * tol') <= w_exp w (- al * tol))%Q).
  { apply EM. assert (al * tol <= al * tol')%Q.
    { rewrite (Qmult_comm al tol), (Qmult_comm al tol'). apply Qmult_le_compat_r; auto. } lra. }
  pose proof (EP (- al * tol)%Q) as P1.
  assert (X1 : (d * w_exp w (- al * tol) <= d * 1)%Q).
  { rewrite !(Qmult_comm d). apply Qmult_le_compat_r; auto. }
  assert (X2 : (0 <= d * w_exp w (- al * tol))%Q) by (apply Qmult_le_0_compat; lra).
  assert (X3 : (d * w_exp w (- al * tol') <= d * w_exp w (- al * tol))%Q).
  { rewrite !(Qmult_comm d). apply Qmult_le_compat_r; auto. }
  unfold d in *. repeat split; lra.
Qed.

(** The time used for the decay inside a track is the total time over land. *)
Definition landRow (p : point) : bool := isLand (p_lon p, p_lat p).
Lemma path_tol eps lf rm i s l sf : path w eps lf rm i s l sf ->
  (s_tol sf == s_tol s + w_dt w * qn (length (filter landRow l)))%Q.
Proof.
  induction 1 as [i s|i s s' l sf S0 P IH].
  - change (qn (length (filter landRow []))) with 0%Q. lra.
  - pose proof (step_next w _ _ _ _ _ _ _ S0) as T. destruct (sp_land _ _ _ _ _ _ _ _ T) as (m & M & C).
    cbn [filter]. unfold landRow at 1, isLand. cbn [fst snd]. rewrite M. rewrite IH.
    destruct C as [(LM & TO & _)|(LM & TO & _)].
    + apply qlt_iff in LM. rewrite LM, TO. cbn [length]. rewrite qn_S. ring.
    + apply qlt_false_iff in LM. rewrite LM, TO. reflexivity.
Qed.
(** While over land with a non-negative decay rate the pressure lies between the previous isobar
    lowered by the landfall deficit, and the previous isobar. *)
Lemma land_bounds eps lf rm i a b d q : stepped w eps lf rm i a b true -> explike (w_exp w) ->
  isLand (p_lon (s_pt b), p_lat (s_pt b)) = true ->
  osub (s_offPoci a) (s_offP a) = Some d -> p_poci (s_pt a) = Some q -> (0 <= d)%Q -> (0 <= s_tol b)%Q ->
  (0 <= (3515 # 100000) + (435 # 1000000) * d + (2865 # 1000000) * s_lfSpeed a + lf)%Q ->
  exists p, p_pres (s_pt b) = Some p /\ (q - d <= p)%Q /\ (p <= q)%Q.
Proof.
  intros T (E0 & EP & EM) L D Q DP TP AL. destruct (sp_land _ _ _ _ _ _ _ _ T) as (m & M & C).
  unfold isLand in L. cbn [fst snd] in L. rewrite M in L. apply qlt_iff in L.
  destruct C as [(_ & _ & _ & _ & _ & _ & PR)|(LM & _)]; [|exfalso; lra].
  rewrite (PR _ _ D Q). eexists. split; [reflexivity|].
  set (al := ((3515 # 100000) + (435 # 1000000) * d + (2865 # 1000000) * s_lfSpeed a + lf)%Q) in *.
  assert (M1 : (w_exp w (- al * s_tol b) <= 1)%Q).
  { rewrite <- E0. apply EM. assert (0 <= al * s_tol b)%Q by (apply Qmult_le_0_compat; auto). lra. }
  pose proof (EP (- al * s_tol b)%Q) as P1.
  assert (X1 : (d * w_exp w (- al * s_tol b) <= d * 1)%Q).
  { rewrite !(Qmult_comm d). apply Qmult_le_compat_r; auto. }
  assert (X2 : (0 <= d * w_exp w (- al * s_tol b))%Q) by (apply Qmult_le_0_compat; lra).
  split; lra.
Qed.
End C27.

(** ** C25: the limit of steps only cuts *)
Section Prefix.
Context {G NG : Type}.
Definition setSteps (w : world G NG) (n : nat) : world G NG :=
  {| w_uniform := w_uniform w; w_logistic := w_logistic w; w_normal := w_normal w; w_lognorm := w_lognorm w;
     w_npnormal := w_npnormal w; w_key := w_key w; w_npseed := w_npseed w; w_poisson := w_poisson w;
     w_bear2 := w_bear2 w; w_mslp := w_mslp w; w_cos := w_cos w; w_exp := w_exp w; w_deg := w_deg w;
     w_mask := w_mask w; w_origin := w_origin w; w_vStats := w_vStats w; w_pStats := w_pStats w;
     w_bStats := w_bStats w; w_dpStats := w_dpStats w; w_cdfBearing := w_cdfBearing w;
     w_cdfSpeed := w_cdfSpeed w; w_cdfDay := w_cdfDay w; w_cdfPressure := w_cdfPressure w;
     w_sizeFile := w_sizeFile w; w_limit := w_limit w; w_space := w_space w; w_inner := w_inner w;
     w_dt := w_dt w; w_maxSteps := n |}.
Variable w : world G NG.
Lemma step_setSteps n eps lf rm i s : step (setSteps w n) eps lf rm i s = step w eps lf rm i s.
Proof. reflexivity. Qed.
Lemma walk_setSteps n eps lf rm k : forall i s, walk (setSteps w n) eps lf rm k i s = walk w eps lf rm k i s.
Proof.
  induction k as [|k IH]; intros i s; cbn [walk]; [reflexivity|]. rewrite step_setSteps.
  destruct (step w eps lf rm i s) as [|[|] s'|]; auto; now rewrite ?IH.
Qed.
Lemma walk_prefix eps lf rm k k' : k <= k' -> forall i s l c g, walk w eps lf rm k' i s = GOk (l, c, g) ->
  exists c' g', walk w eps lf rm k i s = GOk (firstn k l, c', g').
Proof.
  revert k'. induction k as [|k IH]; intros k' H i s l c g W; cbn [walk firstn]; [eauto|].
  destruct k' as [|k']; [lia|]. cbn [walk] in W.
  destruct (step w eps lf rm i s) as [c1 g1|[|] s1|e]; try discriminate.
  - inversion W; subst. eauto.
  - apply gbind_inv in W as ([[l' c'] g'] & W & E). cbn in E. inversion E; subst.
    destruct (IH k' ltac:(lia) _ _ _ _ _ W) as (c2 & g2 & ->). cbn. eauto.
  - inversion W; subst. eauto.
Qed.
Lemma c25_prefix_l lon lat speed bear pres env rmax date jday rm clock g n m t c g' : 1 <= n -> n <= m ->
  singleTrack (setSteps w m) lon lat speed bear pres env rmax date jday rm clock g = GOk (t, c, g') ->
  exists c1 g1, singleTrack (setSteps w n) lon lat speed bear pres env rmax date jday rm clock g = GOk (firstn n t, c1, g1).
Proof.
  intros N M. destruct n as [|n]; [lia|]. destruct m as [|m]; [lia|].
  unfold singleTrack. cbn [setSteps w_maxSteps w_normal w_lognorm w_dt].
  destruct (w_normal w _ _ g) as [eps g1]. destruct (w_lognorm w _ _ _ g1) as [lf g2].
  rewrite !walk_setSteps.
  change (getPoci (setSteps w (S m))) with (getPoci w). change (getPoci (setSteps w (S n))) with (getPoci w).
  intros H. apply gbind_inv in H as ([[l c'] g3] & W & E). cbn in E. inversion E; subst.
  destruct (walk_prefix eps lf rm n m ltac:(lia) _ _ _ _ _ W) as (c1 & g4 & ->). cbn. eauto.
Qed.
End Prefix.

(** ** Generation that cannot end, and the size distribution *)
Section Loops.
Context {G NG : Type}.
Variable w : world G NG.
Lemma c73_l a lon lat bear speed day env pres rmax :
  given (i_lon a) = Some lon -> given (i_lat a) = Some lat -> given (i_bearing a) = Some bear ->
  given (i_speed a) = Some speed -> given (i_day a) = Some day -> given (i_env a) = Some env ->
  given (i_pressure a) = Some pres -> given (i_rmax a) = Some rmax ->
  in_domain (w_limit w) lon lat -> (1 <= trunc day <= 366)%Z ->
  (let nx := w_bear2 w bear (w_dt w * speed)%Q lon lat in
   ~ (inject_Z (xMin (w_limit w)) <= fst nx /\ fst nx <= inject_Z (xMax (w_limit w)) /\
      inject_Z (yMin (w_limit w)) <= snd nx /\ snd nx <= inject_Z (yMax (w_limit w)))%Q) ->
  forall fuel n sim st, 1 <= n -> generateTracks w fuel n sim a st = GFuel.
Proof.
  intros A1 A2 A3 A4 A5 A6 A7 A8 D DAY OUT fuel n sim st N. unfold generateTracks.
  destruct (w_uniform w _ _ _) as [y g]. generalize {| g_prng := g; g_np := g_np st; g_clock := g_clock st; g_rmw := g_rmw st |}.
  assert (IV : forall fuel a st, given (i_lon a) = Some lon -> given (i_lat a) = Some lat -> given (i_bearing a) = Some bear ->
    given (i_speed a) = Some speed -> given (i_day a) = Some day -> given (i_env a) = Some env ->
    given (i_pressure a) = Some pres -> given (i_rmax a) = Some rmax ->
    exists st', attempt w fuel (trunc y) a st = GOk (Some env, None, st')).
  { clear - D DAY OUT. intros fuel a st A1 A2 A3 A4 A5 A6 A7 A8. unfold attempt. destruct (w_origin w) as [[? ?] ?].
    rewrite A1, A2, A3, A4, A5, A6, A7, A8. cbn [gbind].
    destruct (getCellNum lon lat (w_limit w) (w_space w)) as [c|] eqn:C; [|apply cell_num_none in C; contradiction].
    destruct (w_uniform w 0 24 (g_prng st)) as [h g4]. unfold genesisTime.
    destruct ((1 <=? trunc day) && (trunc day <=? 366))%Z eqn:E; [|lia]. cbn [gbind].
    destruct (w_bear2 w bear (w_dt w * speed) lon lat) as [nx ny]. cbn [fst snd] in OUT.
    destruct (negb _) eqn:E2; [eauto|]. exfalso. apply OUT. apply negb_false_iff in E2.
    rewrite !andb_true_iff, !Qle_bool_iff in E2. tauto. }
  revert a A1 A2 A3 A4 A5 A6 A7 A8. induction fuel as [|f IH]; intros a A1 A2 A3 A4 A5 A6 A7 A8 st0; cbn [attempts].
  - destruct (n <=? 0) eqn:E; [lia|reflexivity].
  - destruct (n <=? 0) eqn:E; [lia|]. destruct (IV f a st0) as (st' & ->); auto. cbn [gbind].
    apply IH; auto. cbn. unfold given. unfold given in A6. destruct (i_env a) as [e|]; [|discriminate].
    destruct (Qeq_bool e 0) eqn:Z; [discriminate|]. inversion A6; subst. now rewrite Z.
Qed.

(** With a size distribution file every attempt of a run raises. *)
Lemma c74_l fuel n sim st : w_sizeFile w = true -> 1 <= n -> forall r, generateTracks w fuel n sim noInits st <> GOk r.
Proof.
  intros SF N r. unfold generateTracks. destruct (w_uniform w _ _ _) as [y g].
  destruct fuel as [|f]; cbn [attempts]; destruct (n <=? 0) eqn:E; try lia; try discriminate.
  intros H. apply gbind_inv in H as ([[e t] s] & H & _). unfold attempt in H. destruct (w_origin w) as [[x0 y0] z0].
  ginv H. destruct v as [[lon lat] g0]. destruct (getCellNum _ _ _ _); [|discriminate].
  ginv H. destruct v as [? ?]. ginv H. destruct v as [? ?]. ginv H. destruct v as [? ?].
  destruct (w_uniform w 0 24 _) as [? ?]. ginv H. ginv H. destruct v0 as [? ?].
  rewrite SF in H. cbn in H. discriminate.
Qed.
End Loops.

(** ** C26 *)
Section C26.
Context {G NG : Type}.
Variable w : world G NG.
(** The environmental pressure that entered the first row of a track. *)
Definition usesEnv (e : Q) (t : list point) : Prop :=
  forall d, exists pres jday g, p_pres (nth 0 t d) = Some pres /\
    p_poci (nth 0 t d) = getPoci w e (Some pres) (p_lat (nth 0 t d)) jday (fst (w_normal w 0 (25717 # 10000) g)).
Lemma single_env lon lat speed bear pres env rmax date jday rm clock g t cl g' :
  singleTrack w lon lat speed bear pres env rmax date jday rm clock g = GOk (t, cl, g') -> usesEnv env t.
Proof.
  unfold singleTrack. destruct (w_maxSteps w); [discriminate|].
  destruct (w_normal w _ _ g) as [eps g1] eqn:NE. destruct (w_lognorm w _ _ _ g1) as [lf g2].
  intros H. ginv H. inversion H; subst. intros d. exists pres, jday, g. rewrite NE. split; reflexivity.
Qed.
Lemma attempts_env e fuel : forall year n sim a j st r st', given (i_env a) = Some e ->
  attempts w fuel year n sim a j st = GOk (r, st') -> Forall (fun it => usesEnv e (snd it)) r.
Proof.
  induction fuel as [|f IH]; intros year n sim a j st r st' GE; cbn [attempts].
  - destruct (n <=? j); [|discriminate]. intros H. inversion H. constructor.
  - destruct (n <=? j); [intros H; inversion H; constructor|].
    intros H. ginv H. destruct v as [[e' t] s1].
    pose proof (attempt_inv w _ _ _ _ _ _ _ E) as (lon & lat & bear & speed & day & tm & env & pres & rmax & rm & g0 & -> & _ & _ & _ & _ & _ & _ & _ & _ & EN & T).
    rewrite GE in EN. subst env.
    assert (GE' : given (i_env (withEnv a (Some e))) = Some e).
    { cbn. unfold given in GE. destruct (i_env a) as [x|]; [|discriminate]. destruct (Qeq_bool x 0) eqn:Z; [discriminate|].
      inversion GE; subst. now rewrite Z. }
    destruct t as [t|].
    + ginv H. destruct v as [q s2]. inversion H; subst. constructor; [|eapply IH; eauto].
      destruct T as (_ & _ & cl & g1 & ST). cbn. eapply single_env; eauto.
    + eapply IH; eauto.
Qed.
Lemma c26_given_l fuel n sim a st r st' e : i_env a = Some e -> ~ (e == 0)%Q ->
  generateTracks w fuel n sim a st = GOk (r, st') -> forall id t, In (id, t) r -> usesEnv e t.
Proof.
  unfold generateTracks. destruct (w_uniform w _ _ _) as [y g]. intros A N H id t I.
  eapply attempts_env in H; [|rewrite A; cbn; destruct (Qeq_bool e 0) eqn:Z; [apply Qeq_bool_eq in Z; contradiction|reflexivity]].
  rewrite Forall_forall in H. exact (H _ I).
Qed.
(** The first attempt settles the pressure for all tracks of the call. *)
Lemma c26_leak_l fuel n sim a st r st' : generateTracks w fuel n sim a st = GOk (r, st') -> r <> [] ->
  (forall d la lo, ~ (w_mslp w d la lo == 0)%Q) ->
  exists e, forall id t, In (id, t) r -> usesEnv e t.
Proof.
  unfold generateTracks. destruct (w_uniform w _ _ _) as [y g]. intros H NE NZ.
  destruct fuel as [|f]; cbn [attempts] in H; destruct (n <=? 0) eqn:E0; try discriminate; try (inversion H; congruence).
  ginv H. destruct v as [[e' t] s1].
  pose proof (attempt_inv w _ _ _ _ _ _ _ E) as (lon & lat & bear & speed & day & tm & env & pres & rmax & rm & g0 & -> & _ & _ & _ & _ & _ & _ & _ & _ & EN & T).
  assert (GE' : given (i_env (withEnv a (Some env))) = Some env).
  { cbn. destruct (Qeq_bool env 0) eqn:Z; auto. exfalso. apply Qeq_bool_eq in Z. subst env.
    destruct (given (i_env a)) as [x|] eqn:GA.
    - unfold given in GA. destruct (i_env a) as [x'|]; [|discriminate]. destruct (Qeq_bool x' 0) eqn:Z'; [discriminate|].
      inversion GA; subst. apply Qeq_bool_neq in Z'. contradiction.
    - eapply NZ; eauto. }
  exists env. intros id t0 I.
  destruct t as [t|].
  - ginv H. destruct v as [q s2]. inversion H; subst. destruct I as [I|I].
    + inversion I; subst. destruct T as (_ & _ & cl & g1 & ST). eapply single_env; eauto.
    + eapply attempts_env in E1; eauto. rewrite Forall_forall in E1. exact (E1 _ I).
  - eapply attempts_env in H; eauto. rewrite Forall_forall in H. exact (H _ I).
Qed.
End C26.
