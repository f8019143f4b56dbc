(** Random streams, process counts, the land clock and the outer loops of track generation. *)
From Coq Require Import QArith Qabs Qround Lqa Lia.
From Verif Require Import Base SplitModel SplitProofs CellModel CellProofs SampModel SampProofs GenModel GenProofs.
Opaque lowest.
Close Scope Q_scope. Open Scope list_scope. Open Scope nat_scope.

Section C23.
Context {G NG : Type}.
Variable w : world G NG.

(** ** The land clock has no influence on a track *)
Definition setClock (s : sstate G) (c : Q) : sstate G :=
  {| s_pt := s_pt s; s_jday := s_jday s; s_dist := s_dist s; s_theta := s_theta s; s_v := s_v s; s_vChi := s_vChi s;
     s_bChi := s_bChi s; s_dpChi := s_dpChi s; s_dp := s_dp s; s_offP := s_offP s; s_offPoci := s_offPoci s;
     s_lfSpeed := s_lfSpeed s; s_tol := s_tol s; s_clock := c; s_g := s_g s |}.
Lemma step_clock eps lf rm i s c :
  match step w eps lf rm i s with
  | Next v s1 => exists c', step w eps lf rm i (setClock s c) = Next v (setClock s1 c')
  | Leave _ g => exists c', step w eps lf rm i (setClock s c) = Leave c' g
  | Fail e => step w eps lf rm i (setClock s c) = Fail e
  end.
Proof.
  unfold step. cbn [setClock s_pt s_jday s_dist s_theta s_v s_vChi s_bChi s_dpChi s_dp s_offP s_offPoci s_lfSpeed s_tol s_clock s_g].
  destruct (w_bear2 w _ _ _ _) as [lon lat].
  destruct (outside w lon lat); [eauto|].
  destruct (getCellNum lon lat (w_limit w) (w_space w)) as [cell|]; [|reflexivity].
  unfold onLand. destruct (w_mask w lon lat) as [m|]; [|reflexivity].
  destruct (qlt 0 m);
  destruct (stepPressureChange w _ _ _ _ _ _) as [[? ?] ?]; destruct (stepBearing w _ _ _ _ _ _) as [[? ?] ?];
  destruct (stepSpeed w _ _ _ _ _ _) as [[? ?] ?]; destruct (w_sizeFile w); try reflexivity; eexists; reflexivity.
Qed.
Definition same_walk (a b : gres (list point * Q * G)) : Prop :=
  match a with
  | GOk (l, _, g) => exists c, b = GOk (l, c, g)
  | GErr e => b = GErr e
  | GFuel => b = GFuel
  end.
Lemma walk_clock eps lf rm k : forall i s c, same_walk (walk w eps lf rm k i s) (walk w eps lf rm k i (setClock s c)).
Proof.
  induction k as [|k IH]; intros i s c; cbn [walk]; [cbn; eauto|].
  pose proof (step_clock eps lf rm i s c) as S0.
  destruct (step w eps lf rm i s) as [c1 g1|v s1|e].
  - destruct S0 as (c' & ->). cbn. eauto.
  - destruct S0 as (c' & ->). destruct v; [|cbn; eauto].
    specialize (IH (S i) s1 c'). destruct (walk w eps lf rm k (S i) s1) as [[[l c2] g2]|e|]; cbn in IH.
    + destruct IH as (c3 & ->). cbn. eauto.
    + rewrite IH. reflexivity.
    + rewrite IH. reflexivity.
  - rewrite S0. reflexivity.
Qed.
Lemma single_clock lon lat speed bear pres env rmax date jday rm c1 c2 g :
  same_walk (singleTrack w lon lat speed bear pres env rmax date jday rm c1 g)
            (singleTrack w lon lat speed bear pres env rmax date jday rm c2 g).
Proof.
  unfold singleTrack. destruct (w_maxSteps w) as [|k]; [reflexivity|].
  destruct (w_normal w _ _ g) as [eps g1]. destruct (w_lognorm w _ _ _ g1) as [lf g2].
  match goal with |- same_walk (gbind (walk w _ _ _ _ _ ?x) _) (gbind (walk w _ _ _ _ _ ?y) _) => 
    change y with (setClock x c2); pose proof (walk_clock eps lf rm k 1 x c2) as W;
    destruct (walk w eps lf rm k 1 x) as [[[l c'] g']|e|] end; cbn [same_walk] in W.
  - destruct W as (c3 & ->). cbn. eauto.
  - rewrite W. reflexivity.
  - rewrite W. reflexivity.
Qed.

(** Two generator states that agree but for the land clock and the last size variate. *)
Definition same_gens (a b : gstate G NG) : Prop := g_prng a = g_prng b /\ g_np a = g_np b.
Definition same_attempt {A} (a b : gres (A * gstate G NG)) : Prop :=
  match a with
  | GOk (x, s) => exists s', b = GOk (x, s') /\ same_gens s s'
  | GErr e => b = GErr e
  | GFuel => b = GFuel
  end.
Lemma attempt_same fuel year a s s' : given (i_rmax a) = None -> same_gens s s' ->
  same_attempt (attempt w fuel year a s) (attempt w fuel year a s').
Proof.
  intros R (E1 & E2). unfold attempt. rewrite R, <- E1, <- E2.
  destruct (w_origin w) as [[x y] z].
  match goal with |- same_attempt (gbind ?q _) _ => destruct q as [[[lon lat] g]|e|] end; try reflexivity.
  cbn [gbind]. destruct (getCellNum lon lat (w_limit w) (w_space w)) as [cell|]; [|reflexivity].
  match goal with |- same_attempt (gbind ?q _) _ => destruct q as [[bear g1]|e|] end; try reflexivity. cbn [gbind].
  match goal with |- same_attempt (gbind ?q _) _ => destruct q as [[speed g2]|e|] end; try reflexivity. cbn [gbind].
  match goal with |- same_attempt (gbind ?q _) _ => destruct q as [[day g3]|e|] end; try reflexivity. cbn [gbind].
  destruct (w_uniform w 0 24 g3) as [h g4].
  match goal with |- same_attempt (gbind ?q _) _ => destruct q as [tm|e|] end; try reflexivity. cbn [gbind].
  match goal with |- same_attempt (gbind ?q _) _ => destruct q as [[pres g5]|e|] end; try reflexivity. cbn [gbind].
  match goal with |- same_attempt (gbind ?q _) _ => destruct q as [[[rmax rm] ng]|e|] end; try reflexivity. cbn [gbind].
  destruct (w_bear2 w bear _ lon lat) as [nlon nlat].
  destruct (negb _); [cbn; eexists; split; [reflexivity|split; reflexivity]|].
  destruct (qlt _ 2); [cbn; eexists; split; [reflexivity|split; reflexivity]|].
  set (env := match given (i_env a) with Some e => e | None => w_mslp w day lat lon end).
  pose proof (single_clock lon lat speed bear pres env rmax (fst tm) (snd tm) rm (g_clock s) (g_clock s') g5) as W.
  destruct (singleTrack w lon lat speed bear pres env rmax (fst tm) (snd tm) rm (g_clock s) g5) as [[[t c'] g']|e|];
    cbn [same_walk] in W.
  - destruct W as (c3 & ->). cbn. eexists; split; [reflexivity|split; reflexivity].
  - rewrite W. reflexivity.
  - rewrite W. reflexivity.
Qed.
Lemma attempts_same fuel : forall year n sim a j s s', given (i_rmax a) = None -> same_gens s s' ->
  same_attempt (attempts w fuel year n sim a j s) (attempts w fuel year n sim a j s').
Proof.
  induction fuel as [|f IH]; intros year n sim a j s s' R E; cbn [attempts].
  - destruct (n <=? j); [cbn; eauto|reflexivity].
  - destruct (n <=? j); [cbn; eauto|].
    pose proof (attempt_same f year a s s' R E) as A.
    destruct (attempt w f year a s) as [[[e t] s1]|x|]; cbn [same_attempt] in A.
    + destruct A as (s2 & -> & E'). cbn [gbind]. destruct t as [t|].
      * specialize (IH year n sim (withEnv a e) (S j) s1 s2 R E').
        destruct (attempts w f year n sim (withEnv a e) (S j) s1) as [[q s3]|x|]; cbn [same_attempt] in IH.
        -- destruct IH as (s4 & -> & E3). cbn. eauto.
        -- rewrite IH. reflexivity.
        -- rewrite IH. reflexivity.
      * apply IH; auto.
    + rewrite A. reflexivity.
    + rewrite A. reflexivity.
Qed.
Lemma generate_same fuel n sim s s' : same_gens s s' ->
  same_attempt (generateTracks w fuel n sim noInits s) (generateTracks w fuel n sim noInits s').
Proof.
  intros (E1 & E2). unfold generateTracks. rewrite <- E1. destruct (w_uniform w _ _ _) as [y g].
  apply attempts_same; [reflexivity|]. split; cbn; auto.
Qed.
(** The tracks of a simulation are a function of the two generators. *)
Lemma c23_state_l fuel n sim s s' r st1 : g_prng s = g_prng s' -> g_np s = g_np s' ->
  generateTracks w fuel n sim noInits s = GOk (r, st1) ->
  exists st2, generateTracks w fuel n sim noInits s' = GOk (r, st2).
Proof.
  intros A B H. pose proof (generate_same fuel n sim s s' (conj A B)) as S0. rewrite H in S0.
  destruct S0 as (s2 & S0 & _). eauto.
Qed.

(** ** The simulation number only enters the identifiers *)
Definition retag (sim : Z) (it : itrack) : itrack := ((fst (fst it), sim), snd it).
Lemma attempts_sim fuel : forall year n sim sim' a j s,
  attempts w fuel year n sim' a j s =
  match attempts w fuel year n sim a j s with
  | GOk (r, s') => GOk (map (retag sim') r, s') | GErr e => GErr e | GFuel => GFuel end.
Proof.
  induction fuel as [|f IH]; intros year n sim sim' a j s; cbn [attempts].
  - destruct (n <=? j); reflexivity.
  - destruct (n <=? j); [reflexivity|].
    destruct (attempt w f year a s) as [[[e t] s1]|x|]; cbn [gbind]; try reflexivity.
    destruct t as [t|]; [|apply IH].
    rewrite (IH year n sim sim'). destruct (attempts w f year n sim (withEnv a e) (S j) s1) as [[q s3]|x|]; reflexivity.
Qed.
Lemma generate_sim fuel n sim sim' a s :
  generateTracks w fuel n sim' a s =
  match generateTracks w fuel n sim a s with
  | GOk (r, s') => GOk (map (retag sim') r, s') | GErr e => GErr e | GFuel => GFuel end.
Proof. unfold generateTracks. destruct (w_uniform w _ _ _). apply attempts_sim. Qed.

(** ** Runs *)
Lemma islice_nil_lt {A} P : forall (l : list A) k, length l <= k -> islice P k l = [].
Proof.
  induction l as [|x l IH]; intros k H; [reflexivity|]. destruct k; simpl in *; [lia|]. apply IH. lia.
Qed.
Lemma islice_head {A} P : forall (l : list A) k x, nth_error l k = Some x -> exists r, islice P k l = x :: r.
Proof.
  induction l as [|y l IH]; intros k x H; [destruct k; discriminate|].
  destruct k as [|k]; cbn in *; [inversion H; eauto|]. apply IH. exact H.
Qed.
Lemma simulate_run fuel seed N : forall sims st r st', N <> 0 -> simulate w fuel seed N sims st = GOk (r, st') ->
  map fst r = map fst sims.
Proof.
  induction sims as [|[i n] sims IH]; intros st r st' NZ; cbn [simulate].
  - intros H; inversion H; reflexivity.
  - destruct (N =? 0) eqn:E; [lia|]. intros H. ginv H. destruct v as [t s1]. ginv H. destruct v as [q s2].
    inversion H; subst. cbn. f_equal. eapply IH; eauto.
Qed.
Lemma simulate_ok fuel seed N : N <> 0 -> forall sims st,
  (forall i n s, In (i, n) sims -> exists r, generateTracks w fuel n (Z.of_nat i) noInits s = GOk r) ->
  exists r, simulate w fuel seed N sims st = GOk r.
Proof.
  intros NZ. induction sims as [|[i n] sims IH]; intros st H; cbn [simulate]; [eauto|].
  destruct (N =? 0) eqn:E; [lia|].
  match goal with |- context [generateTracks w fuel n (Z.of_nat i) noInits ?s] =>
    destruct (H i n s (or_introl eq_refl)) as ([q s1] & ->) end.
  cbn [gbind fst snd]. destruct (IH s1) as ([r s2] & ->); [intros; apply H; now right|]. cbn. eauto.
Qed.
Lemma rev_combine_last {A} (l : list A) : l <> [] -> exists x, rev (combine (seq 0 (length l)) l) = x :: tl (rev (combine (seq 0 (length l)) l)) /\ fst x = length l - 1.
Proof.
  intros H. destruct (@exists_last _ l H) as (l' & a & ->).
  rewrite app_length. simpl. rewrite Nat.add_1_r, seq_S.
  assert (C : forall (x y : list nat) (u v : list A), length x = length u -> combine (x ++ y) (u ++ v) = combine x u ++ combine y v).
  { clear. induction x as [|a x IH]; intros y [|b u] v H; simpl in *; try discriminate; auto. f_equal. apply IH. lia. }
  rewrite C by (now rewrite seq_length). rewrite rev_app_distr. cbn. eexists. split; [reflexivity|]. cbn. lia.
Qed.
Lemma in_combine_seq {A} (l : list A) i n k : In (i, n) (combine (seq k (length l)) l) -> In n l.
Proof. intros H. eapply in_combine_r; eauto. Qed.

Lemma islice_in {A} P : forall (l : list A) k x, In x (islice P k l) -> In x l.
Proof.
  induction l as [|y l IH]; intros k x H; [inversion H|].
  destruct k as [|k]; cbn in H.
  - destruct H as [->|H]; [now left|]. right. eapply IH; eauto.
  - right. eapply IH; eauto.
Qed.
Lemma c64_l fuel ss ts mean n size rank st0 :
  2 <= n -> (size = 1 \/ (ss <> 0 /\ ts <> 0)%Z) ->
  (forall ng, length (fst (w_poisson w mean n ng)) = n) ->
  (forall i m s, i < n -> exists r, generateTracks w fuel m (Z.of_nat i) noInits s = GOk r) ->
  exists r, run w fuel ss ts mean n size rank st0 = GOk r /\ map fst r = balanced size rank (seq 0 n).
Proof.
  intros N2 SZ PL TOT. unfold run.
  destruct ((1 <? size) && ((ss =? 0)%Z || (ts =? 0)%Z)) eqn:X.
  { apply andb_prop in X as (X1 & X2). apply Nat.ltb_lt in X1. apply orb_prop in X2.
    rewrite !Z.eqb_eq in X2. exfalso. destruct SZ as [->|[? ?]]; [|tauto]. inversion X1. inversion H0. }
  specialize (PL (if (ss =? 0)%Z then g_np st0 else w_npseed w ss)).
  destruct (w_poisson w mean n _) as [counts ng] eqn:P. cbn in PL.
  destruct (@rev_combine_last _ counts) as ((lst & m) & RC & LL); [intros ->; simpl in PL; lia|].
  rewrite RC. cbn in LL. assert (NZ : lst <> 0) by lia.
  match goal with |- context [simulate w fuel ts lst ?l ?s] =>
    destruct (simulate_ok fuel ts lst NZ l s) as ([r s'] & S0) end.
  { intros i k s IN. apply TOT. apply islice_in in IN. apply in_combine_l in IN. apply in_seq in IN. lia. }
  rewrite S0. cbn. exists r. split; [reflexivity|]. rewrite (simulate_run _ _ _ _ _ _ _ NZ S0).
  rewrite PL in *. clear -PL.
  unfold balanced.
  assert (Gn : forall (l : list nat) (c : list nat) k, length l = length c -> map fst (islice size k (combine l c)) = islice size k l).
  { induction l as [|a l IH]; intros [|b c] k H; simpl in *; try discriminate; auto.
    destruct k; simpl; rewrite IH; auto. }
  apply Gn. now rewrite seq_length.
Qed.
Lemma c64_refuted_l fuel ss ts mean st0 :
  (forall ng, length (fst (w_poisson w mean 1 ng)) = 1) ->
  run w fuel ss ts mean 1 1 0 st0 = GErr GZeroDiv.
Proof.
  intros PL. unfold run. cbn [Nat.ltb Nat.leb andb].
  specialize (PL (if (ss =? 0)%Z then g_np st0 else w_npseed w ss)).
  destruct (w_poisson w mean 1 _) as [counts ng]. cbn in PL.
  destruct counts as [|c [|c' counts]]; try discriminate. reflexivity.
Qed.

(** The first simulation of a process. *)
Lemma c23_first_l fuel ss ts mean n size rank st0 r m :
  (ss <> 0)%Z -> (ts <> 0)%Z ->
  nth_error (fst (w_poisson w mean n (w_npseed w ss))) rank = Some m ->
  run w fuel ss ts mean n size rank st0 = GOk r ->
  exists tr r' st, r = (rank, tr) :: r' /\
    generateTracks w fuel m (Z.of_nat rank) noInits
      {| g_prng := w_key w (streamKey ts (Z.of_nat rank)); g_np := snd (w_poisson w mean n (w_npseed w ss));
         g_clock := g_clock st0; g_rmw := g_rmw st0 |} = GOk (tr, st).
Proof.
  intros S1 S2 NE. unfold run.
  destruct ((1 <? size) && ((ss =? 0)%Z || (ts =? 0)%Z)); [discriminate|].
  destruct (ss =? 0)%Z eqn:X; [lia|].
  destruct (w_poisson w mean n (w_npseed w ss)) as [counts ng]. cbn [fst snd] in *.
  destruct (rev (combine (seq 0 (length counts)) counts)) as [|[lst q] rr]; [discriminate|].
  assert (NC : nth_error (combine (seq 0 (length counts)) counts) rank = Some (rank, m)).
  { assert (C : forall (l : list nat) k rank, nth_error l rank = Some m -> nth_error (combine (seq k (length l)) l) rank = Some (k + rank, m)).
    { clear. induction l as [|a l IH]; intros k rank H; [destruct rank; discriminate|].
      destruct rank as [|rank]; cbn in *; [rewrite Nat.add_0_r; congruence|]. rewrite Nat.add_succ_r. now apply IH. }
    rewrite (C _ 0 _ NE). reflexivity. }
  unfold balanced. destruct (islice_head size _ _ _ NC) as (rest & ->).
  cbn [simulate]. destruct (lst =? 0); [discriminate|]. destruct (ts =? 0)%Z eqn:Y; [lia|].
  cbn [g_np g_clock g_rmw].
  intros H. ginv H. ginv E. destruct v0 as [tr st]. ginv E. destruct v0 as [q2 s2]. inversion E; subst. inversion H; subst.
  cbn. eauto 6.
Qed.
Lemma c23_first2_l fuel ss ts mean n size size' rank st0 st0' r r' m :
  (ss <> 0)%Z -> (ts <> 0)%Z ->
  nth_error (fst (w_poisson w mean n (w_npseed w ss))) rank = Some m ->
  run w fuel ss ts mean n size rank st0 = GOk r -> run w fuel ss ts mean n size' rank st0' = GOk r' ->
  exists tr, nth_error r 0 = Some (rank, tr) /\ nth_error r' 0 = Some (rank, tr).
Proof.
  intros A B C D E. apply (c23_first_l _ _ _ _ _ _ _ _ _ _ A B C) in D as (tr & q & s & -> & D).
  apply (c23_first_l _ _ _ _ _ _ _ _ _ _ A B C) in E as (tr' & q' & s' & -> & E).
  edestruct c23_state_l as (s2 & F); [| |exact D|]; [| |rewrite E in F]; [reflexivity|reflexivity|].
  inversion F; subst. exists tr. auto.
Qed.
End C23.
