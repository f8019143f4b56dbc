(** Proofs about [LoadModel]: domains, derived quantities, frequency. *)
From Coq Require Import QArith Qabs Qround Lqa Lia Permutation.
From Verif Require Import Base CellModel CellProofs LoadModel LoadProofs.
From Verif Require GenModel GenProofs.
Close Scope Q_scope. Open Scope list_scope. Open Scope nat_scope.
Local Notation qlt_false_iff := GenProofs.qlt_false_iff.

(** * One coordinate of the domain *)
Definition dstep (s : Q * Q) (r : bool * bool * Q) : Q * Q :=
  let l := pmin (if fst (fst r) then 9999 else snd s) (snd r) in
  (inject_Z (Qfloor (if snd (fst r) then pmin (fst s) l else fst s)), l).
Definition drun (L : list (bool * bool * Q)) (d0 : Q) : Q * Q := fold_left dstep L (d0, 9999%Q).
Definition d0r : bool * bool * Q := (false, false, 0%Q).
Definition sameRun (L : list (bool * bool * Q)) (i j : nat) : Prop :=
  i <= j < length L /\ forall k, i < k <= j -> fst (fst (nth k L d0r)) = false.

Lemma pmin_l a b : (pmin a b <= a)%Q.
Proof. unfold pmin. destruct (qlt b a) eqn:E; [apply qlt_iff in E; lra|lra]. Qed.
Lemma pmin_r a b : (pmin a b <= b)%Q.
Proof. unfold pmin. destruct (qlt b a) eqn:E; [lra|apply qlt_false_iff in E; lra]. Qed.
Lemma pmin_cases a b : pmin a b = a \/ pmin a b = b.
Proof. unfold pmin. destruct (qlt b a); auto. Qed.
Lemma qfloor_le' x : (inject_Z (Qfloor x) <= x)%Q.
Proof. apply Qfloor_le. Qed.

Lemma dstep_le s r : (fst (dstep s r) <= fst s)%Q.
Proof.
  unfold dstep. cbn [fst]. eapply Qle_trans; [apply Qfloor_le|].
  destruct (snd (fst r)); [apply pmin_l|apply Qle_refl].
Qed.
Lemma drun_mono L : forall s, (fst (fold_left dstep L s) <= fst s)%Q.
Proof.
  induction L as [|r L IH]; intros s; cbn [fold_left]; [apply Qle_refl|].
  eapply Qle_trans; [apply IH|apply dstep_le].
Qed.
Lemma drun_lim L d0 : forall i, i < length L ->
  (forall k, i < k < length L -> fst (fst (nth k L d0r)) = false) -> (snd (drun L d0) <= snd (nth i L d0r))%Q.
Proof.
  unfold drun. induction L as [|r L IH] using rev_ind; intros i Hi Hk; cbn in Hi; [lia|].
  rewrite app_length in Hi, Hk. cbn in Hi, Hk. rewrite fold_left_app. cbn [fold_left].
  destruct (Nat.eq_dec i (length L)) as [->|Hne].
  - rewrite app_nth2, Nat.sub_diag by lia. cbn [nth]. unfold dstep. cbn [snd]. apply pmin_r.
  - rewrite app_nth1 by lia.
    assert (E : fst (fst r) = false).
    { specialize (Hk (length L) ltac:(lia)). rewrite app_nth2, Nat.sub_diag in Hk by lia. exact Hk. }
    unfold dstep at 1. cbn [snd]. rewrite E. eapply Qle_trans; [apply pmin_l|].
    apply IH; [lia|]. intros k Hk'. specialize (Hk k ltac:(lia)). rewrite app_nth1 in Hk by lia. exact Hk.
Qed.
Lemma drun_cover L d0 i j : sameRun L i j -> snd (fst (nth j L d0r)) = true -> (fst (drun L d0) <= snd (nth i L d0r))%Q.
Proof.
  intros [Hij Hk] Hin. destruct (nth_split L d0r (proj2 Hij)) as (L1 & L2 & HL & Hlen).
  set (r := nth j L d0r) in *. clearbody r.
  assert (E : L = (L1 ++ [r]) ++ L2) by (rewrite <- app_assoc; exact HL).
  unfold drun. rewrite E, fold_left_app. fold (drun (L1 ++ [r]) d0).
  eapply Qle_trans; [apply drun_mono|].
  assert (Hlen' : length (L1 ++ [r]) = S j) by (rewrite app_length; cbn; lia).
  assert (Hlim : (snd (drun (L1 ++ [r]) d0) <= snd (nth i ((L1 ++ [r]) ++ L2) d0r))%Q).
  { rewrite app_nth1 by lia. apply drun_lim; [lia|]. intros k Hk'. rewrite Hlen' in Hk'.
    specialize (Hk k ltac:(lia)). rewrite E, app_nth1 in Hk by lia. exact Hk. }
  eapply Qle_trans; [|exact Hlim]. unfold drun. rewrite fold_left_app. cbn [fold_left]. unfold dstep. cbn [fst snd].
  rewrite Hin. eapply Qle_trans; [apply Qfloor_le|]. apply pmin_r.
Qed.
Lemma drun_below L d0 : (fst (drun L d0) <= d0)%Q.
Proof. unfold drun. eapply Qle_trans; [apply drun_mono|]. apply Qle_refl. Qed.

Lemma sameRun_app L r i j : sameRun L i j -> sameRun (L ++ [r]) i j.
Proof.
  intros [H1 H2]. split; [rewrite app_length; cbn; lia|]. intros k Hk. rewrite app_nth1 by lia. auto.
Qed.
Lemma drun_lim_exact L d0 : L <> [] -> Forall (fun r => snd r <= 9999)%Q L ->
  exists i, sameRun L i (length L - 1) /\ (snd (drun L d0) == snd (nth i L d0r))%Q.
Proof.
  unfold drun. induction L as [|r L IH] using rev_ind; [congruence|]. intros _ HF.
  apply Forall_app in HF. destruct HF as [HF Hr]. inversion Hr as [|x y Hr1 _]; subst.
  rewrite fold_left_app. cbn [fold_left]. set (s := fold_left dstep L (d0, 9999%Q)) in *.
  rewrite app_length. cbn [length]. replace (length L + 1 - 1) with (length L) by lia.
  assert (Hself : sameRun (L ++ [r]) (length L) (length L)).
  { split; [rewrite app_length; cbn; lia|]. intros; lia. }
  assert (Hn : nth (length L) (L ++ [r]) d0r = r) by (rewrite app_nth2, Nat.sub_diag by lia; reflexivity).
  unfold dstep. cbn [snd]. destruct (fst (fst r)) eqn:Ef.
  - exists (length L). split; [exact Hself|]. rewrite Hn. unfold pmin.
    destruct (qlt (snd r) 9999) eqn:E; [reflexivity|]. apply qlt_false_iff in E. lra.
  - destruct L as [|r0 L0] eqn:EL.
    + exists 0. split; [exact Hself|]. cbn. cbn in s. subst s. cbn. unfold pmin.
      destruct (qlt (snd r) 9999) eqn:E; [reflexivity|]. apply qlt_false_iff in E. lra.
    + rewrite <- EL in *. destruct (IH ltac:(rewrite EL; discriminate) HF) as (i & Hi & He).
      destruct (pmin_cases (snd s) (snd r)) as [E|E]; rewrite E.
      * exists i. destruct Hi as [Hi1 Hi2]. split.
        -- split; [rewrite app_length; cbn; lia|]. intros k Hk. destruct (Nat.eq_dec k (length L)) as [->|].
           ++ now rewrite Hn.
           ++ rewrite app_nth1 by lia. apply Hi2. lia.
        -- rewrite app_nth1 by lia. exact He.
      * exists (length L). split; [exact Hself|]. rewrite Hn. reflexivity.
Qed.
Lemma drun_tight L d0 : L <> [] -> Forall (fun r => snd r <= 9999)%Q L ->
  (fst (drun L d0) == inject_Z (Qfloor d0))%Q \/
  exists i j, sameRun L i j /\ snd (fst (nth j L d0r)) = true /\ (fst (drun L d0) == inject_Z (Qfloor (snd (nth i L d0r))))%Q.
Proof.
  induction L as [|r L IH] using rev_ind; [congruence|]. intros _ HF.
  assert (HF0 := HF). apply Forall_app in HF. destruct HF as [HF Hr].
  assert (Hprev : L = [] /\ fst (drun L d0) = d0 \/
    ((exists z, fst (drun L d0) = inject_Z z) /\
     ((fst (drun L d0) == inject_Z (Qfloor d0))%Q \/
      exists i j, sameRun L i j /\ snd (fst (nth j L d0r)) = true /\ (fst (drun L d0) == inject_Z (Qfloor (snd (nth i L d0r))))%Q))).
  { destruct L as [|a L'] eqn:EL; [left; auto|]. right. rewrite <- EL in *.
    split; [|apply IH; [rewrite EL; discriminate|exact HF]].
    rewrite EL. destruct (@exists_last _ (a :: L') ltac:(discriminate)) as (l' & x & ->).
    unfold drun. rewrite fold_left_app. cbn [fold_left]. unfold dstep. cbn [fst]. eauto. }
  assert (Hlast : exists i, sameRun (L ++ [r]) i (length L) /\
                  (snd (drun (L ++ [r]) d0) == snd (nth i (L ++ [r]) d0r))%Q).
  { destruct (drun_lim_exact (L ++ [r]) d0) as (i & Hi & He); auto.
    - now destruct L.
    - rewrite app_length in Hi. cbn in Hi. replace (length L + 1 - 1) with (length L) in Hi by lia. eauto. }
  assert (Hn : nth (length L) (L ++ [r]) d0r = r) by (rewrite app_nth2, Nat.sub_diag by lia; reflexivity).
  assert (Es : drun (L ++ [r]) d0 = dstep (drun L d0) r) by (unfold drun; now rewrite fold_left_app).
  assert (Hkeep : fst (drun (L ++ [r]) d0) = inject_Z (Qfloor (fst (drun L d0))) ->
    (fst (drun (L ++ [r]) d0) == inject_Z (Qfloor d0))%Q \/
    exists i j, sameRun (L ++ [r]) i j /\ snd (fst (nth j (L ++ [r]) d0r)) = true /\
      (fst (drun (L ++ [r]) d0) == inject_Z (Qfloor (snd (nth i (L ++ [r]) d0r))))%Q).
  { intros E. destruct Hprev as [[-> Hd]|[[z Hz] [Hd|(i & j & Hs & Hin & Hd)]]].
    - left. rewrite E, Hd. reflexivity.
    - left. rewrite E, Hz, Qfloor_Z, <- Hz. exact Hd.
    - right. exists i, j. split; [now apply sameRun_app|]. destruct Hs as [Hs _].
      rewrite !app_nth1 by lia. split; auto. rewrite E, Hz, Qfloor_Z, <- Hz. exact Hd. }
  destruct (snd (fst r)) eqn:Ein.
  - destruct Hlast as (i & Hi & He). rewrite Es in He. unfold dstep in He. cbn [snd] in He.
    set (l := pmin (if fst (fst r) then 9999 else snd (drun L d0)) (snd r)) in *.
    destruct (pmin_cases (fst (drun L d0)) l) as [E|E].
    + apply Hkeep. rewrite Es. unfold dstep. cbn [fst]. fold l. now rewrite Ein, E.
    + right. exists i, (length L). split; [exact Hi|]. rewrite Hn. split; [exact Ein|].
      rewrite Es. unfold dstep. cbn [fst]. fold l. rewrite Ein, E. now rewrite (Qfloor_comp _ _ He).
  - apply Hkeep. rewrite Es. unfold dstep. cbn [fst]. now rewrite Ein.
Qed.

(** * The four coordinates *)
Definition projx (wf : box) (r : Z * (Q * Q)) := ((fst r =? 1)%Z, within wf (snd r), fst (snd r)).
Definition projX (wf : box) (r : Z * (Q * Q)) := ((fst r =? 1)%Z, within wf (snd r), (- fst (snd r))%Q).
Definition projy (wf : box) (r : Z * (Q * Q)) := ((fst r =? 1)%Z, within wf (snd r), snd (snd r)).
Definition projY (wf : box) (r : Z * (Q * Q)) := ((fst r =? 1)%Z, within wf (snd r), (- snd (snd r))%Q).
Lemma qopp2 q : (- - q)%Q = q.
Proof. destruct q as [n d]. unfold Qopp. cbn. now rewrite Z.opp_involutive. Qed.
Lemma qlt_opp a b : qlt (- b) (- a) = qlt a b.
Proof.
  destruct (qlt (- b) (- a)) eqn:E1, (qlt a b) eqn:E2; auto.
  - apply qlt_iff in E1. apply qlt_false_iff in E2. lra.
  - apply qlt_iff in E2. apply qlt_false_iff in E1. lra.
Qed.
Lemma pmax_opp a b : (- pmax a b)%Q = pmin (- a) (- b).
Proof. unfold pmax, pmin. rewrite qlt_opp. now destruct (qlt a b). Qed.
Lemma ceil_opp q : (- inject_Z (Qceiling q))%Q = inject_Z (Qfloor (- q)).
Proof. unfold Qceiling, inject_Z, Qopp. cbn. now rewrite Z.opp_involutive. Qed.

Lemma calc_x0 wf recs : b_x0 (calcDomain wf recs) = fst (drun (map (projx wf) recs) (b_x0 wf)).
Proof.
  unfold calcDomain, drun.
  assert (G : forall s t, (b_x0 (fst s), b_x0 (snd s)) = t ->
    b_x0 (fst (fold_left (domainStep wf) recs s)) = fst (fold_left dstep (map (projx wf) recs) t)).
  { induction recs as [|r recs IH]; intros s t E; [subst t; reflexivity|]. cbn [fold_left map]. apply IH.
    subst t. unfold domainStep, dstep, projx. cbn [fst snd]. destruct (fst r =? 1)%Z, (within wf (snd r)); reflexivity. }
  now apply G.
Qed.
Lemma calc_y0 wf recs : b_y0 (calcDomain wf recs) = fst (drun (map (projy wf) recs) (b_y0 wf)).
Proof.
  unfold calcDomain, drun.
  assert (G : forall s t, (b_y0 (fst s), b_y0 (snd s)) = t ->
    b_y0 (fst (fold_left (domainStep wf) recs s)) = fst (fold_left dstep (map (projy wf) recs) t)).
  { induction recs as [|r recs IH]; intros s t E; [subst t; reflexivity|]. cbn [fold_left map]. apply IH.
    subst t. unfold domainStep, dstep, projy. cbn [fst snd]. destruct (fst r =? 1)%Z, (within wf (snd r)); reflexivity. }
  now apply G.
Qed.
Lemma calc_x1 wf recs : b_x1 (calcDomain wf recs) = (- fst (drun (map (projX wf) recs) (- b_x1 wf)))%Q.
Proof.
  unfold calcDomain, drun. rewrite <- (qopp2 (b_x1 _)). f_equal.
  assert (G : forall s t, ((- b_x1 (fst s))%Q, (- b_x1 (snd s))%Q) = t ->
    (- b_x1 (fst (fold_left (domainStep wf) recs s)))%Q = fst (fold_left dstep (map (projX wf) recs) t)).
  { induction recs as [|r recs IH]; intros s t E; [subst t; reflexivity|]. cbn [fold_left map]. apply IH.
    subst t. unfold domainStep, dstep, projX. cbn [fst snd b_x1 whole reach join noLimits].
    rewrite ceil_opp. destruct (fst r =? 1)%Z, (within wf (snd r)); cbn [b_x1 whole reach join noLimits];
      rewrite ?pmax_opp; reflexivity. }
  now apply G.
Qed.
Lemma calc_y1 wf recs : b_y1 (calcDomain wf recs) = (- fst (drun (map (projY wf) recs) (- b_y1 wf)))%Q.
Proof.
  unfold calcDomain, drun. rewrite <- (qopp2 (b_y1 _)). f_equal.
  assert (G : forall s t, ((- b_y1 (fst s))%Q, (- b_y1 (snd s))%Q) = t ->
    (- b_y1 (fst (fold_left (domainStep wf) recs s)))%Q = fst (fold_left dstep (map (projY wf) recs) t)).
  { induction recs as [|r recs IH]; intros s t E; [subst t; reflexivity|]. cbn [fold_left map]. apply IH.
    subst t. unfold domainStep, dstep, projY. cbn [fst snd b_y1 whole reach join noLimits].
    rewrite ceil_opp. destruct (fst r =? 1)%Z, (within wf (snd r)); cbn [b_y1 whole reach join noLimits];
      rewrite ?pmax_opp; reflexivity. }
  now apply G.
Qed.

(** Positions [i] and [j] belong to one cyclone. *)
Definition sameCyclone (recs : list (Z * (Q * Q))) (i j : nat) : Prop :=
  i <= j < length recs /\ forall k r, i < k <= j -> nth_error recs k = Some r -> fst r <> 1%Z.
Lemma nth_map_err {A B} (f : A -> B) (d : B) l i a : nth_error l i = Some a -> nth i (map f l) d = f a.
Proof. intros H. apply nth_error_nth. now rewrite nth_error_map, H. Qed.
Lemma sameRun_proj (f : Z * (Q * Q) -> bool * bool * Q) recs i j : (forall r, fst (fst (f r)) = (fst r =? 1)%Z) ->
  sameCyclone recs i j -> sameRun (map f recs) i j.
Proof.
  intros Hf [H1 H2]. split; [now rewrite map_length|]. intros k Hk.
  destruct (nth_error recs k) as [r|] eqn:E; [|apply nth_error_None in E; lia].
  rewrite (nth_map_err f d0r recs k r E), Hf. specialize (H2 k r Hk E). lia.
Qed.
Lemma sameRun_unproj (f : Z * (Q * Q) -> bool * bool * Q) recs i j : (forall r, fst (fst (f r)) = (fst r =? 1)%Z) ->
  sameRun (map f recs) i j -> sameCyclone recs i j.
Proof.
  intros Hf [H1 H2]. rewrite map_length in H1. split; auto. intros k r Hk E Hr.
  specialize (H2 k Hk). rewrite (nth_map_err f d0r recs k r E), Hf, Hr in H2. discriminate.
Qed.
Lemma within_iff b p : within b p = true <-> (b_x0 b <= fst p /\ fst p <= b_x1 b /\ b_y0 b <= snd p /\ snd p <= b_y1 b)%Q.
Proof. unfold within. rewrite !andb_true_iff, !Qle_bool_iff. tauto. Qed.

Lemma c33_cover_l wf recs i j ri rj : sameCyclone recs i j -> nth_error recs i = Some ri -> nth_error recs j = Some rj ->
  within wf (snd rj) = true -> within (calcDomain wf recs) (snd ri) = true.
Proof.
  intros Hs Hi Hj Hin. apply within_iff. rewrite calc_x0, calc_x1, calc_y0, calc_y1.
  pose proof (drun_cover (map (projx wf) recs) (b_x0 wf) i j) as H1.
  pose proof (drun_cover (map (projX wf) recs) (- b_x1 wf) i j) as H2.
  pose proof (drun_cover (map (projy wf) recs) (b_y0 wf) i j) as H3.
  pose proof (drun_cover (map (projY wf) recs) (- b_y1 wf) i j) as H4.
  rewrite (nth_map_err _ d0r _ _ _ Hj), (nth_map_err _ d0r _ _ _ Hi) in H1.
  rewrite (nth_map_err _ d0r _ _ _ Hj), (nth_map_err _ d0r _ _ _ Hi) in H2.
  rewrite (nth_map_err _ d0r _ _ _ Hj), (nth_map_err _ d0r _ _ _ Hi) in H3.
  rewrite (nth_map_err _ d0r _ _ _ Hj), (nth_map_err _ d0r _ _ _ Hi) in H4.
  specialize (H1 (sameRun_proj (projx wf) _ _ _ (fun r => eq_refl) Hs) Hin).
  specialize (H2 (sameRun_proj (projX wf) _ _ _ (fun r => eq_refl) Hs) Hin).
  specialize (H3 (sameRun_proj (projy wf) _ _ _ (fun r => eq_refl) Hs) Hin).
  specialize (H4 (sameRun_proj (projY wf) _ _ _ (fun r => eq_refl) Hs) Hin).
  cbn [snd projx projX projy projY] in *. repeat split; lra.
Qed.
Lemma c33_contains_l wf recs p : within wf p = true -> within (calcDomain wf recs) p = true.
Proof.
  rewrite !within_iff. rewrite calc_x0, calc_x1, calc_y0, calc_y1. intros (H1 & H2 & H3 & H4).
  pose proof (drun_below (map (projx wf) recs) (b_x0 wf)).
  pose proof (drun_below (map (projX wf) recs) (- b_x1 wf)).
  pose proof (drun_below (map (projy wf) recs) (b_y0 wf)).
  pose proof (drun_below (map (projY wf) recs) (- b_y1 wf)). repeat split; lra.
Qed.
(** Positions of a cyclone up to one of its positions inside the wind field domain. *)
Definition leadsIn (wf : box) (recs : list (Z * (Q * Q))) (p : Q * Q) : Prop :=
  exists i j ri rj, sameCyclone recs i j /\ nth_error recs i = Some ri /\ nth_error recs j = Some rj /\
    within wf (snd rj) = true /\ p = snd ri.
Lemma tight_one (f : Z * (Q * Q) -> bool * bool * Q) wf recs d0 :
  (forall r, fst (f r) = ((fst r =? 1)%Z, within wf (snd r))) -> recs <> [] ->
  (forall r, In r recs -> (snd (f r) <= 9999)%Q) ->
  (fst (drun (map f recs) d0) == inject_Z (Qfloor d0))%Q \/
  exists i j ri rj, sameCyclone recs i j /\ nth_error recs i = Some ri /\ nth_error recs j = Some rj /\
    within wf (snd rj) = true /\ (fst (drun (map f recs) d0) == inject_Z (Qfloor (snd (f ri))))%Q.
Proof.
  intros Hf Hne Hb.
  destruct (drun_tight (map f recs) d0) as [H|(i & j & Hs & Hin & Hd)].
  - now destruct recs.
  - rewrite Forall_map, Forall_forall. exact Hb.
  - now left.
  - right. assert (Hc : sameCyclone recs i j).
    { eapply sameRun_unproj; [|exact Hs]. intros r. now rewrite Hf. }
    destruct Hc as [Hc1 Hc2].
    destruct (nth_error recs i) as [ri|] eqn:Ei; [|apply nth_error_None in Ei; lia].
    destruct (nth_error recs j) as [rj|] eqn:Ej; [|apply nth_error_None in Ej; lia].
    rewrite (nth_map_err _ d0r _ _ _ Ej), Hf in Hin. rewrite (nth_map_err _ d0r _ _ _ Ei) in Hd.
    exists i, j, ri, rj. repeat split; auto; lia.
Qed.
Lemma c33_tight_l wf recs : recs <> [] ->
  (forall r, In r recs -> (-9999 <= fst (snd r) <= 9999 /\ -9999 <= snd (snd r) <= 9999)%Q) ->
  let d := calcDomain wf recs in
  ((b_x0 d == inject_Z (Qfloor (b_x0 wf)))%Q \/ exists p, leadsIn wf recs p /\ (b_x0 d == inject_Z (Qfloor (fst p)))%Q) /\
  ((b_x1 d == inject_Z (Qceiling (b_x1 wf)))%Q \/ exists p, leadsIn wf recs p /\ (b_x1 d == inject_Z (Qceiling (fst p)))%Q) /\
  ((b_y0 d == inject_Z (Qfloor (b_y0 wf)))%Q \/ exists p, leadsIn wf recs p /\ (b_y0 d == inject_Z (Qfloor (snd p)))%Q) /\
  ((b_y1 d == inject_Z (Qceiling (b_y1 wf)))%Q \/ exists p, leadsIn wf recs p /\ (b_y1 d == inject_Z (Qceiling (snd p)))%Q).
Proof.
  intros Hne Hb d.
  assert (Hc : forall q, inject_Z (Qceiling q) = (- inject_Z (Qfloor (- q)))%Q).
  { intros q. rewrite <- ceil_opp. now rewrite qopp2. }
  split; [|split; [|split]].
  - unfold d. rewrite calc_x0. destruct (tight_one (projx wf) wf recs (b_x0 wf) (fun r => eq_refl) Hne) as [H|(i & j & ri & rj & H1 & H2 & H3 & H4 & H5)]; auto.
    + intros r Hr. apply (Hb r Hr).
    + right. exists (snd ri). split; [|exact H5]. exists i, j, ri, rj. auto.
  - unfold d. rewrite calc_x1. destruct (tight_one (projX wf) wf recs (- b_x1 wf)%Q (fun r => eq_refl) Hne) as [H|(i & j & ri & rj & H1 & H2 & H3 & H4 & H5)]; auto.
    + intros r Hr. cbn [projX snd]. specialize (Hb r Hr). lra.
    + left. rewrite H, Hc. reflexivity.
    + right. exists (snd ri). split; [exists i, j, ri, rj; auto|]. rewrite H5, Hc. reflexivity.
  - unfold d. rewrite calc_y0. destruct (tight_one (projy wf) wf recs (b_y0 wf) (fun r => eq_refl) Hne) as [H|(i & j & ri & rj & H1 & H2 & H3 & H4 & H5)]; auto.
    + intros r Hr. apply (Hb r Hr).
    + right. exists (snd ri). split; [|exact H5]. exists i, j, ri, rj. auto.
  - unfold d. rewrite calc_y1. destruct (tight_one (projY wf) wf recs (- b_y1 wf)%Q (fun r => eq_refl) Hne) as [H|(i & j & ri & rj & H1 & H2 & H3 & H4 & H5)]; auto.
    + intros r Hr. cbn [projY snd]. specialize (Hb r Hr). lra.
    + left. rewrite H, Hc. reflexivity.
    + right. exists (snd ri). split; [exists i, j, ri, rj; auto|]. rewrite H5, Hc. reflexivity.
Qed.

(** * Extracted tracks *)
Lemma extract_from lo hi d : forall recs b flag k,
  (In k (extractFrom lo hi d b flag recs) -> b <= k < b + length recs) /\
  (forall s rs, s <= k - b -> b <= k < b + length recs -> nth_error recs s = Some rs -> fst rs = 1%Z ->
    (forall m r, s < m <= k - b -> nth_error recs m = Some r -> fst r <> 1%Z) ->
    (In k (extractFrom lo hi d b flag recs) <-> starts lo hi d (snd rs) = true)) /\
  (b <= k < b + length recs -> (forall m r, m <= k - b -> nth_error recs m = Some r -> fst r <> 1%Z) ->
    (In k (extractFrom lo hi d b flag recs) <-> flag = true)).
Proof.
  induction recs as [|(f, p) recs IH]; intros b flag k; [split; [|split]; cbn; intros; lia|].
  cbn [extractFrom length]. set (fg := if (f =? 1)%Z then starts lo hi d p else flag).
  destruct (IH (S b) fg k) as (I1 & I2 & I3).
  assert (Hin : In k (if fg then b :: extractFrom lo hi d (S b) fg recs else extractFrom lo hi d (S b) fg recs) <->
                (k = b /\ fg = true) \/ In k (extractFrom lo hi d (S b) fg recs)).
  { destruct fg; cbn; intuition (auto; congruence). }
  assert (Hb : In k (extractFrom lo hi d (S b) fg recs) -> k <> b) by (intros H; apply I1 in H; lia).
  split; [|split].
  - rewrite Hin. intros [[-> _]|H]; [lia|]. apply I1 in H. lia.
  - intros s rs Hs Hk Hn Hf Hm. rewrite Hin. destruct (Nat.eq_dec k b) as [->|Hne].
    + assert (s = 0) by lia. subst s. cbn in Hn. injection Hn as <-. cbn in Hf. subst f.
      subst fg. cbn [Z.eqb]. change (1 =? 1)%Z with true in *. cbn [snd]. intuition.
    + destruct s as [|s].
      * cbn in Hn. injection Hn as <-. cbn in Hf. subst f.
        assert (E : fg = starts lo hi d p) by reflexivity. cbn [snd]. rewrite <- E.
        assert (HI : In k (extractFrom lo hi d (S b) fg recs) <-> fg = true).
        { apply I3; [lia|]. intros m r Hm' Hr. apply (Hm (S m) r); [lia|exact Hr]. }
        rewrite HI. tauto.
      * cbn in Hn. assert (HI : In k (extractFrom lo hi d (S b) fg recs) <-> starts lo hi d (snd rs) = true).
        { apply (I2 s rs); auto; try lia. intros m r Hm' Hr. apply (Hm (S m) r); [lia|exact Hr]. }
        rewrite HI. intuition.
  - intros Hk Hm. rewrite Hin. assert (Hf : f <> 1%Z) by (apply (Hm 0 (f, p)); [lia|reflexivity]).
    assert (E : fg = flag) by (subst fg; destruct (Z.eqb_spec f 1); [contradiction|reflexivity]).
    destruct (Nat.eq_dec k b) as [Hkb|Hne].
    { split; [intros [[_ H]|H]; [congruence|exfalso; now apply (Hb H)]|]. intros H. left. split; [exact Hkb|congruence]. }
    assert (HI : In k (extractFrom lo hi d (S b) fg recs) <-> fg = true).
    { apply I3; [lia|]. intros m r Hm' Hr. apply (Hm (S m) r); [lia|exact Hr]. }
    rewrite HI, E. intuition.
Qed.
Lemma extract_iff lo hi d recs s k rs : sameCyclone recs s k -> nth_error recs s = Some rs -> fst rs = 1%Z ->
  (In k (extractTracks lo hi d recs) <-> starts lo hi d (snd rs) = true).
Proof.
  intros [H1 H2] Hn Hf. unfold extractTracks. destruct (extract_from lo hi d recs 0 false k) as (_ & H & _).
  apply (H s); auto; try lia. intros m r Hm. apply H2. lia.
Qed.
Lemma c78_l lo hi wf recs s j k rs rj : (forall q, lo q <= q)%Q -> (forall q, q <= hi q)%Q ->
  sameCyclone recs s j -> sameCyclone recs s k -> nth_error recs s = Some rs -> fst rs = 1%Z ->
  nth_error recs j = Some rj -> within wf (snd rj) = true ->
  In k (extractTracks lo hi (calcDomain wf recs) recs).
Proof.
  intros Hlo Hhi Hj Hk Hs Hf Hr Hin. apply (extract_iff lo hi _ recs s k rs Hk Hs Hf).
  pose proof (c33_cover_l wf recs s j rs rj Hj Hs Hr Hin) as Hw. apply within_iff in Hw.
  unfold starts, between. rewrite !andb_true_iff, !Qle_bool_iff.
  pose proof (Hlo (b_x0 (calcDomain wf recs))). pose proof (Hlo (b_y0 (calcDomain wf recs))).
  pose proof (Hhi (b_x1 (calcDomain wf recs))). pose proof (Hhi (b_y1 (calcDomain wf recs))).
  repeat split; lra.
Qed.
