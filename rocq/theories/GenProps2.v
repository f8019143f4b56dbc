(** Property theorem C83: one size deviate for each generated cyclone. *)
From Coq Require Import QArith Qabs Qround Lqa Lia.
From Verif Require Import Base SplitModel CellModel CellProofs SampModel SampProofs GenModel GenProofs GenProps.
Close Scope Q_scope. Open Scope list_scope. Open Scope nat_scope.
Opaque lowest.

Section P83.
Context {G NG : Type} (w : world G NG).
Lemma path_rmax eps lf rm i s l sf : path w eps lf rm i s l sf ->
  Forall (fun q => p_rmax q = trackRmax w (osub (p_poci q) (p_pres q)) (p_lat q) rm) l.
Proof. induction 1; constructor; auto. apply step_next in H. apply (sp_rmax _ _ _ _ _ _ _ _ H). Qed.
Lemma redraw_ok fuel dp lat : forall eps ng r e ng', redraw w fuel dp lat eps ng = GOk (r, e, ng') ->
  trackRmax w dp lat e = Some r /\ (r <= 100)%Q.
Proof.
  induction fuel as [|f IH]; intros eps ng r e ng'; cbn [redraw]; destruct (trackRmax w dp lat eps) as [x|] eqn:T; try discriminate;
    destruct (qlt 100 x) eqn:Q; try discriminate.
  - intros H. injection H as <- <- <-. split; auto. now apply qlt_false_iff.
  - destruct (w_npnormal w ng) as [e1 ng1]. apply IH.
  - intros H. injection H as <- <- <-. split; auto. now apply qlt_false_iff.
Qed.
Lemma c83_l fuel year a st e t st' : attempt w fuel year a st = GOk (e, Some t, st') -> given (i_rmax a) = None ->
  exists eps env pres p l, e = Some env /\ t = p :: l /\ p_pres p = Some pres /\
    (exists r, p_rmax p = Some r /\ (r <= 100)%Q) /\
    p_rmax p = trackRmax w (Some (env - pres)%Q) (p_lat p) eps /\
    Forall (fun q => p_rmax q = trackRmax w (osub (p_poci q) (p_pres q)) (p_lat q) eps) l.
Proof.
  unfold attempt. destruct (w_origin w) as [[x y] z]. intros H HR.
  ginv H. destruct v as [[lon lat] g].
  destruct (getCellNum lon lat (w_limit w) (w_space w)) as [cell|] eqn:C; [|discriminate].
  ginv H. destruct v as [bear g1]. ginv H. destruct v as [speed g2]. ginv H. destruct v as [day g3].
  destruct (w_uniform w 0 24 g3) as [h g4]. ginv H. rename v into tm.
  ginv H. destruct v as [pres g5]. ginv H. destruct v as [[rmax rmwEps] ng].
  set (env := match given (i_env a) with Some e => e | None => w_mslp w day lat lon end) in *.
  destruct (w_bear2 w bear _ lon lat) as [nlon nlat].
  destruct (negb _); [inversion H|]. destruct (qlt (env - pres) 2) eqn:Q; [inversion H|].
  ginv H. destruct v as [[t0 clock] g6].
  destruct (accepted w t0) eqn:AC; [|inversion H]. inversion H; subst.
  rewrite HR in E5. destruct (w_sizeFile w); [discriminate|]. destruct (w_npnormal w (g_np st)) as [e1 ng1].
  apply redraw_ok in E5 as (R1 & R2).
  apply single_inv in E6 as (k & eps & lf & p & s & l & sf & _ & Ht & (F1 & F2 & F3 & F4 & F5 & F6 & F7 & F8) & _ & _ & _ & _ & P & _).
  exists rmwEps, env, pres, p, l. split; [reflexivity|]. split; [exact Ht|].
  assert (Hp : p_pres p = Some pres) by assumption. assert (Hr : p_rmax p = Some rmax) by assumption.
  assert (Hl : p_lat p = lat) by assumption.
  split; [exact Hp|]. split; [eauto|]. split; [rewrite Hr, Hl; auto|]. eapply path_rmax; eauto.
Qed.
End P83.
Theorem c83_one_size_deviate : forall (G NG : Type) (w : world G NG) fuel year a st e t st',
  attempt w fuel year a st = GOk (e, Some t, st') -> given (i_rmax a) = None ->
  exists eps env pres p l, e = Some env /\ t = p :: l /\ p_pres p = Some pres /\
    (exists r, p_rmax p = Some r /\ (r <= 100)%Q) /\
    p_rmax p = trackRmax w (Some (env - pres)%Q) (p_lat p) eps /\
    Forall (fun q => p_rmax q = trackRmax w (osub (p_poci q) (p_pres q)) (p_lat q) eps) l.
Proof. intros G NG. exact c83_l. Qed.
Print Assumptions c83_one_size_deviate.
Example c83_met : match attempt w0 50 2000 noInits st0 with GOk (_, Some t, _) => 2 <= length t | _ => False end.
Proof. vm_compute. lia. Qed.
