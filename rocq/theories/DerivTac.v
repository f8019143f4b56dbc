(** Derivatives of expressions, in a form that [eapply] can use. *)
From Coq Require Import Reals Lra.
Open Scope R_scope.

Lemma D_eq f x l l' : derivable_pt_lim f x l -> l = l' -> derivable_pt_lim f x l'.
Proof. intros H <-. exact H. Qed.
Lemma D_id x : derivable_pt_lim (fun y => y) x 1.
Proof. apply derivable_pt_lim_id. Qed.
Lemma D_const k x : derivable_pt_lim (fun _ => k) x 0.
Proof. apply derivable_pt_lim_const. Qed.
Lemma D_plus f g x a b : derivable_pt_lim f x a -> derivable_pt_lim g x b -> derivable_pt_lim (fun y => f y + g y) x (a + b).
Proof. apply derivable_pt_lim_plus. Qed.
Lemma D_minus f g x a b : derivable_pt_lim f x a -> derivable_pt_lim g x b -> derivable_pt_lim (fun y => f y - g y) x (a - b).
Proof. apply derivable_pt_lim_minus. Qed.
Lemma D_opp f x a : derivable_pt_lim f x a -> derivable_pt_lim (fun y => - f y) x (- a).
Proof. apply derivable_pt_lim_opp. Qed.
Lemma D_mult f g x a b : derivable_pt_lim f x a -> derivable_pt_lim g x b -> derivable_pt_lim (fun y => f y * g y) x (a * g x + f x * b).
Proof. apply derivable_pt_lim_mult. Qed.
Lemma D_exp f x a : derivable_pt_lim f x a -> derivable_pt_lim (fun y => exp (f y)) x (exp (f x) * a).
Proof. intros H. apply (derivable_pt_lim_comp f exp x a _ H). apply derivable_pt_lim_exp. Qed.
Lemma D_ln f x a : 0 < f x -> derivable_pt_lim f x a -> derivable_pt_lim (fun y => ln (f y)) x (/ f x * a).
Proof. intros P H. apply (derivable_pt_lim_comp f ln x a _ H). now apply derivable_pt_lim_ln. Qed.
Lemma D_sqrt f x a : 0 < f x -> derivable_pt_lim f x a -> derivable_pt_lim (fun y => sqrt (f y)) x (/ (2 * sqrt (f x)) * a).
Proof. intros P H. apply (derivable_pt_lim_comp f sqrt x a _ H). now apply derivable_pt_lim_sqrt. Qed.
Lemma D_sq f x a : derivable_pt_lim f x a -> derivable_pt_lim (fun y => f y ^ 2) x (2 * f x * a).
Proof.
  intros H. apply D_eq with (a * (f x * 1) + f x * (a * 1 + f x * 0)); [|ring].
  apply (D_mult f (fun y => f y * 1)); [exact H|]. apply (D_mult f (fun _ => 1)); [exact H | apply D_const].
Qed.
Lemma D_inv f x a : f x <> 0 -> derivable_pt_lim f x a -> derivable_pt_lim (fun y => / f y) x (- a / f x ^ 2).
Proof.
  intros P H. pose proof (derivable_pt_lim_div (fct_cte 1) f x 0 a (derivable_pt_lim_const 1 x) H P) as D.
  apply D_eq with ((0 * f x - a * fct_cte 1 x) / (f x)²).
  - intros eps He. destruct (D eps He) as [d Hd]. exists d. intros h Hh Hd'.
    specialize (Hd h Hh Hd'). unfold div_fct, fct_cte, Rdiv in *. rewrite !Rmult_1_l in Hd. exact Hd.
  - unfold fct_cte, Rsqr. field. exact P.
Qed.
Lemma D_div f g x a b : g x <> 0 -> derivable_pt_lim f x a -> derivable_pt_lim g x b ->
  derivable_pt_lim (fun y => f y / g y) x ((a * g x - b * f x) / g x ^ 2).
Proof.
  intros P Hf Hg. apply D_eq with (a * / g x + f x * (- b / g x ^ 2)).
  - apply (D_mult f (fun y => / g y)); [exact Hf | now apply D_inv].
  - field. exact P.
Qed.
Lemma D_Rpower f k x a : 0 < f x -> derivable_pt_lim f x a ->
  derivable_pt_lim (fun y => Rpower (f y) k) x (Rpower (f x) k * (k * (/ f x * a))).
Proof.
  intros P H. unfold Rpower. apply (D_exp (fun y => k * ln (f y))).
  apply D_eq with (0 * ln (f x) + k * (/ f x * a)); [|ring].
  apply (D_mult (fun _ => k) (fun y => ln (f y))); [apply D_const | now apply D_ln].
Qed.
Lemma D_ext f g x l : (exists d, 0 < d /\ forall y, Rabs (y - x) < d -> f y = g y) ->
  derivable_pt_lim f x l -> derivable_pt_lim g x l.
Proof.
  intros (d & Hd & E) H eps He. destruct (H eps He) as [d' H'].
  assert (P : 0 < Rmin d d') by (apply Rmin_pos; [exact Hd | apply cond_pos]).
  exists (mkposreal _ P). intros h Hh Hb. cbn in Hb.
  rewrite <- (E (x + h)), <- (E x).
  - apply H'; [exact Hh | eapply Rlt_le_trans; [exact Hb | apply Rmin_r]].
  - replace (x - x) with 0 by ring. rewrite Rabs_R0. exact Hd.
  - replace (x + h - x) with h by ring. eapply Rlt_le_trans; [exact Hb | apply Rmin_l].
Qed.
Ltac dstep := lazymatch goal with
  | |- derivable_pt_lim (fun y => y) _ _ => apply D_id
  | |- derivable_pt_lim (fun _ => ?k) _ _ => apply D_const
  | |- derivable_pt_lim (fun y => @?f y + @?g y) _ _ => eapply (D_plus f g)
  | |- derivable_pt_lim (fun y => @?f y - @?g y) _ _ => eapply (D_minus f g)
  | |- derivable_pt_lim (fun y => - @?f y) _ _ => eapply (D_opp f)
  | |- derivable_pt_lim (fun y => @?f y * @?g y) _ _ => eapply (D_mult f g)
  | |- derivable_pt_lim (fun y => @?f y / @?g y) _ _ => eapply (D_div f g)
  | |- derivable_pt_lim (fun y => @?f y ^ 2) _ _ => eapply (D_sq f)
  | |- derivable_pt_lim (fun y => exp (@?f y)) _ _ => eapply (D_exp f)
  | |- derivable_pt_lim (fun y => sqrt (@?f y)) _ _ => eapply (D_sqrt f)
  | |- derivable_pt_lim (fun y => Rpower (@?f y) ?k) _ _ => eapply (D_Rpower f k)
  end; cbv beta.
Ltac dsolve := eapply D_eq; [repeat dstep | cbv beta].

Lemma cont_eps f x : continuity_pt f x ->
  forall e, 0 < e -> exists d, 0 < d /\ forall y, Rabs (y - x) < d -> Rabs (f y - f x) < e.
Proof.
  intros H e He. destruct (H e He) as (d & Hd & K). exists d. split; [exact Hd|].
  intros y Hy. destruct (Req_dec x y) as [<- | N].
  - replace (f x - f x) with 0 by ring. rewrite Rabs_R0. exact He.
  - apply (K y). split; [split; [exact I | exact N] | exact Hy].
Qed.
Lemma eps_cont f x : (forall e, 0 < e -> exists d, 0 < d /\ forall y, Rabs (y - x) < d -> Rabs (f y - f x) < e) ->
  continuity_pt f x.
Proof.
  intros H e He. destruct (H e He) as (d & Hd & K). exists d. split; [exact Hd|].
  intros y [_ Hy]. apply K. exact Hy.
Qed.
