(** C181, C182: the power law of return levels and the distribution objects. *)
From Coq Require Import Reals List Arith ZArith Bool QArith Qreals Permutation Lia Lra.
From Verif Require Import Base CellModel CellProofs FitModel FitProofs DensityModel DensityProofs LmomModel EnsProps EvdModel.
Import ListNotations.
Close Scope Q_scope. Close Scope R_scope. Open Scope nat_scope.

(** * C181 *)
Lemma combine_seq {A B} (l : list A) (m : list B) p a b : length l = length m ->
  (In p (combine l m) <-> exists i, i < length l /\ p = (nth i l a, nth i m b)).
Proof.
  intros L. split.
  - intros H. apply (In_nth _ _ (a, b)) in H. destruct H as (i & I & <-). rewrite combine_length, L, Nat.min_id in I.
    exists i. split; [lia|]. now rewrite combine_nth by exact L.
  - intros (i & I & ->). rewrite <- combine_nth by exact L. apply nth_In. rewrite combine_length. lia.
Qed.
Lemma filter_zeros n l : filter (fun v => qlt 0 v) (repeat 0%Q n ++ l) = filter (fun v => qlt 0 v) l.
Proof. rewrite filter_app. replace (filter (fun v => qlt 0 v) (repeat 0%Q n)) with (@nil Q); [reflexivity|]. induction n; [reflexivity|]. exact IHn. Qed.
Lemma windy_perm data numsim : Permutation (filter (fun v => qlt 0 v) (empWspd data numsim)) (filter (fun v => qlt 0 v) data).
Proof.
  unfold empWspd. rewrite filter_zeros. generalize (sortq_perm data). intros P.
  induction P as [|x l l' P IH|x y l|l1 l2 l3 P1 I1 P2 I2]; cbn [filter].
  - constructor.
  - destruct (qlt 0 x); [now constructor|exact IH].
  - destruct (qlt 0 x), (qlt 0 y); try reflexivity. constructor.
  - now transitivity (filter (fun v => qlt 0 v) l2).
Qed.

(** The points the curve is fitted to: the records that exceed the mean of the positive records, each with the return
    period of its rank among all days. *)
Theorem c181_points : forall data numsim t v, (1 <= numsim)%Z -> 1 <= length data <= empDays numsim -> (forall x, In x data -> (0 <= x)%Q) ->
  In (t, v) (points data numsim) <->
  exists k, k < length data /\ v = nth k (sortq data) 0%Q /\
    (exists x, In x data /\ (0 < x)%Q) /\
    (fold_right Qplus 0 (filter (fun x => qlt 0 x) data) < v * inject_Z (Z.of_nat (length (filter (fun x => qlt 0 x) data))))%Q /\
    t = (1 / (1 - inject_Z (Z.of_nat (empDays numsim - length data + k + 1)) / (365.25 * inject_Z numsim + 1)) / 365.25)%Q.
Proof.
  intros data numsim t v Hn Hl Hp. unfold points.
  pose proof (windy_perm data numsim) as W. set (w := filter (fun x => qlt 0 x) (empWspd data numsim)) in *.
  set (u := filter (fun x => qlt 0 x) data) in *.
  assert (Su : (sumq w == fold_right Qplus 0 u)%Q) by (apply (sumq_perm w u W)).
  assert (E : forall x, w <> [] -> (qlt (meanq w) x = true <-> (fold_right Qplus 0 u < x * inject_Z (Z.of_nat (length u)))%Q)).
  { intros x N. rewrite qlt_iff, <- Su, <- (mean_times w N), <- (Permutation_length W).
    assert (P : (0 < inject_Z (Z.of_nat (length w)))%Q) by (change 0%Q with (inject_Z 0); rewrite <- Zlt_Qlt; destruct w; [congruence|cbn [length]; lia]).
    split; [intros L; now apply Qmult_lt_r|intros L; now apply Qmult_lt_r in L]. }
  assert (LL : length (empRp numsim) = length (empWspd data numsim)) by (rewrite empRp_len, empWspd_len; lia).
  assert (Mp : w <> [] -> (0 < meanq w)%Q).
  { intros N. assert (P : (0 < inject_Z (Z.of_nat (length w)))%Q) by (change 0%Q with (inject_Z 0); rewrite <- Zlt_Qlt; destruct w; [congruence|cbn [length]; lia]).
    unfold meanq. apply Qlt_shift_div_l; [exact P|]. rewrite Qmult_0_l.
    assert (G : forall l, l <> [] -> (forall x, In x l -> (0 < x)%Q) -> (0 < sumq l)%Q).
    { clear. induction l as [|x l IH]; intros N H; [congruence|]. unfold sumq. cbn [fold_right]. assert (0 < x)%Q by (apply H; now left).
      destruct l as [|y l]; [cbn [fold_right]; Lqa.lra|]. assert (0 < sumq (y :: l))%Q by (apply IH; [discriminate|intros; apply H; now right]). unfold sumq in *. Lqa.lra. }
    apply G; [exact N|]. intros x X. apply filter_In in X. now apply qlt_iff. }
  split.
  - intros H. destruct w as [|w0 wr] eqn:Ew; [destruct H|]. rewrite <- Ew in *. apply filter_In in H. destruct H as [H M]. cbn [snd] in M.
    assert (N : w <> []) by (rewrite Ew; discriminate).
    apply (combine_seq _ _ _ 0%Q 0%Q LL) in H. destruct H as (i & I & H). injection H as -> ->. rewrite empRp_len in I.
    assert (K : empDays numsim - length data <= i).
    { destruct (Nat.le_gt_cases (empDays numsim - length data) i) as [G|G]; [exact G|exfalso].
      unfold empWspd in M. rewrite app_nth1 in M by (rewrite repeat_length; lia). rewrite nth_repeat in M. apply qlt_iff in M. specialize (Mp N). Lqa.lra. }
    exists (i - (empDays numsim - length data)). split; [lia|]. split; [|split; [|split]].
    + unfold empWspd. rewrite app_nth2 by (rewrite repeat_length; lia). now rewrite repeat_length.
    + assert (X : In w0 u) by (apply (Permutation_in _ W); rewrite Ew; now left). apply filter_In in X. exists w0. split; [apply X|]. now apply qlt_iff.
    + now apply (proj1 (E _ N)).
    + rewrite empRp_nth by lia. unfold qn. now replace (empDays numsim - length data + (i - (empDays numsim - length data)) + 1) with (S i) by lia.
  - intros (k & K & -> & (x & X & Px) & M & ->).
    assert (N : w <> []).
    { intros C. assert (Y : In x w) by (apply (Permutation_in _ (Permutation_sym W)), filter_In; split; [exact X|now apply qlt_iff]). rewrite C in Y. destruct Y. }
    destruct w as [|w0 wr] eqn:Ew; [congruence|]. rewrite <- Ew in *. apply filter_In. cbn [snd]. split; [|now apply (proj2 (E _ N))].
    apply (combine_seq _ _ _ 0%Q 0%Q LL). exists (empDays numsim - length data + k). split; [rewrite empRp_len; lia|]. f_equal.
    + rewrite empRp_nth by lia. unfold qn. now replace (empDays numsim - length data + k + 1) with (S (empDays numsim - length data + k)) by lia.
    + unfold empWspd. rewrite app_nth2 by (rewrite repeat_length; lia). rewrite repeat_length. f_equal. lia.
Qed.

Section Fits.
Variable curveFit : list (Q * Q) -> option (R * R * R).
Open Scope R_scope.
(** What is returned: the missing value everywhere, or the values of one curve at the return periods asked for together
    with its coefficients. *)
Theorem c181_result : forall data intervals numsim nodata minrecords w a b c,
  powerfit curveFit data intervals numsim nodata minrecords = POk w a b c ->
  length w = length intervals /\
  (((curveFit (points data numsim) = None \/ (length (points data numsim) < 3)%nat) /\ a = nodata /\ b = nodata /\ c = nodata /\ forall x, In x w -> x = nodata) \/
   ((3 <= length (points data numsim))%nat /\ curveFit (points data numsim) = Some (a, b, c) /\
    forall i, (i < length intervals)%nat -> nth i w 0 = a - b * Rpower (nth i intervals 0) c)).
Proof.
  intros data intervals numsim nodata minrecords w a b c H. unfold powerfit in H. destruct ((empDays numsim <? length data)%nat || _); [discriminate|].
  destruct (Nat.ltb_spec (length (points data numsim)) 3) as [S|S].
  - injection H as <- <- <- <-. split; [apply map_length|]. left. repeat split; auto. intros x X. apply in_map_iff in X. destruct X as (? & <- & _). reflexivity.
  - destruct (curveFit (points data numsim)) as [[[a' b'] c']|] eqn:F; injection H as <- <- <- <-.
    + split; [apply map_length|]. right. split; [exact S|]. split; [reflexivity|]. intros i I.
      rewrite nth_indep with (d' := curve (a', b', c') 0) by (now rewrite map_length). now rewrite map_nth.
    + split; [apply map_length|]. left. repeat split; auto. intros x X. apply in_map_iff in X. destruct X as (? & <- & _). reflexivity.
Qed.
(** With coefficients as documented (b > 0 and c < 0) the return levels grow with the return period and stay below the
    coefficient a. *)
Theorem c181_increasing : forall data intervals numsim nodata minrecords w a b c i j,
  powerfit curveFit data intervals numsim nodata minrecords = POk w a b c -> curveFit (points data numsim) = Some (a, b, c) ->
  (3 <= length (points data numsim))%nat -> 0 < b -> c < 0 ->
  (i < length intervals)%nat -> (j < length intervals)%nat -> 0 < nth i intervals 0 < nth j intervals 0 ->
  nth i w 0 < nth j w 0 < a.
Proof.
  intros data intervals numsim nodata minrecords w a b c i j H F L B C I J T.
  destruct (c181_result _ _ _ _ _ _ _ _ _ H) as (_ & [(X & _)|(_ & _ & V)]); [destruct X as [X|X]; [congruence|lia]|].
  rewrite (V i I), (V j J). unfold Rpower.
  assert (E : exp (c * ln (nth j intervals 0)) < exp (c * ln (nth i intervals 0))).
  { apply exp_increasing. assert (ln (nth i intervals 0) < ln (nth j intervals 0)) by (apply ln_increasing; lra).
    apply Ropp_lt_cancel. rewrite <- !Ropp_mult_distr_l_reverse. apply Rmult_lt_compat_l; lra. }
  assert (P : 0 < exp (c * ln (nth j intervals 0))) by apply exp_pos.
  assert (b * exp (c * ln (nth j intervals 0)) < b * exp (c * ln (nth i intervals 0))) by (now apply Rmult_lt_compat_l).
  assert (0 < b * exp (c * ln (nth j intervals 0))) by (now apply Rmult_lt_0_compat). lra.
Qed.
(** If b is also below a, as documented, all levels of one year and more are positive. *)
Theorem c181_positive : forall a b c t, 0 < b < a -> c < 0 -> 1 <= t -> 0 < curve (a, b, c) t.
Proof.
  intros a b c t B C T. unfold curve.
  assert (P : Rpower t c <= 1).
  { replace 1 with (Rpower t 0) by (apply Rpower_O; lra). destruct T as [T|<-]; [apply Rle_Rpower; lra|].
    unfold Rpower. rewrite ln_1, !Rmult_0_r. lra. }
  assert (0 < Rpower t c) by apply exp_pos. assert (b * Rpower t c <= b * 1) by (apply Rmult_le_compat_l; lra). lra.
Qed.
End Fits.

(** * C182 *)
(** A sum of squared residuals *)
Definition sse (pts : list (Q * Q)) (p : R * R * R) : R :=
  fold_right Rplus 0%R (map (fun q => Rsqr (Q2R (snd q) - curve p (Q2R (fst q)))%R) pts).
Definition leastSquares (f : list (Q * Q) -> option (R * R * R)) : Prop :=
  forall pts p, f pts = Some p -> forall p', (sse pts p <= sse pts p')%R.
Lemma sse_nonneg pts p : (0 <= sse pts p)%R.
Proof.
  unfold sse. induction pts as [|q pts IH]; cbn [map fold_right]; [lra|].
  assert (0 <= Rsqr (Q2R (snd q) - curve p (Q2R (fst q))))%R by apply Rle_0_sqr. lra.
Qed.
Lemma sse_exact pts (a b : Q) : (forall t v, In (t, v) pts -> (0 < t)%Q /\ (v == a - b / t)%Q) -> sse pts (Q2R a, Q2R b, (-(1))%R) = 0%R.
Proof.
  unfold sse. induction pts as [|[t v] pts IH]; intros H; cbn [map fold_right]; [reflexivity|]. rewrite IH by (intros; apply H; now right).
  destruct (H t v (or_introl eq_refl)) as [T V]. cbn [fst snd curve].
  assert (T' : (0 < Q2R t)%R) by (rewrite <- RMicromega.Q2R_0; now apply Qlt_Rlt).
  rewrite Rpower_Ropp, Rpower_1 by exact T'.
  assert (E : Q2R v = (Q2R a - Q2R b * / Q2R t)%R).
  { rewrite (Qeq_eqR _ _ V). unfold Qdiv. rewrite Q2R_minus, Q2R_mult, Q2R_inv; [reflexivity|]. intros C. rewrite C in T. now apply Qlt_irrefl in T. }
  rewrite E. unfold Rsqr. ring.
Qed.
(** Return levels of whole years are positive wind speeds: false, four strong storms in ten years of which the fifth is
    weak have a perfectly fitting curve with b > a. *)
Definition tenYears : list Q := ([80; 60; 40; 20] ++ repeat 2 40)%Q.
Definition perfect : R * R * R := (Q2R 110, Q2R (20 * (3653.5 / 365.25)), (-(1))%R).
Lemma pairDec : forall x y : Q * Q, {x = y} + {x <> y}.
Proof. repeat decide equality. Defined.
Theorem c182_negative_refuted : exists curveFit, leastSquares curveFit /\
  exists w a b c, powerfit curveFit tenYears [1%R; 10%R] 10 (-(9999))%R 44 = POk w a b c /\ (nth 0 w 0 < -(90))%R /\ (nth 1 w 0 > 0)%R.
Proof.
  assert (Z : sse (points tenYears 10) perfect = 0%R).
  { apply sse_exact. assert (V : forallb (fun p => qlt 0 (fst p) && Qeq_bool (snd p) (110 - (20 * (3653.5 / 365.25)) / fst p)) (points tenYears 10) = true) by (vm_compute; reflexivity).
    rewrite forallb_forall in V. intros t v I. specialize (V _ I). cbn [fst snd] in V. apply andb_true_iff in V. destruct V as [V1 V2].
    split; [apply qlt_iff; exact V1|apply Qeq_bool_iff; exact V2]. }
  assert (L : (length (points tenYears 10) <? 3) = false) by (vm_compute; reflexivity).
  assert (D : (empDays 10 <? length tenYears) || (length tenYears =? 0) = false) by (vm_compute; reflexivity).
  unfold powerfit. rewrite D. clear D. revert Z L. generalize (points tenYears 10) as pts0. intros pts0 Z L.
  exists (fun pts => if list_eq_dec pairDec pts pts0 then Some perfect else None). split.
  - intros pts p H p'. destruct (list_eq_dec pairDec pts pts0) as [E|]; [|discriminate]. injection H as <-. rewrite E, Z. apply sse_nonneg.
  - rewrite L. destruct (list_eq_dec pairDec pts0 pts0) as [_|N]; [|congruence].
    eexists _, _, _, _. split; [reflexivity|]. cbn [map nth]. unfold perfect, curve.
    rewrite !Rpower_Ropp, !Rpower_1 by lra. unfold Q2R. cbn. split; lra.
Qed.
(** Fewer records than the minimum are not fitted: false, the minimum is not used. *)
Theorem c182_minimum_refuted : forall curveFit data intervals numsim nodata m m',
  powerfit curveFit data intervals numsim nodata m = powerfit curveFit data intervals numsim nodata m'.
Proof. reflexivity. Qed.
(** More records than days in the simulation are fitted: false *)
Theorem c182_days_refuted : forall curveFit data intervals numsim nodata m, empDays numsim < length data ->
  powerfit curveFit data intervals numsim nodata m = PRaise ValueError.
Proof. intros. unfold powerfit. apply Nat.ltb_lt in H. now rewrite H. Qed.
Example c182_days_example : empDays 1 < length (repeat 30%Q 400). Proof. vm_compute. lia. Qed.
(** The distribution objects give the return levels of the functions: false, none of them returns a level. *)
Theorem c182_objects_refuted : forall d data intervals numsim nodata,
  match objectFit d data intervals numsim nodata with
  | PRaise _ => True
  | POk w a b c => d = POWERobj /\ a = nodata /\ b = nodata /\ c = nodata /\ forall x, In x w -> x = nodata
  end /\ forall A (grid : A), objectCalculate d grid = AttributeError.
Proof.
  intros d data intervals numsim nodata. split; [|reflexivity].
  destruct d; cbn [objectFit]; try exact I; destruct ((empDays numsim <? length data) || (length data =? 0)); try exact I.
  repeat split; auto. intros x X. apply in_map_iff in X. destruct X as (? & <- & _). reflexivity.
Qed.
Example c181_hypotheses : exists w a b c, powerfit (fun _ => Some (100, 50, - (1 / 2))%R) tenYears [10%R; 100%R] 10 (-(9999))%R 50 = POk w a b c /\
  3 <= length (points tenYears 10) /\ (0 < b < a)%R /\ (c < 0)%R.
Proof.
  assert (L : (length (points tenYears 10) <? 3) = false) by (vm_compute; reflexivity).
  assert (D : (empDays 10 <? length tenYears) || (length tenYears =? 0) = false) by (vm_compute; reflexivity).
  unfold powerfit. rewrite D. revert L. generalize (points tenYears 10). intros pts L. cbv zeta. rewrite L.
  exists (map (curve (100, 50, - (1 / 2))%R) [10%R; 100%R]), 100%R, 50%R, (- (1 / 2))%R.
  split; [reflexivity|]. split; [apply Nat.ltb_ge; exact L|]. lra.
Qed.
Print Assumptions c181_points.
Print Assumptions c181_result.
Print Assumptions c181_increasing.
Print Assumptions c181_positive.
Print Assumptions c182_negative_refuted.
Print Assumptions c182_minimum_refuted.
Print Assumptions c182_days_refuted.
Print Assumptions c182_objects_refuted.
