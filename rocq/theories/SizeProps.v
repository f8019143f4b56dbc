(** C162, C163: the radius to maximum winds. *)
From Coq Require Import List Reals Lra Lia.
From Verif Require Import SeriesModel SizeModel KdeProps.
Import ListNotations.
Local Open Scope R_scope.

(** C162: the radius is positive, its logarithm is the documented one; storms in the two hemispheres agree; stronger
    storms are smaller and storms farther from the equator larger; the random term acts as a factor. *)
Theorem c162_rmax : forall dp lat eps, let r := rmax dp lat eps defaults in
  0 < r /\ ln r = 422 / 100 - 198 / 10000 * dp + 23 / 10000 * Rabs lat + eps /\ rmax dp (- lat) eps defaults = r /\
  (forall dp', dp < dp' -> rmax dp' lat eps defaults < r) /\
  (forall lat', Rabs lat < Rabs lat' -> r < rmax dp lat' eps defaults) /\
  (forall eps', rmax dp lat (eps + eps') defaults = r * exp eps').
Proof.
  intros dp lat eps r. unfold r, rmax, defaults. cbn [length]. destruct (Nat.eq_dec 3 3) as [_|N]; [|congruence]. cbn [nth].
  split; [apply exp_pos|]. split; [rewrite ln_exp; ring|]. split; [now rewrite Rabs_Ropp|]. split; [|split].
  - intros dp' H. apply exp_increasing. lra.
  - intros lat' H. apply exp_increasing. lra.
  - intros eps'. rewrite <- exp_plus. f_equal. ring.
Qed.
Print Assumptions c162_rmax.
(** Coefficients: three are used as given, any other number of them gives the default ones. *)
Theorem c162_coefficients : forall dp lat eps,
  (forall a b c, ln (rmax dp lat eps [a; b; c]) = a + b * dp + c * Rabs lat + eps) /\
  (forall cs, length cs <> 3%nat -> rmax dp lat eps cs = rmax dp lat eps defaults).
Proof.
  intros dp lat eps. split.
  - intros a b c. unfold rmax. cbn [length]. destruct (Nat.eq_dec 3 3) as [_|N]; [|congruence]. now rewrite ln_exp.
  - intros cs H. unfold rmax. destruct (Nat.eq_dec (length cs) 3); [contradiction|]. unfold defaults. cbn [length]. destruct (Nat.eq_dec 3 3) as [_|N]; [reflexivity | congruence].
Qed.
Print Assumptions c162_coefficients.

(** * The fit *)
Lemma sumR_c a l : sumR (a :: l) = a + sumR l.
Proof. reflexivity. Qed.
Lemma sumR_n : sumR [] = 0.
Proof. reflexivity. Qed.
Definition sse (p : R * R) (l : list obs) : R := sumR (map (fun o => resid p o ^ 2) l).
Definition lin (d : R * R) (o : obs) : R := fst d * o_dp o + snd d * Rabs (o_lat o).
Lemma sse_shift p d l :
  sse (fst p + fst d, snd p + snd d) l = sse p l - 2 * (fst d * dotp col1 (resid p) l + snd d * dotp col2 (resid p) l) + sumR (map (fun o => lin d o ^ 2) l).
Proof.
  unfold sse, dotp. induction l as [|o l IH]; cbn [map]; rewrite ?sumR_c, ?sumR_n; [ring|]. rewrite IH. 
  set (s1 := sumR (map (fun o0 => resid p o0 ^ 2) l)). set (s2 := sumR (map (fun o0 => col1 o0 * resid p o0) l)). set (s3 := sumR (map (fun o0 => col2 o0 * resid p o0) l)). set (s4 := sumR (map (fun o0 => lin d o0 ^ 2) l)).
  unfold lin, resid, col1, col2. cbn [fst snd]. ring.
Qed.
Lemma normal_eqs p l : dotp col1 (resid p) l = dotp col1 resp l - (fst p * dotp col1 col1 l + snd p * dotp col1 col2 l) /\
  dotp col2 (resid p) l = dotp col2 resp l - (fst p * dotp col1 col2 l + snd p * dotp col2 col2 l).
Proof.
  unfold dotp. induction l as [|o l [IH1 IH2]]; cbn [map]; rewrite ?sumR_c, ?sumR_n; [split; ring|]. rewrite IH1, IH2. unfold resid. split; ring.
Qed.
Lemma ols_orth l p : ols l = Some p -> dotp col1 (resid p) l = 0 /\ dotp col2 (resid p) l = 0.
Proof.
  unfold ols. destruct (Req_EM_T _ 0) as [|N]; [discriminate|]. intros H. injection H as <-. destruct (normal_eqs ((dotp col1 resp l * dotp col2 col2 l - dotp col2 resp l * dotp col1 col2 l) / (dotp col1 col1 l * dotp col2 col2 l - dotp col1 col2 l * dotp col1 col2 l),
   (dotp col1 col1 l * dotp col2 resp l - dotp col1 col2 l * dotp col1 resp l) / (dotp col1 col1 l * dotp col2 col2 l - dotp col1 col2 l * dotp col1 col2 l)) l) as [-> ->]. cbn [fst snd].
  split; field; exact N.
Qed.
Lemma lin_dot d l : dotp col1 (lin d) l = fst d * dotp col1 col1 l + snd d * dotp col1 col2 l /\ dotp col2 (lin d) l = fst d * dotp col1 col2 l + snd d * dotp col2 col2 l.
Proof. unfold dotp. induction l as [|o l [IH1 IH2]]; cbn [map]; rewrite ?sumR_c, ?sumR_n; [split; ring|]. rewrite IH1, IH2. unfold lin, col1, col2. split; ring. Qed.
(** The fitted slopes give the least sum of squares, and no other slopes do. *)
Theorem c162_least : forall l ps b c, fitRmax l = Some ps -> nth 0 ps 0 = b -> nth 1 ps 0 = c ->
  forall b' c', let S b c := sumR (map (fun o => (ln (o_rmw o) - (b * o_dp o + c * Rabs (o_lat o))) ^ 2) l) in
  S b c <= S b' c' /\ (S b' c' = S b c -> b' = b /\ c' = c).
Proof.
  intros l ps b c F Eb Ec b' c' Sq. unfold fitRmax in F. destruct (ols l) as [p|] eqn:O; [|discriminate]. injection F as <-. cbn in Eb, Ec.
  destruct (ols_orth l p O) as [O1 O2]. pose proof (sse_shift p (b' - b, c' - c) l) as H. rewrite O1, O2 in H. cbn [fst snd] in H.
  assert (Ep : p = (b, c)) by (destruct p; cbn in *; congruence).
  replace (fst p + (b' - b), snd p + (c' - c)) with (b', c') in H by (rewrite Ep; cbn; f_equal; ring).
  change (sse (b', c') l) with (Sq b' c') in H. rewrite Ep in H at 1. change (sse (b, c) l) with (Sq b c) in H.
  assert (P : 0 <= sumR (map (fun o => lin (b' - b, c' - c) o ^ 2) l)).
  { apply sumR_nonneg. intros a I. apply in_map_iff in I. destruct I as (o & <- & _). apply pow2_ge_0. }
  split; [lra|]. intros E.
  assert (Z : sumR (map (fun o => lin (b' - b, c' - c) o ^ 2) l) = 0) by lra.
  assert (Zl : forall o, In o l -> lin (b' - b, c' - c) o = 0).
  { intros o I. assert (Y : lin (b' - b, c' - c) o ^ 2 = 0).
    { apply (sumR_zero (map (fun o => lin (b' - b, c' - c) o ^ 2) l)); [|exact Z | apply in_map_iff; now exists o].
      intros a J. apply in_map_iff in J. destruct J as (o' & <- & _). apply pow2_ge_0. }
    apply Rsqr_0_uniq. unfold Rsqr. lra. }
  destruct (lin_dot (b' - b, c' - c) l) as [L1 L2]. cbn [fst snd] in L1, L2.
  assert (D : forall f, dotp f (lin (b' - b, c' - c)) l = 0).
  { intros f. unfold dotp. clear -Zl. induction l as [|o l IH]; cbn [map]; rewrite ?sumR_c; [reflexivity|]. rewrite (Zl o (or_introl eq_refl)), IH; [ring|]. intros; apply Zl; now right. }
  rewrite D in L1, L2. unfold ols in O. destruct (Req_EM_T _ 0) as [|N]; [discriminate|].
  set (x := dotp col1 col1 l) in *. set (y := dotp col1 col2 l) in *. set (z := dotp col2 col2 l) in *.
  assert (M1 : (b' - b) * (x * z - y * y) = 0) by (replace ((b' - b) * (x * z - y * y)) with (((b' - b) * x + (c' - c) * y) * z - ((b' - b) * y + (c' - c) * z) * y) by ring; rewrite <- L1, <- L2; ring).
  assert (M2 : (c' - c) * (x * z - y * y) = 0) by (replace ((c' - c) * (x * z - y * y)) with (((b' - b) * y + (c' - c) * z) * x - ((b' - b) * x + (c' - c) * y) * y) by ring; rewrite <- L1, <- L2; ring).
  apply Rmult_integral in M1, M2. destruct M1 as [M1|]; [|contradiction]. destruct M2 as [M2|]; [|contradiction]. lra.
Qed.
Print Assumptions c162_least.
Lemma exact_dots l b c : (forall o, In o l -> resp o = b * col1 o + c * col2 o) ->
  dotp col1 resp l = b * dotp col1 col1 l + c * dotp col1 col2 l /\ dotp col2 resp l = b * dotp col1 col2 l + c * dotp col2 col2 l.
Proof.
  unfold dotp. induction l as [|o l IH]; intros H; cbn [map]; rewrite ?sumR_c, ?sumR_n; [split; ring|]. destruct IH as [-> ->]; [intros; apply H; now right|].
  rewrite (H o (or_introl eq_refl)). split; ring.
Qed.
Lemma sumR_const0 {A} (l : list A) (f : A -> R) : (forall a, In a l -> f a = 0) -> sumR (map f l) = 0.
Proof. induction l as [|a l IH]; intros H; cbn [map]; rewrite ?sumR_c; [reflexivity|]. rewrite (H a (or_introl eq_refl)), IH; [ring|]. intros; apply H; now right. Qed.
(** Radii that follow the law without constant and without scatter give its slopes and no scatter. *)
Theorem c162_exact : forall l b c ps, (forall o, In o l -> o_rmw o = exp (b * o_dp o + c * Rabs (o_lat o))) -> fitRmax l = Some ps -> ps = [b; c; 0].
Proof.
  intros l b c ps H F. assert (Hr : forall o, In o l -> resp o = b * col1 o + c * col2 o) by (intros o I; unfold resp; rewrite (H o I), ln_exp; reflexivity).
  destruct (exact_dots l b c Hr) as [U V]. unfold fitRmax in F. destruct (ols l) as [p|] eqn:O; [|discriminate]. 
  assert (Ep : p = (b, c)).
  { unfold ols in O. destruct (Req_EM_T _ 0) as [|N]; [discriminate|]. injection O as <-. rewrite U, V. f_equal; field; exact N. }
  injection F as <-. rewrite Ep. cbn [fst snd]. do 2 f_equal. f_equal. unfold normScale.
  assert (Z : forall o, In o l -> resid (b, c) o = 0) by (intros o I; unfold resid; rewrite (Hr o I); cbn; ring).
  assert (M : mean (map (resid (b, c)) l) = 0) by (unfold mean; rewrite (sumR_const0 l _ Z); unfold Rdiv; ring).
  rewrite M, map_map. unfold mean. rewrite (sumR_const0 l (fun x => (resid (b, c) x - 0) ^ 2)).
  - unfold Rdiv. rewrite Rmult_0_l. apply sqrt_0.
  - intros o I. rewrite (Z o I). ring.
Qed.
Print Assumptions c162_exact.
Definition two (k : R) : list obs := [{| o_rmw := exp k; o_dp := 1; o_lat := -1 |}; {| o_rmw := exp k; o_dp := 2; o_lat := -1 |}].
Lemma two_fit k : fitRmax (two k) = Some [0; k; 0].
Proof.
  assert (A : Rabs (-1) = 1) by (rewrite Rabs_left; lra).
  assert (F : exists ps, fitRmax (two k) = Some ps).
  { unfold fitRmax, ols, two, dotp, col1, col2. unfold sumR; cbn [map fold_right o_dp o_lat]. rewrite A. destruct (Req_EM_T _ 0) as [E|]; [exfalso; lra|]. eexists. reflexivity. }
  destruct F as [ps F]. rewrite F. f_equal. apply (c162_exact (two k) 0 k ps); [|exact F].
  intros o [<-|[<-|[]]]; cbn; rewrite A; f_equal; ring.
Qed.
Example c162_exact_example : fitRmax (two 1) = Some [0; 1; 0].
Proof. apply two_fit. Qed.

(** * C163: refutations *)
(** Radii that follow the documented law exactly (constant 1, slopes 0) do not give its slopes: there is no constant in the fit. *)
Theorem c163_constant_refuted : exists l a b c ps, (forall o, In o l -> o_rmw o = exp (a + b * o_dp o + c * Rabs (o_lat o))) /\
  fitRmax l = Some ps /\ (nth 0 ps 0, nth 1 ps 0) <> (b, c).
Proof.
  exists (two 1), 1, 0, 0, [0; 1; 0]. split; [|split; [apply two_fit|]].
  - intros o [<-|[<-|[]]]; cbn; f_equal; ring.
  - cbn. intros H. injection H as H. lra.
Qed.
Print Assumptions c163_constant_refuted.
(** The fitted list has the length rmax expects but another meaning: it does not reproduce the radii it was fitted to. *)
Theorem c163_use_refuted : exists l ps o, fitRmax l = Some ps /\ nth 2 ps 1 = 0 /\ length ps = 3%nat /\ In o l /\ rmax (o_dp o) (o_lat o) 0 ps <> o_rmw o.
Proof.
  exists (two 1), [0; 1; 0], {| o_rmw := exp 1; o_dp := 2; o_lat := -1 |}. split; [apply two_fit|]. split; [reflexivity|]. split; [reflexivity|]. split; [right; now left|].
  unfold rmax. cbn [length o_dp o_lat o_rmw nth]. destruct (Nat.eq_dec 3 3) as [_|N]; [|congruence]. intros H. apply exp_inv in H. cbn [nth] in H. lra.
Qed.
Print Assumptions c163_use_refuted.
(** Radii in other units give other slopes. *)
Theorem c163_units_refuted : exists l f ps ps', 0 < f /\ fitRmax l = Some ps /\
  fitRmax (map (fun o => {| o_rmw := f * o_rmw o; o_dp := o_dp o; o_lat := o_lat o |}) l) = Some ps' /\ nth 1 ps 0 <> nth 1 ps' 0.
Proof.
  exists (two 1), (exp 1), [0; 1; 0], [0; 2; 0]. split; [apply exp_pos|]. split; [apply two_fit|]. split; [|cbn; lra].
  cbn [map two o_rmw o_dp o_lat]. rewrite <- exp_plus. replace (1 + 1) with 2 by ring. apply two_fit.
Qed.
Print Assumptions c163_units_refuted.
