(** Properties C144 and C145: smoothing of hazard maps. *)
From Coq Require Import Reals ZArith QArith Qround String List Bool Lia Lra.
From Verif Require Import Base GenModel SmoothModel SmoothProofs.
Import ListNotations.
Local Open Scope R_scope.

(** * C144 *)

(** For every positive size the kernel exists, its weights are positive, add
    up to one, are the same in the four directions and along both axes, and
    never grow with the distance from the centre. *)
Theorem c144_kernel : forall n : nat, (0 < n)%nat ->
  exists g, gaussKern n = Some g /\
    (forall i j, 0 < g i j) /\
    zsum n (fun i => zsum n (fun j => g i j)) = 1 /\
    (forall i j, g (- i)%Z j = g i j /\ g i (- j)%Z = g i j /\ g j i = g i j) /\
    (forall i j i' j', (i * i + j * j <= i' * i' + j' * j')%Z -> g i' j' <= g i j).
Proof.
  intros n L. destruct (gaussKern n) as [g|] eqn:E; [|destruct n; [lia|discriminate]].
  exists g. split; [reflexivity|].
  split; [exact (kern_pos n g E)|]. split; [exact (kern_sum n g E)|].
  split; [exact (kern_sym n g E)|].
  intros i j i' j' D. destruct (kern_spec n g E) as [_ K]. rewrite !K.
  unfold Rdiv. apply Rmult_le_compat_r; [left; apply Rinv_0_lt_compat, rawSum_pos|].
  unfold gaussRaw. apply IZR_le in D. rewrite !plus_IZR in D.
  assert (P : 0 < INR n) by (apply lt_0_INR; lia).
  assert (Q : - (IZR (i' * i') / INR n + IZR (j' * j') / INR n)
              <= - (IZR (i * i) / INR n + IZR (j * j) / INR n)).
  { apply Ropp_le_contravar. unfold Rdiv. rewrite <- !Rmult_plus_distr_r.
    apply Rmult_le_compat_r; [left; now apply Rinv_0_lt_compat|lra]. }
  destruct Q as [Q|Q]; [left; now apply exp_increasing|right; now rewrite Q].
Qed.

(** A smoothed map never leaves the range of the map, and a constant map is
    unchanged. *)
Theorem c144_range : forall h w n im out lo hi, (0 < h)%nat -> (0 < w)%nat ->
  smooth h w im n = Some out ->
  (forall u v, (u < h)%nat -> (v < w)%nat -> lo <= im u v <= hi) ->
  forall y x, lo <= out y x <= hi.
Proof.
  intros h w n im out lo hi H W S B y x. unfold smooth in S.
  destruct (gaussKern n) as [g|] eqn:E; [|discriminate]. cbn in S. injection S as <-.
  pose proof (kern_sum n g E) as K. pose proof (kern_pos n g E) as P. split.
  - rewrite <- (conv_const h w n g lo y x K). apply conv_mono; try assumption.
    intros u v U V. apply B; assumption.
  - rewrite <- (conv_const h w n g hi y x K). apply conv_mono; try assumption.
    intros u v U V. apply B; assumption.
Qed.

(** Smoothing neither adds nor loses anything: the sum, and with it the mean,
    over the map is unchanged, also for maps smaller than the kernel. *)
Theorem c144_total : forall h w n im out, (0 < h)%nat -> (0 < w)%nat ->
  smooth h w im n = Some out ->
  sumn (fun y => sumn (fun x => out y x) w) h = sumn (fun y => sumn (fun x => im y x) w) h.
Proof.
  intros h w n im out H W S. unfold smooth in S.
  destruct (gaussKern n) as [g|] eqn:E; [|discriminate]. cbn in S. injection S as <-.
  rewrite conv_total; try assumption.
  - rewrite (kern_sum n g E). ring.
  - intros i j. destruct (kern_sym n g E i j) as (A & B & _). now split.
Qed.

(** Changing the units before or after smoothing is the same: smoothing
    commutes with every affine change of scale, and with sums of maps. *)
Theorem c144_linear : forall h w n a b f1 f2 o1 o2, (0 < n)%nat ->
  smooth h w f1 n = Some o1 -> smooth h w f2 n = Some o2 ->
  (exists out, smooth h w (fun u v => a * f1 u v + b * f2 u v) n = Some out /\
     forall y x, out y x = a * o1 y x + b * o2 y x) /\
  (exists out, smooth h w (fun u v => a * f1 u v + b) n = Some out /\
     forall y x, out y x = a * o1 y x + b).
Proof.
  intros h w n a b f1 f2 o1 o2 L S1 S2. unfold smooth in *.
  destruct (gaussKern n) as [g|] eqn:E; [|discriminate]. cbn in *.
  injection S1 as <-. injection S2 as <-. split; eexists; (split; [reflexivity|]).
  - intros. apply conv_linear.
  - intros y x. transitivity (convolve2d h w n g (fun u v => a * f1 u v + b * 1) y x).
    + unfold convolve2d. apply zsum_ext. intros i _. apply zsum_ext. intros j _.
      now rewrite Rmult_1_r.
    + rewrite (conv_linear h w n g a b f1 (fun _ _ => 1)).
      rewrite conv_const by exact (kern_sum n g E). ring.
Qed.

(** A mirrored map is smoothed to the mirrored result, east-west and
    north-south. *)
Theorem c144_mirror : forall h w n im out, (0 < h)%nat -> (0 < w)%nat ->
  smooth h w im n = Some out ->
  (exists oe, smooth h w (fun u v => im u (w - 1 - v)%nat) n = Some oe /\
     forall y x, (x < w)%nat -> oe y x = out y (w - 1 - x)%nat) /\
  (exists on, smooth h w (fun u v => im (h - 1 - u)%nat v) n = Some on /\
     forall y x, (y < h)%nat -> on y x = out (h - 1 - y)%nat x).
Proof.
  intros h w n im out H W S. unfold smooth in *.
  destruct (gaussKern n) as [g|] eqn:E; [|discriminate]. cbn in *. injection S as <-.
  split; eexists; (split; [reflexivity|]); intros y x L; unfold convolve2d.
  - apply zsum_ext. intros i _.
    rewrite (zsum_neg n (fun j => g i j * im _ (reflect w (Z.of_nat (w - 1 - x) - j)))).
    apply zsum_ext. intros j _. destruct (kern_sym n g E i j) as (_ & -> & _).
    rewrite <- reflect_mirror by exact W. do 3 f_equal. lia.
  - rewrite (zsum_neg n (fun i => zsum n (fun j => g i j * im (reflect h (Z.of_nat (h - 1 - y) - i)) _))).
    apply zsum_ext. intros i _. apply zsum_ext. intros j _.
    destruct (kern_sym n g E i j) as (-> & _ & _).
    rewrite <- reflect_mirror by exact H. do 3 f_equal. lia.
Qed.

(** A map with a spacing of at most one degree is smoothed. *)
Theorem c144_plot : forall h w dx im, (0 < dx)%Q -> (dx <= 1)%Q ->
  exists out, smoothMap h w dx im = Some out.
Proof.
  intros h w dx im D L. unfold smoothMap, smooth.
  assert (A : (1 <= 1 / dx)%Q).
  { apply Qle_shift_div_l; [exact D|]. rewrite Qmult_1_l. exact L. }
  assert (F : (1 <= Qfloor (1 / dx))%Z).
  { change 1%Z with (Qfloor 1). now apply Qfloor_resp_le. }
  assert (P : (0 < plotSize dx)%nat).
  { unfold plotSize, trunc. destruct (Qle_bool 0 (1 / dx)) eqn:E; [lia|].
    exfalso. rewrite (proj2 (Qle_bool_iff 0 (1 / dx))) in E; [discriminate|].
    eapply Qle_trans; [|exact A]. discriminate. }
  destruct (c144_kernel _ P) as (g & -> & _). now eexists.
Qed.

Example c144_example :
  plotSize (1 # 20) = 20%nat /\ plotSize (3 # 10) = 3%nat /\
  reflect 3 (-1) = 0%nat /\ reflect 3 (-4) = 2%nat /\ reflect 3 3 = 2%nat /\ reflect 3 8 = 2%nat /\
  exists out, smooth 2 2 (fun u v => INR (u + v)) 1 = Some out /\ 0 <= out 0%nat 0%nat <= 2.
Proof.
  split; [reflexivity|]. split; [reflexivity|]. split; [reflexivity|].
  split; [reflexivity|]. split; [reflexivity|]. split; [reflexivity|].
  destruct (smooth 2 2 (fun u v => INR (u + v)) 1) as [out|] eqn:E; [|discriminate].
  exists out. split; [reflexivity|].
  apply (c144_range 2 2 1 _ out 0 2 ltac:(lia) ltac:(lia) E).
  intros u v U V. change 0 with (INR 0). change 2 with (INR 2).
  split; apply le_INR; lia.
Qed.

(** * C145 *)

(** Refuted: every hazard map can be smoothed.  On a grid coarser than one
    degree the kernel size is zero and every value of the map is NaN. *)
Theorem c145_coarse_refuted : forall h w dx im, (1 < dx)%Q -> smoothMap h w dx im = None.
Proof.
  intros h w dx im D. unfold smoothMap, smooth.
  assert (P : (0 < dx)%Q) by (eapply Qlt_trans; [|exact D]; reflexivity).
  assert (A : (1 / dx < 1)%Q).
  { apply Qlt_shift_div_r; [exact P|]. now rewrite Qmult_1_l. }
  assert (B : (0 <= 1 / dx)%Q).
  { apply Qle_shift_div_l; [exact P|]. rewrite Qmult_0_l. discriminate. }
  assert (F : plotSize dx = O).
  { unfold plotSize, trunc. rewrite (proj2 (Qle_bool_iff 0 (1 / dx)) B).
    pose proof (Qfloor_le (1 / dx)) as X.
    assert (Y : (inject_Z (Qfloor (1 / dx)) < inject_Z 1)%Q) by (eapply Qle_lt_trans; [exact X|exact A]).
    rewrite <- Zlt_Qlt in Y. lia. }
  now rewrite F.
Qed.

(** Refuted: a cell without data does not influence the others.  The value
    stored behind the mask (the fill value) changes every smoothed value
    within reach of the kernel, masked or not. *)
Theorem c145_mask_refuted : forall h w dx im y0 x0 v y x,
  (0 < h)%nat -> (0 < w)%nat -> (0 < dx)%Q -> (dx <= 1)%Q ->
  (y0 < h)%nat -> (x0 < w)%nat ->
  m_mask im y0 x0 = true -> v < m_val im y0 x0 ->
  (Z.abs (Z.of_nat y - Z.of_nat y0) <= Z.of_nat (plotSize dx))%Z ->
  (Z.abs (Z.of_nat x - Z.of_nat x0) <= Z.of_nat (plotSize dx))%Z ->
  let im' := mkMasked (fun a b => if (Nat.eqb a y0 && Nat.eqb b x0)%bool then v else m_val im a b)
                      (m_mask im) in
  exists o1 o2, smoothMap h w dx im = Some o1 /\ smoothMap h w dx im' = Some o2 /\
    o2 y x < o1 y x.
Proof.
  intros h w dx im y0 x0 v y x H W D1 D2 Y0 X0 M V RY RX im'.
  destruct (c144_plot h w dx im D1 D2) as (o1 & E1).
  unfold smoothMap, smooth in *. set (n := plotSize dx) in *.
  destruct (gaussKern n) as [g|] eqn:E; [|discriminate]. cbn in E1. injection E1 as <-.
  exists (convolve2d h w n g (m_val im)), (convolve2d h w n g (m_val im')).
  split; [reflexivity|]. split; [reflexivity|].
  set (d := m_val im y0 x0 - v). assert (Dp : 0 < d) by (unfold d; lra).
  set (delta := fun a b : nat => if (Nat.eqb a y0 && Nat.eqb b x0)%bool then 1 else 0).
  assert (L : convolve2d h w n g (m_val im') y x
            = convolve2d h w n g (m_val im) y x - d * convolve2d h w n g delta y x).
  { transitivity (convolve2d h w n g (fun a b => 1 * m_val im a b + (- d) * delta a b) y x).
    - apply conv_ext; try assumption. intros a b _ _. unfold im', delta. cbn [m_val].
      destruct (Nat.eqb a y0 && Nat.eqb b x0)%bool eqn:C; [|ring].
      apply andb_true_iff in C as [C1 C2]. apply Nat.eqb_eq in C1, C2. subst a b. unfold d. ring.
    - rewrite conv_linear. ring. }
  assert (P : 0 < convolve2d h w n g delta y x).
  { pose proof (kern_pos n g E) as G.
    assert (Q : forall i j, 0 <= g i j * delta (reflect h (Z.of_nat y - i)) (reflect w (Z.of_nat x - j))).
    { intros i j. unfold delta. specialize (G i j). destruct (_ && _)%bool; lra. }
    set (i0 := (Z.of_nat y - Z.of_nat y0)%Z) in *. set (j0 := (Z.of_nat x - Z.of_nat x0)%Z) in *.
    assert (T : 0 < g i0 j0 * delta (reflect h (Z.of_nat y - i0)) (reflect w (Z.of_nat x - j0))).
    { unfold i0, j0. replace (Z.of_nat y - (Z.of_nat y - Z.of_nat y0))%Z with (Z.of_nat y0) by lia.
      replace (Z.of_nat x - (Z.of_nat x - Z.of_nat x0))%Z with (Z.of_nat x0) by lia.
      rewrite !reflect_in by assumption. unfold delta. rewrite !Nat.eqb_refl. cbn [andb].
      rewrite Rmult_1_r. apply G. }
    eapply Rlt_le_trans; [exact T|]. unfold convolve2d.
    eapply Rle_trans.
    - exact (zsum_term n (fun j => g i0 j * delta (reflect h (Z.of_nat y - i0)) (reflect w (Z.of_nat x - j)))
               j0 (fun j => Q i0 j) RX).
    - apply (zsum_term n (fun i => zsum n (fun j => g i j * delta (reflect h (Z.of_nat y - i)) (reflect w (Z.of_nat x - j))))
               i0); [|exact RY].
      intros i. rewrite <- (sumn_0 (2 * n + 1)). apply sumn_le. intros; apply Q. }
  rewrite L. assert (0 < d * convolve2d h w n g delta y x) by (now apply Rmult_lt_0_compat). lra.
Qed.

(** Refuted: a kernel is returned for each of the eight wind directions. *)
Theorem c145_direction_refuted : forall d : string, getKernelRaises d = true.
Proof. reflexivity. Qed.

Example c145_example :
  smoothMap 3 3 2 (mkMasked (fun _ _ => 50) (fun _ _ => false)) = None /\
  exists o1 o2,
    smoothMap 1 2 1 (mkMasked (fun _ b => if Nat.eqb b 0 then 50 else 0) (fun _ b => Nat.eqb b 1)) = Some o1 /\
    smoothMap 1 2 1 (mkMasked (fun a b => if (Nat.eqb a 0 && Nat.eqb b 1)%bool then -9999
                                          else if Nat.eqb b 0 then 50 else 0)
                              (fun _ b => Nat.eqb b 1)) = Some o2 /\
    o2 0%nat 0%nat < o1 0%nat 0%nat.
Proof.
  split; [reflexivity|].
  refine (c145_mask_refuted 1 2 1 (mkMasked (fun _ b => if Nat.eqb b 0 then 50 else 0)
            (fun _ b => Nat.eqb b 1)) 0 1 (-9999) 0 0 _ _ _ _ _ _ _ _ _ _);
    try lia; try reflexivity; try discriminate; cbn; try lra; try lia.
  all: change (plotSize 1) with 1%nat; lia.
Qed.

Print Assumptions c144_kernel.
Print Assumptions c144_range.
Print Assumptions c144_total.
Print Assumptions c144_linear.
Print Assumptions c144_mirror.
Print Assumptions c144_plot.
Print Assumptions c145_coarse_refuted.
Print Assumptions c145_mask_refuted.
Print Assumptions c145_direction_refuted.
