(** C170, C171: vorticity. *)
From Coq Require Import Reals List Arith Lia Lra Bool.
From Verif Require Import CircleModel CircleProofs WindModel VortModel.
Import ListNotations.
Local Open Scope R_scope.

(** Strictly increasing or strictly decreasing coordinates. *)
Definition monotone (x : list R) : Prop :=
  (forall i j, (i < j < length x)%nat -> nth i x 0 < nth j x 0) \/
  (forall i j, (i < j < length x)%nat -> nth j x 0 < nth i x 0).
(** the neighbours used at the point i of n points *)
Definition before (i : nat) : nat := (i - 1)%nat.
Definition after (n i : nat) : nat := Nat.min (i + 1) (n - 1).

Lemma nth_first A (d : A) k : forall m i, (i < k)%nat -> nth i (firstn k m) d = nth i m d.
Proof.
  induction k as [|k IH]; intros m i H; [lia|]. destruct m as [|b m]; [now rewrite firstn_nil|].
  cbn [firstn]. destruct i; [reflexivity|]. exact (IH m i ltac:(lia)).
Qed.
Lemma im1_nth A (d : A) l i : (i < length l)%nat -> nth i (im1 d l) d = nth (before i) l d.
Proof.
  intros H. unfold im1, padded, before. rewrite nth_first by exact H. destruct i as [|i]; [now destruct l|].
  replace (S i - 1)%nat with i by lia. cbn [nth]. now rewrite app_nth1 by lia.
Qed.
Lemma im1_len A (d : A) l : length (im1 d l) = length l.
Proof. unfold im1, padded. rewrite firstn_length. cbn. rewrite app_length. cbn. lia. Qed.
Lemma ip1_len A (d : A) l : length (ip1 d l) = length l.
Proof. unfold ip1, padded. rewrite skipn_length. cbn [length]. rewrite app_length. cbn. destruct l; cbn; lia. Qed.
Lemma last_nth A (d : A) l : last l d = nth (length l - 1) l d.
Proof.
  induction l as [|a l IH]; [reflexivity|]. destruct l as [|b l]; [reflexivity|]. change (last (a :: b :: l) d) with (last (b :: l) d). rewrite IH. cbn [length].
  replace (S (S (length l)) - 1)%nat with (S (S (length l) - 1)) by lia. reflexivity.
Qed.
Lemma ip1_nth A (d : A) l i : (i < length l)%nat -> nth i (ip1 d l) d = nth (after (length l) i) l d.
Proof.
  intros H. unfold ip1, padded, after. destruct l as [|a l]; [cbn in H; lia|]. cbn [app skipn].
  cbn [length] in *. destruct (Nat.eq_dec i (length l)) as [->|N].
  - rewrite app_nth2, Nat.sub_diag by lia. change (nth 0 [last (a :: l) d] d) with (last (a :: l) d). rewrite last_nth. f_equal. cbn [length]. lia.
  - rewrite app_nth1 by lia. replace (Nat.min (i + 1) (S (length l) - 1)) with (S i) by lia. reflexivity.
Qed.
Lemma deriv_len x y : length x = length y -> length (deriv x y) = length x.
Proof. intros H. unfold deriv. rewrite map_length, !combine_length, !im1_len, !ip1_len. lia. Qed.
Lemma deriv_nth x y i : length x = length y -> (i < length x)%nat ->
  nth i (deriv x y) None = oquot (osub (nth (after (length x) i) y None) (nth (before i) y None))
                                 (nth (after (length x) i) x 0 - nth (before i) x 0).
Proof.
  intros L H. unfold deriv. set (f := fun p : (option R * option R) * (R * R) => _).
  rewrite (nth_indep _ None (f ((None, None), (0, 0)))) by (rewrite map_length, !combine_length, !im1_len, !ip1_len; lia).
  rewrite map_nth. rewrite !combine_nth by (rewrite ?combine_length, ?im1_len, ?ip1_len; lia). unfold f. cbn [fst snd].
  rewrite !im1_nth, !ip1_nth by lia. now rewrite <- L.
Qed.
Lemma gap x i : monotone x -> (2 <= length x)%nat -> (i < length x)%nat ->
  nth (after (length x) i) x 0 - nth (before i) x 0 <> 0.
Proof.
  intros [M|M] N H; pose proof (M (before i) (after (length x) i) ltac:(unfold before, after; lia)); lra.
Qed.
Lemma after_lt n i : (0 < n)%nat -> (after n i < n)%nat. Proof. unfold after. lia. Qed.
Lemma before_lt n i : (i < n)%nat -> (before i < n)%nat. Proof. unfold before. lia. Qed.
Lemma oquot_some v d : d <> 0 -> oquot (Some v) d = Some (v / d).
Proof. intros H. unfold oquot. destruct (Req_EM_T d 0); [contradiction | reflexivity]. Qed.
Lemma nth_map_some A (f : R -> A) d x i : (i < length x)%nat -> nth i (map f x) d = f (nth i x 0).
Proof. intros H. rewrite (nth_indep _ d (f 0)) by now rewrite map_length. apply map_nth. Qed.

(** The derivative of a linear function is its slope at every point, the ends included, whatever the spacing. *)
Theorem c170_linear : forall x a b, monotone x -> (2 <= length x)%nat ->
  deriv x (map (fun t => Some (a * t + b)) x) = map (fun _ => Some a) x.
Proof.
  intros x a b M N. apply nth_ext with None None; [rewrite deriv_len; now rewrite map_length|].
  rewrite deriv_len by now rewrite map_length. intros i H. rewrite deriv_nth by (rewrite ?map_length; auto).
  pose proof (gap x i M N H) as G. pose proof (after_lt (length x) i ltac:(lia)). pose proof (before_lt (length x) i H).
  rewrite !(nth_map_some _ (fun t => Some (a * t + b))), (nth_map_some _ (fun _ => Some a)) by assumption. cbn [osub].
  rewrite oquot_some by exact G. f_equal. field. exact G.
Qed.
Print Assumptions c170_linear.
Example c170_linear_example : monotone [1; 2; 5] /\ (2 <= length [1; 2; 5])%nat.
Proof.
  split; [|cbn; lia]. left. intros i j H. cbn [length] in H. destruct i as [|[|[|i]]]; destruct j as [|[|[|j]]]; cbn [nth]; try lia; lra.
Qed.

(** A derivative is missing exactly where one of the two neighbours used is missing; the value at an inner point itself
    is not used. *)
Theorem c170_missing : forall x y i, monotone x -> length x = length y -> (2 <= length x)%nat -> (i < length x)%nat ->
  (nth i (deriv x y) None = None <-> nth (before i) y None = None \/ nth (after (length x) i) y None = None).
Proof.
  intros x y i M L N H. rewrite deriv_nth by assumption. pose proof (gap x i M N H) as G.
  destruct (nth (after (length x) i) y None); destruct (nth (before i) y None); cbn [osub]; rewrite ?oquot_some by exact G;
    split; intros K; auto; try discriminate; destruct K; discriminate.
Qed.
Print Assumptions c170_missing.

(** Values that change by at most K per unit have derivatives of at most K; increasing values have positive ones. *)
Theorem c170_bounds : forall x f K, monotone x -> (2 <= length x)%nat ->
  (forall i j, (i < length x)%nat -> (j < length x)%nat -> Rabs (f i - f j) <= K * Rabs (nth i x 0 - nth j x 0)) ->
  forall i v, (i < length x)%nat -> nth i (deriv x (map (fun i => Some (f i)) (seq 0 (length x)))) None = Some v -> Rabs v <= K.
Proof.
  intros x f K M N B i v H E. rewrite deriv_nth in E by (rewrite ?map_length, ?seq_length; auto).
  pose proof (gap x i M N H) as G. pose proof (after_lt (length x) i ltac:(lia)) as A. pose proof (before_lt (length x) i H) as C.
  assert (T : forall j, (j < length x)%nat -> nth j (map (fun i => Some (f i)) (seq 0 (length x))) None = Some (f j)).
  { intros j J. rewrite (nth_indep _ None (Some (f 0%nat))) by (rewrite map_length, seq_length; exact J).
    rewrite (map_nth (fun i => Some (f i))), seq_nth by exact J. reflexivity. }
  rewrite !T in E by assumption. cbn [osub] in E. rewrite oquot_some in E by exact G. apply (f_equal (fun o => match o with Some w => w | None => 0 end)) in E. cbn beta iota in E. subst v.
  specialize (B _ _ A C). unfold Rdiv. rewrite Rabs_mult, Rabs_inv. apply Rabs_pos_lt in G.
  apply Rmult_le_reg_r with (1 := G). rewrite Rmult_assoc, Rinv_l by lra. lra.
Qed.
Print Assumptions c170_bounds.

(** The order of the points does not matter: derivatives in reversed order of reversed values. *)
Theorem c170_reverse : forall x y, length x = length y -> monotone x -> (2 <= length x)%nat ->
  deriv (rev x) (rev y) = rev (deriv x y).
Proof.
  intros x y L M N. apply nth_ext with None None; [rewrite rev_length, !deriv_len; now rewrite ?rev_length|].
  rewrite deriv_len, rev_length by now rewrite !rev_length. intros i H.
  rewrite deriv_nth by (rewrite ?rev_length; auto). rewrite rev_length.
  rewrite (rev_nth (deriv x y)) by (rewrite deriv_len; auto). rewrite deriv_len by exact L.
  rewrite deriv_nth by lia.
  pose proof (after_lt (length x) i ltac:(lia)) as A. pose proof (before_lt (length x) i H) as B.
  rewrite !(rev_nth y) by (rewrite <- L; assumption). rewrite !(rev_nth x) by assumption. rewrite <- L.
  replace (length x - S (after (length x) i))%nat with (before (length x - S i)) by (unfold before, after; lia).
  replace (length x - S (before i))%nat with (after (length x) (length x - S i)) by (unfold before, after; lia).
  pose proof (gap x (length x - S i) M N ltac:(lia)) as G.
  destruct (nth (before (length x - S i)) y None); destruct (nth (after (length x) (length x - S i)) y None); cbn [osub oquot]; try reflexivity.
  change (oquot (Some (r - r0)) (nth (before (length x - S i)) x 0 - nth (after (length x) (length x - S i)) x 0) = oquot (Some (r0 - r)) (nth (after (length x) (length x - S i)) x 0 - nth (before (length x - S i)) x 0)).
  rewrite !oquot_some by lra. f_equal. field. split; lra.
Qed.
Print Assumptions c170_reverse.

(** * The curl *)
Lemma row_nth nx F iy ix : (ix < nx)%nat -> nth ix (row nx F iy) None = F iy ix.
Proof.
  intros H. unfold row. rewrite (nth_indep _ None (F iy 0%nat)) by now rewrite map_length, seq_length.
  rewrite (map_nth (fun ix => F iy ix)), seq_nth by exact H. reflexivity.
Qed.
Lemma col_nth ny F ix iy : (iy < ny)%nat -> nth iy (col ny F ix) None = F iy ix.
Proof.
  intros H. unfold col. rewrite (nth_indep _ None (F 0%nat ix)) by now rewrite map_length, seq_length.
  rewrite (map_nth (fun iy => F iy ix)), seq_nth by exact H. reflexivity.
Qed.
Lemma row_len nx F iy : length (row nx F iy) = nx. Proof. unfold row. now rewrite map_length, seq_length. Qed.
Lemma col_len ny F ix : length (col ny F ix) = ny. Proof. unfold col. now rewrite map_length, seq_length. Qed.
Definition whole (f : nat -> nat -> R) : field := fun iy ix => Some (f iy ix).
Lemma dx_value x f iy ix : monotone x -> (2 <= length x)%nat -> (ix < length x)%nat ->
  nth ix (deriv x (row (length x) (whole f) iy)) None =
  Some ((f iy (after (length x) ix) - f iy (before ix)) / (nth (after (length x) ix) x 0 - nth (before ix) x 0)).
Proof.
  intros M N H. rewrite deriv_nth by (rewrite ?row_len; auto). pose proof (after_lt (length x) ix ltac:(lia)). pose proof (before_lt (length x) ix H).
  rewrite !row_nth by assumption. cbn [whole osub]. now rewrite oquot_some by now apply gap.
Qed.
Lemma dy_value y f iy ix : monotone y -> (2 <= length y)%nat -> (iy < length y)%nat ->
  nth iy (deriv y (col (length y) (whole f) ix)) None =
  Some ((f (after (length y) iy) ix - f (before iy) ix) / (nth (after (length y) iy) y 0 - nth (before iy) y 0)).
Proof.
  intros M N H. rewrite deriv_nth by (rewrite ?col_len; auto). pose proof (after_lt (length y) iy ltac:(lia)). pose proof (before_lt (length y) iy H).
  rewrite !col_nth by assumption. cbn [whole osub]. now rewrite oquot_some by now apply gap.
Qed.

(** A gradient has no curl: if the components are the derivatives of one quantity as the function deriv gives them, the
    curl is 0 at every point of every grid. *)
Theorem c170_gradient : forall x y phi iy ix, monotone x -> monotone y -> (2 <= length x)%nat -> (2 <= length y)%nat ->
  (iy < length y)%nat -> (ix < length x)%nat ->
  let Fx := fun j i => nth i (deriv x (row (length x) (whole phi) j)) None in
  let Fy := fun j i => nth j (deriv y (col (length y) (whole phi) i)) None in
  curlCart x y Fx Fy iy ix = Some 0.
Proof.
  intros x y phi iy ix Mx My Nx Ny Hy Hx. cbv beta zeta. unfold curlCart.
  rewrite !deriv_nth by (rewrite ?row_len, ?col_len; auto).
  pose proof (after_lt (length x) ix ltac:(lia)). pose proof (before_lt (length x) ix Hx).
  pose proof (after_lt (length y) iy ltac:(lia)). pose proof (before_lt (length y) iy Hy).
  rewrite !row_nth, !col_nth by assumption. rewrite !dx_value, !dy_value by assumption. cbn [osub].
  pose proof (gap x ix Mx Nx Hx) as GX. pose proof (gap y iy My Ny Hy) as GY.
  rewrite !oquot_some by assumption. cbn [osub]. f_equal. field. split; assumption.
Qed.
Print Assumptions c170_gradient.

(** A rigid rotation with angular velocity w has the curl 2 w at every point, edges and corners included; a uniform
    wind has none; curls add. *)
Theorem c170_rotation : forall x y w u0 v0 iy ix, monotone x -> monotone y -> (2 <= length x)%nat -> (2 <= length y)%nat ->
  (iy < length y)%nat -> (ix < length x)%nat ->
  curlCart x y (whole (fun j _ => u0 - w * nth j y 0)) (whole (fun _ i => v0 + w * nth i x 0)) iy ix = Some (2 * w).
Proof.
  intros x y w u0 v0 iy ix Mx My Nx Ny Hy Hx. unfold curlCart. rewrite dx_value, dy_value by assumption. cbn [osub].
  pose proof (gap x ix Mx Nx Hx) as GX. pose proof (gap y iy My Ny Hy) as GY. f_equal. field. split; assumption.
Qed.
Print Assumptions c170_rotation.
Theorem c170_sum : forall x y f g f' g' k iy ix, monotone x -> monotone y -> (2 <= length x)%nat -> (2 <= length y)%nat ->
  (iy < length y)%nat -> (ix < length x)%nat ->
  exists a b, curlCart x y (whole f) (whole g) iy ix = Some a /\ curlCart x y (whole f') (whole g') iy ix = Some b /\
    curlCart x y (whole (fun j i => f j i + k * f' j i)) (whole (fun j i => g j i + k * g' j i)) iy ix = Some (a + k * b).
Proof.
  intros x y f g f' g' k iy ix Mx My Nx Ny Hy Hx. unfold curlCart. rewrite !dx_value, !dy_value by assumption. cbn [osub].
  eexists; eexists. split; [reflexivity|]. split; [reflexivity|].
  pose proof (gap x ix Mx Nx Hx) as GX. pose proof (gap y iy My Ny Hy) as GY. f_equal. field. split; assumption.
Qed.
Print Assumptions c170_sum.
Example c170_grid_example : monotone [0; 1; 3] /\ monotone [10; 5; 0] /\ (1 < length [10; 5; 0])%nat.
Proof.
  split; [|split; [|cbn; lia]].
  - left. intros i j H. cbn [length] in H. destruct i as [|[|[|i]]]; destruct j as [|[|[|j]]]; cbn [nth]; try lia; lra.
  - right. intros i j H. cbn [length] in H. destruct i as [|[|[|i]]]; destruct j as [|[|[|j]]]; cbn [nth]; try lia; lra.
Qed.

(** * On the sphere *)
Lemma rad_monotone x : monotone x -> monotone (map rad x).
Proof.
  pose proof PI_RGT_0 as P. assert (E : forall a b, a < b -> rad a < rad b) by (intros; unfold rad; Lra.nra).
  intros [M|M]; [left|right]; rewrite map_length; intros i j H; rewrite !(nth_map_some _ rad) by lia; apply E, M; exact H.
Qed.
Lemma cos_col f ny yrad ix iy : length yrad = ny -> (iy < ny)%nat ->
  nth iy (map (fun p => oscale (cos (fst p)) (snd p)) (combine yrad (col ny (whole f) ix))) None = Some (f iy ix * cos (nth iy yrad 0)).
Proof.
  intros L H. set (h := fun p : R * option R => _). rewrite (nth_indep _ None (h (0, None))) by (rewrite map_length, combine_length, col_len; lia).
  rewrite map_nth, combine_nth by now rewrite col_len. rewrite col_nth by exact H. reflexivity.
Qed.
Lemma sphere_value radius x y f g iy ix : monotone x -> monotone y -> (2 <= length x)%nat -> (2 <= length y)%nat ->
  (iy < length y)%nat -> (ix < length x)%nat -> -88 <= nth iy y 0 <= 88 -> radius <> 0 ->
  curlSphere radius x y (whole f) (whole g) iy ix =
  let D l i := rad (nth (after (length l) i) l 0) - rad (nth (before i) l 0) in
  let ja := after (length y) iy in let jb := before iy in
  Some (((g iy (after (length x) ix) - g iy (before ix)) / D x ix -
         (f ja ix * cos (rad (nth ja y 0)) - f jb ix * cos (rad (nth jb y 0))) / D y iy) / (radius * cos (rad (nth iy y 0)))).
Proof.
  intros Mx My Nx Ny Hy Hx B R0. cbv beta zeta. unfold curlSphere.
  rewrite (proj2 (rlt_false _ _)) by lra. rewrite (proj2 (rlt_false (nth iy y 0) _)) by lra. cbn [orb].
  replace (length x) with (length (map rad x)) at 1 by now rewrite map_length.
  rewrite dx_value by (rewrite ?map_length; auto using rad_monotone).
  rewrite deriv_nth by (rewrite !map_length, ?combine_length, ?col_len, ?map_length; lia).
  pose proof (after_lt (length x) ix ltac:(lia)). pose proof (before_lt (length x) ix Hx).
  pose proof (after_lt (length y) iy ltac:(lia)). pose proof (before_lt (length y) iy Hy).
  rewrite !map_length. rewrite !cos_col by (rewrite ?map_length; auto). cbn [osub].
  rewrite !(nth_map_some _ rad) by assumption.
  pose proof (gap (map rad y) iy (rad_monotone y My) ltac:(now rewrite map_length) ltac:(now rewrite map_length)) as GY.
  rewrite map_length, !(nth_map_some _ rad) in GY by assumption. rewrite oquot_some by exact GY. cbn [osub].
  apply oquot_some. apply Rmult_integral_contrapositive. split; [exact R0|]. apply Rgt_not_eq, cos_gt_0; unfold rad; pose proof PI_RGT_0; Lra.nra.
Qed.

(** Values are given exactly up to 88 degrees north and south (for fields without gaps). *)
Theorem c170_poles : forall f g x y iy ix, monotone x -> monotone y -> (2 <= length x)%nat -> (2 <= length y)%nat ->
  (iy < length y)%nat -> (ix < length x)%nat ->
  (relative (whole f) (whole g) x y iy ix = None <-> 88 < Rabs (nth iy y 0)).
Proof.
  intros f g x y iy ix Mx My Nx Ny Hy Hx. destruct (Rlt_dec 88 (Rabs (nth iy y 0))) as [B|B].
  - split; [auto|]. intros _. unfold relative, curlSphere. destruct (Rcase_abs (nth iy y 0)) as [C|C].
    + rewrite Rabs_left in B by exact C. rewrite (proj2 (rlt_true (nth iy y 0) (-88))) by lra. now rewrite orb_true_r.
    + rewrite Rabs_right in B by exact C. now rewrite (proj2 (rlt_true 88 (nth iy y 0))) by lra.
  - split; [|contradiction]. apply Rnot_lt_le in B. unfold relative. rewrite sphere_value; auto; [discriminate|].
    destruct (Rcase_abs (nth iy y 0)) as [C|C]; [rewrite Rabs_left in B by exact C | rewrite Rabs_right in B by exact C]; lra.
Qed.
Print Assumptions c170_poles.

(** The atmosphere turning with the earth: for latitudes h degrees apart the relative vorticity found at inner points is
    the true 2 w sin(latitude) times sin(2h)/(2h), at every latitude and longitude. *)
Theorem c170_earth : forall x y w h iy ix, monotone x -> monotone y -> (2 <= length x)%nat ->
  (0 < iy)%nat -> (S iy < length y)%nat -> (ix < length x)%nat -> -88 <= nth iy y 0 <= 88 ->
  0 < h -> nth (iy - 1) y 0 = nth iy y 0 - h -> nth (iy + 1) y 0 = nth iy y 0 + h ->
  relative (whole (fun j _ => w * 6378137 * cos (rad (nth j y 0)))) (whole (fun _ _ => 0)) x y iy ix =
  Some (2 * w * sin (rad (nth iy y 0)) * (sin (2 * rad h) / (2 * rad h))).
Proof.
  intros x y w h iy ix Mx My Nx I0 I1 Hx B H E1 E2. unfold relative. rewrite sphere_value by (auto; try lia; lra). cbv beta zeta. f_equal.
  replace (after (length y) iy) with (iy + 1)%nat by (unfold after; lia). change (before iy) with (iy - 1)%nat. rewrite E1, E2.
  set (p := rad (nth iy y 0)). replace (rad (nth iy y 0 + h)) with (p + rad h) by (unfold p, rad; field).
  replace (rad (nth iy y 0 - h)) with (p - rad h) by (unfold p, rad; field).
  assert (C : cos p <> 0) by (apply Rgt_not_eq, cos_gt_0; unfold p, rad; pose proof PI_RGT_0; Lra.nra).
  assert (T : 0 < rad h) by (unfold rad; pose proof PI_RGT_0; Lra.nra). set (t := rad h) in *.
  pose proof (gap (map rad x) ix (rad_monotone x Mx) ltac:(now rewrite map_length) ltac:(now rewrite map_length)) as GX.
  pose proof (after_lt (length x) ix ltac:(lia)). pose proof (before_lt (length x) ix Hx).
  rewrite map_length, !(nth_map_some _ rad) in GX by assumption.
  replace ((0 - 0) / (rad (nth (after (length x) ix) x 0) - rad (nth (before ix) x 0))) with 0 by (field; exact GX).
  assert (K : cos (p + t) * cos (p + t) - cos (p - t) * cos (p - t) = - (2 * sin p * cos p * sin (2 * t))).
  { rewrite cos_plus, cos_minus, sin_2a. ring. }
  replace (w * 6378137 * cos (p + t) * cos (p + t) - w * 6378137 * cos (p - t) * cos (p - t))
    with (w * 6378137 * (cos (p + t) * cos (p + t) - cos (p - t) * cos (p - t))) by ring.
  rewrite K. field. split; [|split]; lra.
Qed.
Print Assumptions c170_earth.
Example c170_earth_example : monotone [-10; -9; -8] /\ -88 <= nth 1 [-10; -9; -8] 0 <= 88 /\ nth (1 - 1) [-10; -9; -8] 0 = nth 1 [-10; -9; -8] 0 - 1.
Proof.
  split; [|cbn; lra].
  left. intros i j H. cbn [length] in H. destruct i as [|[|[|i]]]; destruct j as [|[|[|j]]]; cbn [nth]; try lia; lra.
Qed.

(** The mirror image in the other hemisphere has the opposite vorticity, relative and absolute. *)
Theorem c170_hemispheres : forall x y f g iy ix, monotone x -> monotone y -> (2 <= length x)%nat -> (2 <= length y)%nat ->
  (iy < length y)%nat -> (ix < length x)%nat ->
  let y' := map Ropp y in
  relative (whole f) (whole (fun j i => - g j i)) x y' iy ix = option_map Ropp (relative (whole f) (whole g) x y iy ix) /\
  absolute (whole f) (whole (fun j i => - g j i)) x y' iy ix = option_map Ropp (absolute (whole f) (whole g) x y iy ix).
Proof.
  intros x y f g iy ix Mx My Nx Ny Hy Hx y'.
  assert (L : length y' = length y) by apply map_length.
  assert (V : forall j, (j < length y)%nat -> nth j y' 0 = - nth j y 0).
  { intros j J. unfold y'. now rewrite (nth_map_some _ Ropp). }
  assert (My' : monotone y').
  { destruct My as [M|M]; [right|left]; intros i j H; rewrite !V by lia; specialize (M i j ltac:(lia)); lra. }
  assert (Q : relative (whole f) (whole (fun j i => - g j i)) x y' iy ix = option_map Ropp (relative (whole f) (whole g) x y iy ix)).
  { destruct (Rlt_dec 88 (Rabs (nth iy y 0))) as [B|B].
    - rewrite (proj2 (c170_poles f (fun j i => - g j i) x y' iy ix Mx My' Nx ltac:(lia) ltac:(lia) Hx)) by (rewrite V, Rabs_Ropp; auto).
      now rewrite (proj2 (c170_poles f g x y iy ix Mx My Nx Ny Hy Hx)).
    - assert (B' : -88 <= nth iy y 0 <= 88).
      { apply Rnot_lt_le in B. destruct (Rcase_abs (nth iy y 0)) as [C|C]; [rewrite Rabs_left in B by exact C | rewrite Rabs_right in B by exact C]; lra. }
      unfold relative. rewrite !sphere_value by (auto; try lia; rewrite ?V; auto; lra). cbv beta zeta. cbn [option_map]. f_equal.
      pose proof (after_lt (length y) iy ltac:(lia)). pose proof (before_lt (length y) iy Hy).
      pose proof (after_lt (length x) ix ltac:(lia)). pose proof (before_lt (length x) ix Hx).
      rewrite L, !V by assumption. assert (O : forall t, rad (- t) = - rad t) by (intros; unfold rad; field). rewrite !O, !cos_neg.
      pose proof (gap (map rad x) ix (rad_monotone x Mx) ltac:(now rewrite map_length) ltac:(now rewrite map_length)) as GX.
      pose proof (gap (map rad y) iy (rad_monotone y My) ltac:(now rewrite map_length) ltac:(now rewrite map_length)) as GY.
      rewrite map_length, !(nth_map_some _ rad) in GX by assumption. rewrite map_length, !(nth_map_some _ rad) in GY by assumption.
      assert (C : cos (rad (nth iy y 0)) <> 0) by (apply Rgt_not_eq, cos_gt_0; unfold rad; pose proof PI_RGT_0; Lra.nra).
      field. repeat split; lra. }
  split; [exact Q|]. unfold absolute. rewrite Q, V by exact Hy. destruct (relative (whole f) (whole g) x y iy ix) as [z|]; [|reflexivity].
  cbn [option_map]. f_equal. unfold coriolis. replace (- nth iy y 0 * PI / 180) with (- (nth iy y 0 * PI / 180)) by field. rewrite sin_neg. ring.
Qed.
Print Assumptions c170_hemispheres.

(** Only differences of longitude count, and the absolute vorticity of resting air is that of the earth. *)
Theorem c170_shift : forall x y f g d iy ix, monotone x -> monotone y -> (2 <= length x)%nat -> (2 <= length y)%nat ->
  (iy < length y)%nat -> (ix < length x)%nat ->
  relative (whole f) (whole g) (map (fun t => t + d) x) y iy ix = relative (whole f) (whole g) x y iy ix.
Proof.
  intros x y f g d iy ix Mx My Nx Ny Hy Hx. set (x' := map (fun t => t + d) x).
  assert (L : length x' = length x) by apply map_length.
  assert (V : forall j, (j < length x)%nat -> nth j x' 0 = nth j x 0 + d).
  { intros j J. unfold x'. now rewrite (nth_map_some _ (fun t => t + d)). }
  assert (Mx' : monotone x').
  { destruct Mx as [M|M]; [left|right]; intros i j H; rewrite !V by lia; specialize (M i j ltac:(lia)); lra. }
  destruct (Rlt_dec 88 (Rabs (nth iy y 0))) as [B|B].
  - rewrite (proj2 (c170_poles f g x' y iy ix Mx' My ltac:(lia) Ny Hy ltac:(lia))) by exact B.
    now rewrite (proj2 (c170_poles f g x y iy ix Mx My Nx Ny Hy Hx)).
  - assert (B' : -88 <= nth iy y 0 <= 88).
    { apply Rnot_lt_le in B. destruct (Rcase_abs (nth iy y 0)) as [C|C]; [rewrite Rabs_left in B by exact C | rewrite Rabs_right in B by exact C]; lra. }
    unfold relative. rewrite !sphere_value by (auto; try lia; lra). cbv beta zeta. f_equal.
    pose proof (after_lt (length x) ix ltac:(lia)). pose proof (before_lt (length x) ix Hx).
    rewrite L, !V by assumption. f_equal. f_equal. f_equal. unfold rad. field.
Qed.
Print Assumptions c170_shift.
Theorem c170_rest : forall x y iy ix, monotone x -> monotone y -> (2 <= length x)%nat -> (2 <= length y)%nat ->
  (iy < length y)%nat -> (ix < length x)%nat -> Rabs (nth iy y 0) <= 88 ->
  absolute (whole (fun _ _ => 0)) (whole (fun _ _ => 0)) x y iy ix = Some (2 * (2 * PI / 86400) * sin (rad (nth iy y 0))).
Proof.
  intros x y iy ix Mx My Nx Ny Hy Hx B. unfold absolute, relative.
  assert (B' : -88 <= nth iy y 0 <= 88).
  { destruct (Rcase_abs (nth iy y 0)) as [C|C]; [rewrite Rabs_left in B by exact C | rewrite Rabs_right in B by exact C]; lra. }
  rewrite sphere_value by (auto; lra). cbv beta zeta. cbn [option_map]. f_equal. unfold coriolis.
  rewrite !Rmult_0_l. unfold Rdiv at 1 2 3. rewrite !Rminus_0_r, !Rmult_0_l, !Rminus_0_r, Rmult_0_l, Rplus_0_l. reflexivity.
Qed.
Print Assumptions c170_rest.

(** * C171 *)
(** At the edge of the grid the derivative is one-sided: of a square it is off by the spacing; inside it is right only
    for even spacing. *)
Theorem c171_square_refuted : forall x i, monotone x -> (2 <= length x)%nat -> (i < length x)%nat ->
  nth i (deriv x (map (fun t => Some (t * t)) x)) None = Some (nth (after (length x) i) x 0 + nth (before i) x 0).
Proof.
  intros x i M N H. rewrite deriv_nth by (rewrite ?map_length; auto). pose proof (gap x i M N H) as G.
  pose proof (after_lt (length x) i ltac:(lia)). pose proof (before_lt (length x) i H).
  rewrite !(nth_map_some _ (fun t => Some (t * t))) by assumption. cbn [osub]. rewrite oquot_some by exact G. f_equal. field. exact G.
Qed.
Print Assumptions c171_square_refuted.
Theorem c171_edge_refuted : forall x, monotone x -> (2 <= length x)%nat ->
  nth 0 (deriv x (map (fun t => Some (t * t)) x)) None <> Some (2 * nth 0 x 0) /\
  nth (length x - 1) (deriv x (map (fun t => Some (t * t)) x)) None <> Some (2 * nth (length x - 1) x 0).
Proof.
  intros x M N. rewrite !c171_square_refuted by (auto; lia). unfold after, before.
  replace (Nat.min (0 + 1) (length x - 1)) with 1%nat by lia. replace (0 - 1)%nat with 0%nat by lia.
  replace (Nat.min (length x - 1 + 1) (length x - 1)) with (length x - 1)%nat by lia.
  split; intros E; apply (f_equal (fun o => match o with Some w => w | None => 0 end)) in E; cbn beta iota in E.
  - destruct M as [M|M]; pose proof (M 0%nat 1%nat ltac:(lia)); lra.
  - destruct M as [M|M]; pose proof (M (length x - 1 - 1)%nat (length x - 1)%nat ltac:(lia)); lra.
Qed.
Print Assumptions c171_edge_refuted.
(** Longitudes that pass from 360 to 0 are differenced as they stand: a northward wind growing eastward has a negative
    vorticity next to the jump. *)
Theorem c171_meridian_refuted : forall v iy, 0 < v ->
  exists z, nth 1 (deriv (map rad [359; 0; 1]) (row 3 (whole (fun _ i => v * INR i)) iy)) None = Some z /\ z < 0 /\
  exists z', nth 1 (deriv (map rad [359; 360; 361]) (row 3 (whole (fun _ i => v * INR i)) iy)) None = Some z' /\ 0 < z'.
Proof.
  intros v iy H. pose proof PI_RGT_0 as P.
  assert (D : rad 1 - rad 359 < 0) by (unfold rad; Lra.nra). assert (D' : 0 < rad 361 - rad 359) by (unfold rad; Lra.nra).
  eexists. split; [cbn; apply oquot_some; lra|]. split.
  - cbn. apply Ropp_lt_cancel. rewrite Ropp_0. replace (- ((v * (1 + 1) - v * 0) / (rad 1 - rad 359))) with (2 * v * / (rad 359 - rad 1)) by (field; lra).
    apply Rmult_lt_0_compat; [lra|]. apply Rinv_0_lt_compat. lra.
  - eexists. split; [cbn; apply oquot_some; lra|]. cbn. apply Rdiv_lt_0_compat; lra.
Qed.
Print Assumptions c171_meridian_refuted.
(** A grid around the globe is not closed: at its first and last meridian the vorticity does not depend on the wind on
    the other side of the seam. *)
Theorem c171_seam_refuted : forall radius x y f g g' iy, monotone x -> monotone y -> (3 <= length x)%nat -> (2 <= length y)%nat ->
  (iy < length y)%nat -> -88 <= nth iy y 0 <= 88 -> radius <> 0 ->
  (forall j i, (i < 2)%nat -> g j i = g' j i) ->
  curlSphere radius x y (whole f) (whole g) iy 0%nat = curlSphere radius x y (whole f) (whole g') iy 0%nat.
Proof.
  intros radius x y f g g' iy Mx My Nx Ny Hy B R0 E. rewrite !sphere_value by (auto; lia). cbv beta zeta.
  rewrite !(E iy) by (unfold after, before; lia). reflexivity.
Qed.
Print Assumptions c171_seam_refuted.
(** [missing=None] is documented and fails with every algorithm; spherepack fails without the package. *)
Theorem c171_none_refuted : (forall a sphere usable gaps, a <> BadName -> choose a sphere usable gaps true = TypeError) /\
  (forall usable, choose Spherepack false usable false false = ImportError) /\
  (forall usable gaps, choose DefaultSpherical false usable gaps false = Spherical).
Proof. split; [intros [] sphere usable gaps H; try reflexivity; contradiction | split; reflexivity]. Qed.
Print Assumptions c171_none_refuted.
(** With a single column or row nothing is given. *)
Theorem c171_single_refuted : forall x y Fx Fy iy ix, (length x = 1%nat \/ length y = 1%nat) -> (iy < length y)%nat -> (ix < length x)%nat ->
  curlCart x y Fx Fy iy ix = None.
Proof.
  intros x y Fx Fy iy ix H Hy Hx. unfold curlCart. rewrite !deriv_nth by (rewrite ?row_len, ?col_len; auto).
  assert (Z : forall o a, oquot o (a - a) = None).
  { intros o a. unfold oquot. destruct o; [|reflexivity]. destruct (Req_EM_T (a - a) 0); [reflexivity | lra]. }
  destruct H as [H|H].
  - replace (after (length x) ix) with (before ix) by (unfold after, before; lia). now rewrite Z.
  - replace (after (length y) iy) with (before iy) by (unfold after, before; lia). rewrite Z. now destruct (oquot _ _).
Qed.
Print Assumptions c171_single_refuted.
