(** Proofs about the smoothing model (SmoothModel). *)
From Coq Require Import Reals ZArith QArith String List Bool Lia Lra.
From Verif Require Import Base GenModel SmoothModel.
Import ListNotations.
Local Open Scope R_scope.

Lemma sumn_ext : forall n f g, (forall k, (k < n)%nat -> f k = g k) -> sumn f n = sumn g n.
Proof.
  induction n as [|n IH]; intros f g H; cbn; [reflexivity|].
  rewrite (IH f g) by (intros; apply H; lia). rewrite H by lia. reflexivity.
Qed.

Lemma sumn_plus : forall n f g, sumn (fun k => f k + g k) n = sumn f n + sumn g n.
Proof. induction n as [|n IH]; intros; cbn; [lra|]. rewrite IH. lra. Qed.

Lemma sumn_scal : forall n c f, sumn (fun k => c * f k) n = c * sumn f n.
Proof. induction n as [|n IH]; intros; cbn; [lra|]. rewrite IH. lra. Qed.

Lemma sumn_le : forall n f g, (forall k, (k < n)%nat -> f k <= g k) -> sumn f n <= sumn g n.
Proof.
  induction n as [|n IH]; intros f g H; cbn; [lra|].
  apply Rplus_le_compat; [apply IH; intros; apply H; lia|apply H; lia].
Qed.

Lemma sumn_0 : forall n, sumn (fun _ => 0) n = 0.
Proof. induction n as [|n IH]; cbn; [reflexivity|]. rewrite IH. lra. Qed.

Lemma sumn_pos : forall n f, (forall k, (k < n)%nat -> 0 < f k) -> (0 < n)%nat -> 0 < sumn f n.
Proof.
  induction n as [|n IH]; intros f H L; [lia|]. cbn [sumn].
  assert (0 < f n) by (apply H; lia).
  destruct n as [|n]; [cbn; lra|].
  assert (0 < sumn f (S n)) by (apply IH; [intros; apply H; lia|lia]). lra.
Qed.

(** A term of a sum of non-negative terms. *)
Lemma sumn_term : forall n f k, (forall i, (i < n)%nat -> 0 <= f i) -> (k < n)%nat ->
  f k <= sumn f n.
Proof.
  induction n as [|n IH]; intros f k H L; [lia|]. cbn [sumn].
  assert (0 <= sumn f n).
  { rewrite <- (sumn_0 n). apply sumn_le. intros; apply H; lia. }
  assert (0 <= f n) by (apply H; lia).
  destruct (Nat.eq_dec k n) as [->|N]; [lra|].
  assert (f k <= sumn f n) by (apply IH; [intros; apply H; lia|lia]). lra.
Qed.

Lemma sumn_swap : forall n m f,
  sumn (fun a => sumn (fun b => f a b) m) n = sumn (fun b => sumn (fun a => f a b) n) m.
Proof.
  induction n as [|n IH]; intros m f; cbn [sumn].
  - now rewrite sumn_0.
  - rewrite IH. now rewrite <- sumn_plus.
Qed.

Lemma sumn_shift : forall n f, sumn f (S n) = f O + sumn (fun k => f (S k)) n.
Proof.
  induction n as [|n IH]; intros f; [cbn; lra|].
  change (sumn f (S (S n))) with (sumn f (S n) + f (S n)). rewrite IH. cbn [sumn]. lra.
Qed.

Lemma sumn_rev : forall n f, sumn f n = sumn (fun k => f (n - 1 - k)%nat) n.
Proof.
  induction n as [|n IH]; intros f; [reflexivity|].
  rewrite (sumn_shift n (fun k => f (S n - 1 - k)%nat)). cbn [sumn].
  replace (S n - 1 - 0)%nat with n by lia. rewrite (IH f), Rplus_comm. f_equal.
  apply sumn_ext. intros k L. f_equal. lia.
Qed.

Lemma sumn_app : forall n m f, sumn f (n + m) = sumn f n + sumn (fun k => f (n + k)%nat) m.
Proof.
  induction m as [|m IH]; intros f.
  - rewrite Nat.add_0_r. cbn. lra.
  - replace (n + S m)%nat with (S (n + m)) by lia. cbn [sumn]. rewrite IH. lra.
Qed.

(** Sums over -n .. n. *)
Lemma zsum_ext : forall n f g, (forall i, (Z.abs i <= Z.of_nat n)%Z -> f i = g i) -> zsum n f = zsum n g.
Proof. intros n f g H. apply sumn_ext. intros k L. apply H. lia. Qed.

Lemma zsum_neg : forall n f, zsum n f = zsum n (fun i => f (- i)%Z).
Proof.
  intros n f. unfold zsum. rewrite sumn_rev. apply sumn_ext. intros k L. f_equal. lia.
Qed.

Lemma zsum_plus : forall n f g, zsum n (fun i => f i + g i) = zsum n f + zsum n g.
Proof. intros. apply sumn_plus. Qed.

Lemma zsum_scal : forall n c f, zsum n (fun i => c * f i) = c * zsum n f.
Proof. intros. apply (sumn_scal (2 * n + 1) c (fun k => f (Z.of_nat k - Z.of_nat n)%Z)). Qed.

Lemma zsum_le : forall n f g, (forall i, f i <= g i) -> zsum n f <= zsum n g.
Proof. intros. apply sumn_le. intros; apply H. Qed.

Lemma zsum_pos : forall n f, (forall i, 0 < f i) -> 0 < zsum n f.
Proof. intros. apply sumn_pos; [intros; apply H|lia]. Qed.

Lemma zsum_term : forall n f i, (forall i, 0 <= f i) -> (Z.abs i <= Z.of_nat n)%Z -> f i <= zsum n f.
Proof.
  intros n f i H L. unfold zsum.
  pose proof (sumn_term (2 * n + 1) (fun k => f (Z.of_nat k - Z.of_nat n)%Z)
                (Z.to_nat (i + Z.of_nat n)) (fun k _ => H _)) as T.
  cbv beta in T. replace (Z.of_nat (Z.to_nat (i + Z.of_nat n)) - Z.of_nat n)%Z with i in T by lia.
  apply T. lia.
Qed.

Lemma zsum_sumn : forall n m f,
  zsum n (fun i => sumn (fun y => f i y) m) = sumn (fun y => zsum n (fun i => f i y)) m.
Proof. intros. apply (sumn_swap (2 * n + 1) m (fun k y => f (Z.of_nat k - Z.of_nat n)%Z y)). Qed.

(** The reflection. *)
Lemma reflect_range : forall L k, (0 < L)%nat -> (reflect L k < L)%nat.
Proof.
  intros L k H. unfold reflect.
  pose proof (Z.mod_pos_bound k (2 * Z.of_nat L) ltac:(lia)).
  destruct (_ <? _)%Z eqn:E; [apply Z.ltb_lt in E|apply Z.ltb_ge in E]; lia.
Qed.

Lemma reflect_in : forall L k, (k < L)%nat -> reflect L (Z.of_nat k) = k.
Proof.
  intros L k H. unfold reflect. rewrite Z.mod_small by lia.
  destruct (_ <? _)%Z eqn:E; [lia|apply Z.ltb_ge in E; lia].
Qed.

Lemma reflect_period : forall L k, (0 < L)%nat -> reflect L (k + 2 * Z.of_nat L) = reflect L k.
Proof.
  intros L k H. unfold reflect.
  replace (k + 2 * Z.of_nat L)%Z with (k + 1 * (2 * Z.of_nat L))%Z by lia.
  now rewrite Z.mod_add by lia.
Qed.

Lemma reflect_edge : forall L k, (0 < L)%nat -> reflect L (-1 - k) = reflect L k.
Proof.
  intros L k H. unfold reflect.
  set (M := (2 * Z.of_nat L)%Z).
  pose proof (Z.mod_pos_bound k M ltac:(lia)) as B.
  pose proof (Z.div_mod k M ltac:(lia)) as D.
  assert (E : ((-1 - k) mod M = M - 1 - k mod M)%Z).
  { symmetry. apply Z.mod_unique_pos with (q := (- (k / M) - 1)%Z); [lia|].
    rewrite D at 1. lia. }
  rewrite E.
  destruct (M - 1 - k mod M <? Z.of_nat L)%Z eqn:E1;
  destruct (k mod M <? Z.of_nat L)%Z eqn:E2;
  try apply Z.ltb_lt in E1; try apply Z.ltb_ge in E1;
  try apply Z.ltb_lt in E2; try apply Z.ltb_ge in E2; lia.
Qed.

Lemma reflect_mirror : forall L k, (0 < L)%nat ->
  reflect L (Z.of_nat L - 1 - k) = (L - 1 - reflect L k)%nat.
Proof.
  intros L k H.
  pose proof (reflect_range L k H). unfold reflect in *.
  set (M := (2 * Z.of_nat L)%Z) in *.
  pose proof (Z.mod_pos_bound k M ltac:(lia)) as B.
  pose proof (Z.div_mod k M ltac:(lia)) as D.
  destruct (k mod M <? Z.of_nat L)%Z eqn:E2.
  - apply Z.ltb_lt in E2.
    assert (E : ((Z.of_nat L - 1 - k) mod M = Z.of_nat L - 1 - k mod M)%Z).
    { symmetry. apply Z.mod_unique_pos with (q := (- (k / M))%Z); [lia|].
      rewrite D at 1. lia. }
    rewrite E. destruct (_ <? _)%Z eqn:E1; [|apply Z.ltb_ge in E1]; lia.
  - apply Z.ltb_ge in E2.
    assert (E : ((Z.of_nat L - 1 - k) mod M = Z.of_nat L - 1 - k mod M + M)%Z).
    { symmetry. apply Z.mod_unique_pos with (q := (- (k / M) - 1)%Z); [lia|].
      rewrite D at 1. lia. }
    rewrite E. destruct (_ <? _)%Z eqn:E1; [apply Z.ltb_lt in E1|]; lia.
Qed.

(** Summing a shifted axis and the axis shifted the other way. *)
Lemma shift_sum : forall L f j, (0 < L)%nat ->
  sumn (fun x => f (reflect L (Z.of_nat x - j))) L
  + sumn (fun x => f (reflect L (Z.of_nat x + j))) L = 2 * sumn f L.
Proof.
  intros L f j H.
  set (E := fun k => f (reflect L k)).
  assert (P : forall j, sumn (fun k => E (Z.of_nat k - Z.of_nat L - j)%Z) (2 * L)
            = sumn (fun x => E (Z.of_nat x - j)%Z) L + sumn (fun x => E (Z.of_nat x + j)%Z) L).
  { clear j. intros j. replace (2 * L)%nat with (L + L)%nat by lia. rewrite sumn_app, Rplus_comm. f_equal.
    - apply sumn_ext. intros k K. f_equal. lia.
    - rewrite sumn_rev. apply sumn_ext. intros k K. unfold E. f_equal.
      rewrite <- (reflect_edge L (Z.of_nat k + j)) by exact H. f_equal. lia. }
  assert (Q : forall m : nat, sumn (fun k => E (Z.of_nat k - Z.of_nat L - Z.of_nat m)%Z) (2 * L)
            = sumn (fun k => E (Z.of_nat k - Z.of_nat L - 0)%Z) (2 * L)).
  { induction m as [|m IH]; [reflexivity|]. rewrite <- IH.
    destruct (2 * L)%nat as [|L2] eqn:E2; [lia|].
    rewrite sumn_shift. cbn [sumn]. rewrite Rplus_comm. f_equal.
    - apply sumn_ext. intros k K. f_equal. lia.
    - unfold E. f_equal.
      rewrite <- (reflect_period L (Z.of_nat 0 - Z.of_nat L - Z.of_nat (S m))) by exact H.
      f_equal. lia. }
  change (sumn (fun x => E (Z.of_nat x - j)%Z) L + sumn (fun x => E (Z.of_nat x + j)%Z) L = 2 * sumn f L).
  assert (Z0 : sumn (fun k => E (Z.of_nat k - Z.of_nat L - 0)%Z) (2 * L) = 2 * sumn f L).
  { rewrite P. assert (A : sumn (fun x => E (Z.of_nat x - 0)%Z) L = sumn f L).
    { apply sumn_ext. intros k K. unfold E. rewrite Z.sub_0_r. now rewrite reflect_in. }
    assert (B : sumn (fun x => E (Z.of_nat x + 0)%Z) L = sumn f L).
    { apply sumn_ext. intros k K. unfold E. rewrite Z.add_0_r. now rewrite reflect_in. }
    rewrite A, B. lra. }
  destruct (Z.le_ge_cases 0 j) as [J|J].
  - rewrite <- P. replace j with (Z.of_nat (Z.to_nat j)) by lia. now rewrite Q.
  - rewrite Rplus_comm. rewrite <- Z0, <- (Q (Z.to_nat (- j))), P. f_equal;
      apply sumn_ext; intros k K; f_equal; lia.
Qed.

(** Smoothing along one axis with symmetric weights keeps the sum. *)
Lemma axis_sum : forall n L (g : Z -> R) (f : nat -> R), (0 < L)%nat ->
  (forall i, g (- i)%Z = g i) ->
  zsum n (fun i => g i * sumn (fun x => f (reflect L (Z.of_nat x - i))) L)
  = zsum n g * sumn f L.
Proof.
  intros n L g f H G.
  set (A := fun i => sumn (fun x => f (reflect L (Z.of_nat x - i))) L).
  assert (E : forall i, A i + A (- i)%Z = 2 * sumn f L).
  { intros i. unfold A. rewrite <- (shift_sum L f i H). f_equal.
    apply sumn_ext. intros k K. do 2 f_equal. lia. }
  assert (D : zsum n (fun i => g i * A i) + zsum n (fun i => g i * A i)
            = 2 * (zsum n g * sumn f L)).
  { rewrite (zsum_neg n (fun i => g i * A i)) at 2. rewrite <- zsum_plus.
    rewrite <- (Rmult_comm (sumn f L)), <- Rmult_assoc, <- zsum_scal.
    apply zsum_ext. intros i _. rewrite G, <- Rmult_plus_distr_l, E. lra. }
  change (zsum n (fun i => g i * A i) = zsum n g * sumn f L). lra.
Qed.

Lemma raw_pos : forall n i j, 0 < gaussRaw n i j.
Proof. intros. apply exp_pos. Qed.

Definition rawSum n := zsum n (fun a => zsum n (fun b => gaussRaw n a b)).

Lemma rawSum_pos : forall n, 0 < rawSum n.
Proof. intros. apply zsum_pos. intros. apply zsum_pos. intros. apply raw_pos. Qed.

Lemma kern_spec : forall n g, gaussKern n = Some g ->
  (0 < n)%nat /\ forall i j, g i j = gaussRaw n i j / rawSum n.
Proof.
  intros [|n] g H; [discriminate|]. injection H as <-. split; [lia|reflexivity].
Qed.

Lemma kern_pos : forall n g, gaussKern n = Some g -> forall i j, 0 < g i j.
Proof.
  intros n g H i j. destruct (kern_spec n g H) as [_ E]. rewrite E.
  apply Rdiv_lt_0_compat; [apply raw_pos|apply rawSum_pos].
Qed.

Lemma kern_sum : forall n g, gaussKern n = Some g ->
  zsum n (fun i => zsum n (fun j => g i j)) = 1.
Proof.
  intros n g H. destruct (kern_spec n g H) as [_ E]. pose proof (rawSum_pos n) as P.
  transitivity (/ rawSum n * rawSum n); [|field; lra].
  unfold rawSum at 2. rewrite <- zsum_scal. apply zsum_ext. intros i _.
  rewrite <- zsum_scal. apply zsum_ext. intros j _. rewrite E. unfold Rdiv. ring.
Qed.

Lemma kern_sym : forall n g, gaussKern n = Some g -> forall i j,
  g (- i)%Z j = g i j /\ g i (- j)%Z = g i j /\ g j i = g i j.
Proof.
  intros n g H i j. destruct (kern_spec n g H) as [_ E]. rewrite !E. unfold gaussRaw.
  rewrite !Z.mul_opp_opp. repeat split. rewrite Rplus_comm. reflexivity.
Qed.

Lemma conv_linear : forall h w n g a b f1 f2 y x,
  convolve2d h w n g (fun u v => a * f1 u v + b * f2 u v) y x
  = a * convolve2d h w n g f1 y x + b * convolve2d h w n g f2 y x.
Proof.
  intros. unfold convolve2d.
  rewrite <- !zsum_scal, <- zsum_plus. apply zsum_ext. intros i _.
  rewrite <- !zsum_scal, <- zsum_plus. apply zsum_ext. intros j _. ring.
Qed.

Lemma conv_ext : forall h w n g f1 f2 y x, (0 < h)%nat -> (0 < w)%nat ->
  (forall u v, (u < h)%nat -> (v < w)%nat -> f1 u v = f2 u v) ->
  convolve2d h w n g f1 y x = convolve2d h w n g f2 y x.
Proof.
  intros. unfold convolve2d. apply zsum_ext. intros i _. apply zsum_ext. intros j _.
  rewrite H1; [reflexivity| |]; now apply reflect_range.
Qed.

Lemma conv_const : forall h w n g c y x,
  zsum n (fun i => zsum n (fun j => g i j)) = 1 ->
  convolve2d h w n g (fun _ _ => c) y x = c.
Proof.
  intros. unfold convolve2d.
  transitivity (c * zsum n (fun i => zsum n (fun j => g i j))); [|rewrite H; ring].
  rewrite <- zsum_scal. apply zsum_ext. intros i _. rewrite <- zsum_scal.
  apply zsum_ext. intros j _. ring.
Qed.

Lemma conv_mono : forall h w n g f1 f2 y x, (0 < h)%nat -> (0 < w)%nat ->
  (forall i j, 0 < g i j) ->
  (forall u v, (u < h)%nat -> (v < w)%nat -> f1 u v <= f2 u v) ->
  convolve2d h w n g f1 y x <= convolve2d h w n g f2 y x.
Proof.
  intros h w n g f1 f2 y x H W G F. unfold convolve2d. apply zsum_le. intros i.
  apply zsum_le. intros j. apply Rmult_le_compat_l; [left; apply G|].
  apply F; now apply reflect_range.
Qed.

Lemma conv_total : forall h w n g f, (0 < h)%nat -> (0 < w)%nat ->
  (forall i j, g (- i)%Z j = g i j /\ g i (- j)%Z = g i j) ->
  sumn (fun y => sumn (fun x => convolve2d h w n g f y x) w) h
  = zsum n (fun i => zsum n (fun j => g i j)) * sumn (fun y => sumn (fun x => f y x) w) h.
Proof.
  intros h w n g f H W G. unfold convolve2d.
  set (r := fun (y : nat) i => reflect h (Z.of_nat y - i)).
  set (c := fun (x : nat) j => reflect w (Z.of_nat x - j)).
  transitivity (zsum n (fun i => zsum n (fun j => g i j *
      sumn (fun x => sumn (fun y => f (r y i) (c x j)) h) w))).
  { transitivity (sumn (fun y => zsum n (fun i => sumn (fun x => zsum n (fun j =>
        g i j * f (r y i) (c x j))) w)) h).
    { apply sumn_ext. intros y _. symmetry.
      exact (zsum_sumn n w (fun i x => zsum n (fun j => g i j * f (r y i) (c x j)))). }
    rewrite <- (zsum_sumn n h (fun i y => sumn (fun x => zsum n (fun j => g i j * f (r y i) (c x j))) w)).
    apply zsum_ext. intros i _.
    transitivity (sumn (fun y => zsum n (fun j => sumn (fun x => g i j * f (r y i) (c x j)) w)) h).
    { apply sumn_ext. intros y _. symmetry.
      exact (zsum_sumn n w (fun j x => g i j * f (r y i) (c x j))). }
    rewrite <- (zsum_sumn n h (fun j y => sumn (fun x => g i j * f (r y i) (c x j)) w)).
    apply zsum_ext. intros j _.
    rewrite (sumn_swap h w (fun y x => g i j * f (r y i) (c x j))).
    rewrite <- sumn_scal. apply sumn_ext. intros x _. now rewrite <- sumn_scal. }
  transitivity (zsum n (fun i => zsum n (fun j => g i j) *
      sumn (fun y => (fun u => sumn (fun x => f u x) w) (reflect h (Z.of_nat y - i))) h)).
  { apply zsum_ext. intros i _.
    pose proof (axis_sum n w (fun j => g i j) (fun v => sumn (fun y => f (r y i) v) h) W
                  (fun j => proj2 (G i j))) as A.
    cbv beta in A. unfold c. rewrite A. f_equal.
    now rewrite (sumn_swap w h (fun x y => f (r y i) x)). }
  apply (axis_sum n h (fun i => zsum n (fun j => g i j)) (fun u => sumn (fun x => f u x) w) H).
  intros i. apply zsum_ext. intros j _. apply (G i j).
Qed.
