(** Lemmas about the maps of track density and central pressure. *)
From Coq Require Import List Arith ZArith Lia Bool QArith Qround Lqa Permutation.
From Verif Require Import Base CellModel CellProofs NumModel NumProofs SampModel FitModel FitProofs DensityModel.
From Verif Require SampProofs.
Import ListNotations.
Close Scope Q_scope. Open Scope nat_scope.

Definition b2n (b : bool) : nat := if b then 1 else 0.

(** * Disjoint cells *)
Section Cells.
  Context {A C : Type}.
  Variable P : C -> A -> bool.
  Variable Q : A -> bool.
  Lemma cells_one cells a : flat_map (fun c => if P c a then [a] else []) cells = repeat a (list_sum (map (fun c => b2n (P c a)) cells)).
  Proof. induction cells as [|c r IH]; [reflexivity|]. cbn [flat_map map list_sum fold_right]. rewrite IH. now destruct (P c a). Qed.
  Lemma cells_split cells : forall L, (forall a, In a L -> list_sum (map (fun c => b2n (P c a)) cells) = b2n (Q a)) ->
    Permutation (flat_map (fun c => filter (P c) L) cells) (filter Q L).
  Proof.
    induction L as [|a L IH]; intros H.
    - replace (flat_map _ cells) with (@nil A); [reflexivity|]. clear H. induction cells as [|c r IH]; [reflexivity|]. exact IH.
    - assert (S : Permutation (flat_map (fun c => filter (P c) (a :: L)) cells)
                              (flat_map (fun c => if P c a then [a] else []) cells ++ flat_map (fun c => filter (P c) L) cells)).
      { clear. induction cells as [|c r IH]; [reflexivity|]. cbn [flat_map]. rewrite IH. cbn [filter].
        destruct (P c a); cbn [app]; [apply perm_skip|]; perm_solve. }
      rewrite S, cells_one, (H a (or_introl eq_refl)), (IH (fun b Hb => H b (or_intror Hb))). cbn [filter]. now destruct (Q a).
  Qed.
End Cells.

Lemma list_sum_le {A} (f g : A -> nat) l : (forall a, In a l -> f a = g a) -> list_sum (map f l) = list_sum (map g l).
Proof. intros H. f_equal. now apply map_ext_in. Qed.
Lemma list_sum_prod {A B} (f : A -> nat) (g : B -> nat) l m :
  list_sum (map (fun c => f (fst c) * g (snd c)) (list_prod l m)) = list_sum (map f l) * list_sum (map g m).
Proof.
  induction l as [|a l IH]; [reflexivity|]. cbn [list_prod]. rewrite map_app, list_sum_app, IH. cbn [map list_sum fold_right].
  rewrite Nat.mul_add_distr_r. f_equal. rewrite map_map. cbn [fst snd].
  clear. induction m as [|b m IH]; [cbn; lia|]. cbn [map list_sum fold_right]. fold (list_sum (map g m)) (list_sum (map (fun x => f a * g x) m)). rewrite IH. lia.
Qed.
Lemma b2n_and a b : b2n (a && b) = b2n a * b2n b. Proof. now destruct a, b. Qed.

(** * Rows of equal bins *)
Definition edge (x0 d : Q) (i : nat) : Q := (x0 + inject_Z (Z.of_nat i) * d)%Q.
Definition half (x0 d : Q) (i : nat) (x : Q) : bool := Qle_bool (edge x0 d i) x && qlt x (edge x0 d (S i)).
Lemma edge_S x0 d i : (edge x0 d (S i) == edge x0 d i + d)%Q.
Proof. unfold edge. rewrite Nat2Z.inj_succ, <- Z.add_1_r, inject_Z_plus. change (inject_Z 1) with 1%Q. ring. Qed.
Lemma edge_0 x0 d : (edge x0 d 0 == x0)%Q. Proof. unfold edge. cbn. ring. Qed.
Lemma edge_up x0 d i : (0 < d)%Q -> (x0 <= edge x0 d i)%Q.
Proof. intros P. induction i as [|i IH]; [rewrite edge_0; lra|]. rewrite edge_S. lra. Qed.
Lemma qle_true a b : Qle_bool a b = true <-> (a <= b)%Q. Proof. apply Qle_bool_iff. Qed.
Lemma qle_dec a b : {(a <= b)%Q} + {(b < a)%Q}.
Proof. destruct (Qlt_le_dec b a); auto. Qed.
Ltac qb := repeat match goal with
  | |- context [Qle_bool ?a ?b] => let E := fresh "E" in destruct (Qle_bool a b) eqn:E; [apply Qle_bool_iff in E|
      assert (~ (a <= b)%Q) by (rewrite <- Qle_bool_iff, E; discriminate); clear E]
  | |- context [qlt ?a ?b] => let E := fresh "E" in destruct (qlt a b) eqn:E; [apply qlt_iff in E|
      assert (~ (a < b)%Q) by (rewrite <- qlt_iff, E; discriminate); clear E]
  | |- context [Qeq_bool ?a ?b] => let E := fresh "E" in destruct (Qeq_bool a b) eqn:E; [apply Qeq_bool_iff in E|
      apply Qeq_bool_neq in E]
  end.
Lemma half_sum x0 d x : (0 < d)%Q -> forall n,
  list_sum (map (fun i => b2n (half x0 d i x)) (seq 0 n)) = b2n (Qle_bool x0 x && qlt x (edge x0 d n)).
Proof.
  intros P. induction n as [|n IH].
  - cbn [seq map list_sum fold_right]. pose proof (edge_0 x0 d) as E0. qb; cbn [andb b2n]; try reflexivity; lra.
  - rewrite seq_S, map_app, list_sum_app, IH. cbn [map list_sum fold_right Nat.add]. unfold half.
    pose proof (edge_S x0 d n) as E1. pose proof (edge_up x0 d n P) as E2.
    set (a := edge x0 d n) in *. set (b := edge x0 d (S n)) in *. clearbody a b. qb; cbn [andb b2n Nat.add]; try reflexivity; exfalso; lra.
Qed.
(** The closed last bin *)
Definition closedBin (x0 d : Q) (n i : nat) (x : Q) : bool := half x0 d i x || ((S i =? n) && Qeq_bool x (edge x0 d n)).
Lemma closed_sum x0 d x n : (0 < d)%Q -> 0 < n ->
  list_sum (map (fun i => b2n (closedBin x0 d n i x)) (seq 0 n)) = b2n (Qle_bool x0 x && Qle_bool x (edge x0 d n)).
Proof.
  intros P Hn. destruct n as [|n]; [lia|]. rewrite seq_S, map_app, list_sum_app. cbn [map list_sum fold_right Nat.add].
  rewrite (list_sum_le _ (fun i => b2n (half x0 d i x))).
  - rewrite half_sum by exact P. unfold closedBin, half. rewrite Nat.eqb_refl.
    pose proof (edge_S x0 d n) as E1. pose proof (edge_up x0 d n P) as E2.
    set (a := edge x0 d n) in *. set (b := edge x0 d (S n)) in *. clearbody a b. qb; cbn [andb orb b2n Nat.add]; try reflexivity; exfalso; lra.
  - intros i Hi. apply in_seq in Hi. unfold closedBin. replace (S i =? S n) with false by (symmetry; apply Nat.eqb_neq; lia).
    cbn [andb]. now rewrite orb_false_r.
Qed.

(** * The edges of a domain that the spacing divides *)
Lemma range_len x0 x1 d n : (1 # 10 < d)%Q -> (x1 == x0 + inject_Z (Z.of_nat n) * d)%Q ->
  length (arange x0 (x1 + (1 # 10)) d) = S n.
Proof.
  intros P E. rewrite SampProofs.arange_len.
  assert (Q0 : ((x1 + (1 # 10) - x0) / d == inject_Z (Z.of_nat n) + (1 # 10) / d)%Q) by (rewrite E; field; lra).
  assert (L : (0 < (1 # 10) / d)%Q) by (apply Qlt_shift_div_l; lra).
  assert (U : ((1 # 10) / d < 1)%Q) by (apply Qlt_shift_div_r; lra).
  rewrite (Qceiling_comp _ _ Q0).
  set (v := (inject_Z (Z.of_nat n) + (1 # 10) / d)%Q) in *.
  assert (C1 : (v <= inject_Z (Qceiling v))%Q) by apply Qle_ceiling.
  assert (C2 : (inject_Z (Qceiling v - 1) < v)%Q) by apply Qceiling_lt.
  assert ((Z.of_nat n < Qceiling v)%Z) by (rewrite Zlt_Qlt; unfold v in C1 at 1; lra).
  assert ((Qceiling v - 1 < Z.of_nat n + 1)%Z).
  { rewrite Zlt_Qlt, inject_Z_plus. change (inject_Z 1) with 1%Q. unfold v in C2 at 2. lra. }
  lia.
Qed.
Lemma range_nth x0 x1 d n i : (1 # 10 < d)%Q -> (x1 == x0 + inject_Z (Z.of_nat n) * d)%Q -> i <= n ->
  nth i (arange x0 (x1 + (1 # 10)) d) 0%Q = edge x0 d i.
Proof. intros P E H. rewrite SampProofs.arange_nth; [reflexivity|]. rewrite (range_len x0 x1 d n P E). lia. Qed.
Lemma range_bin x0 x1 d n i x : (1 # 10 < d)%Q -> (x1 == x0 + inject_Z (Z.of_nat n) * d)%Q -> i < n ->
  inBin (arange x0 (x1 + (1 # 10)) d) i x = closedBin x0 d n i x.
Proof.
  intros P E H. unfold inBin, closedBin, half. rewrite (range_len x0 x1 d n P E), !(range_nth x0 x1 d n) by (auto; lia).
  change (S (S i) =? S n) with (S i =? n). destruct (Nat.eqb (S i) n) eqn:En.
  - apply Nat.eqb_eq in En. subst n. pose proof (edge_S x0 d i) as E1.
    set (a := edge x0 d i) in *. set (b := edge x0 d (S i)) in *. clearbody a b. qb; cbn [andb orb]; try reflexivity; exfalso; lra.
  - cbn [andb]. now rewrite !orb_false_r.
Qed.
Lemma range_top x0 x1 d n x : (x1 == x0 + inject_Z (Z.of_nat n) * d)%Q ->
  Qle_bool x (edge x0 d n) = Qle_bool x x1 /\ qlt x (edge x0 d n) = qlt x x1.
Proof. intros E. fold (edge x0 d n) in E. set (a := edge x0 d n) in *. clearbody a. split; qb; try reflexivity; exfalso; lra. Qed.

(** * Medians *)
Lemma filter_firstn {A} (f : A -> bool) k : forall l, k <= length l -> (forall a, In a (firstn k l) -> f a = true) -> k <= length (filter f l).
Proof.
  induction k as [|k IH]; intros l Hk H; [lia|]. destruct l as [|a l]; [cbn in Hk; lia|]. cbn [filter]. rewrite (H a (or_introl eq_refl)).
  cbn [length] in *. apply le_n_S, IH; [lia|]. intros b Hb. apply H. now right.
Qed.
Lemma filter_skipn {A} (f : A -> bool) k : forall l, (forall a, In a (skipn k l) -> f a = true) -> length l - k <= length (filter f l).
Proof.
  induction k as [|k IH]; intros l H.
  - cbn [skipn] in H. rewrite Nat.sub_0_r. clear -H. induction l as [|a l IH]; [cbn; lia|]. cbn [filter]. rewrite (H a (or_introl eq_refl)).
    cbn [length]. apply le_n_S, IH. intros b Hb. apply H. now right.
  - destruct l as [|a l]; [cbn; lia|]. cbn [skipn] in H. specialize (IH l H). cbn [length filter]. destruct (f a); cbn [length]; lia.
Qed.
Lemma filter_perm_len {A} (f : A -> bool) l m : Permutation l m -> length (filter f l) = length (filter f m).
Proof.
  intros P. induction P; cbn [filter]; auto; try congruence.
  - destruct (f x); cbn [length]; auto.
  - destruct (f x), (f y); reflexivity.
Qed.
Lemma in_firstn_nth {A} (d : A) k l a : In a (firstn k l) -> exists i, i < k /\ i < length l /\ nth i l d = a.
Proof.
  intros H. apply (In_nth _ _ d) in H. destruct H as (i & Hi & E). rewrite firstn_length in Hi. exists i. repeat split; try lia.
  rewrite <- E. clear -Hi. revert l i Hi. induction k as [|k IH]; intros l i Hi; [lia|]. destruct l as [|a l]; [cbn in Hi; lia|].
  destruct i as [|i]; [reflexivity|]. cbn. apply IH. cbn [length] in Hi. lia.
Qed.
Lemma in_skipn_nth {A} (d : A) k l a : In a (skipn k l) -> exists i, k <= i /\ i < length l /\ nth i l d = a.
Proof.
  intros H. apply (In_nth _ _ d) in H. destruct H as (i & Hi & E). rewrite skipn_length in Hi. exists (k + i). repeat split; try lia.
  rewrite <- E. clear. revert l. induction k as [|k IH]; intros l; [reflexivity|]. destruct l as [|a l]; [now destruct i|].
  cbn. apply IH.
Qed.
Lemma median_half l : l <> [] ->
  length l <= 2 * length (filter (fun x => Qle_bool x (median l)) l) /\ length l <= 2 * length (filter (fun x => Qle_bool (median l) x) l).
Proof.
  intros Hl. assert (N : 0 < length l) by (destruct l; [congruence|cbn; lia]).
  rewrite (filter_perm_len _ l (sortq l) (Permutation_sym (sortq_perm l))), (filter_perm_len (fun x => Qle_bool (median l) x) l (sortq l) (Permutation_sym (sortq_perm l))).
  pose proof (sortq_asc l) as As. pose proof (Permutation_length (sortq_perm l)) as L.
  unfold median. set (s := sortq l) in *. set (n := length l) in *.
  pose proof (Nat.div_mod n 2 ltac:(lia)) as D. destruct (Nat.even n) eqn:Ev.
  - apply Nat.even_spec in Ev. destruct Ev as (h & Eh). assert (Dh : n / 2 = h) by (rewrite Eh, Nat.mul_comm; apply Nat.div_mul; lia).
    rewrite Dh. set (m := ((nth (h - 1) s 0 + nth h s 0) / 2)%Q).
    assert (M : (nth (h - 1) s 0 <= m /\ m <= nth h s 0)%Q).
    { pose proof (asc_nth s As (h - 1) h ltac:(lia)) as O. unfold m. split; [apply Qle_shift_div_l|apply Qle_shift_div_r]; lra. }
    split.
    + enough (h <= length (filter (fun x => Qle_bool x m) s)) by lia. apply filter_firstn; [lia|]. intros a Ha.
      apply (in_firstn_nth 0%Q) in Ha. destruct Ha as (i & H1 & H2 & <-). apply Qle_bool_iff.
      pose proof (asc_nth s As i (h - 1) ltac:(lia)). lra.
    + enough (length s - h <= length (filter (fun x => Qle_bool m x) s)) by lia. apply filter_skipn. intros a Ha.
      apply (in_skipn_nth 0%Q) in Ha. destruct Ha as (i & H1 & H2 & <-). apply Qle_bool_iff.
      pose proof (asc_nth s As h i ltac:(lia)). lra.
  - assert (Od : Nat.odd n = true) by (unfold Nat.odd; now rewrite Ev). apply Nat.odd_spec in Od. destruct Od as (h & Eh).
    assert (Dh : n / 2 = h) by (rewrite Eh, Nat.add_1_r; symmetry; apply (Nat.div_unique _ 2 h 1); lia).
    rewrite Dh. split.
    + enough (S h <= length (filter (fun x => Qle_bool x (nth h s 0%Q)) s)) by lia. apply filter_firstn; [lia|]. intros a Ha.
      apply (in_firstn_nth 0%Q) in Ha. destruct Ha as (i & H1 & H2 & <-). apply Qle_bool_iff.
      apply (asc_nth s As i h ltac:(lia)).
    + enough (length s - h <= length (filter (fun x => Qle_bool (nth h s 0%Q) x) s)) by lia. apply filter_skipn. intros a Ha.
      apply (in_skipn_nth 0%Q) in Ha. destruct Ha as (i & H1 & H2 & <-). apply Qle_bool_iff.
      apply (asc_nth s As h i ltac:(lia)).
Qed.
Lemma sum_bounds lo hi l : (forall x, In x l -> (lo <= x <= hi)%Q) ->
  (inject_Z (Z.of_nat (length l)) * lo <= sumq l /\ sumq l <= inject_Z (Z.of_nat (length l)) * hi)%Q.
Proof.
  induction l as [|a l IH]; intros H; [cbn [length Z.of_nat sumq fold_right]; change (inject_Z 0) with 0%Q; lra|]. specialize (IH (fun x Hx => H x (or_intror Hx))). specialize (H a (or_introl eq_refl)).
  cbn [length sumq fold_right]. fold (sumq l). rewrite Nat2Z.inj_succ, <- Z.add_1_r, inject_Z_plus. change (inject_Z 1) with 1%Q. lra.
Qed.
Lemma mean_bounds lo hi l : l <> [] -> (forall x, In x l -> (lo <= x <= hi)%Q) -> (lo <= meanq l <= hi)%Q.
Proof.
  intros Hl H. pose proof (sum_bounds lo hi l H) as [A B]. unfold meanq.
  assert (N : (0 < inject_Z (Z.of_nat (length l)))%Q).
  { change 0%Q with (inject_Z 0). rewrite <- Zlt_Qlt. destruct l; [congruence|cbn [length]; lia]. }
  split; [apply Qle_shift_div_l|apply Qle_shift_div_r]; lra.
Qed.
Lemma mean_times l : l <> [] -> (meanq l * inject_Z (Z.of_nat (length l)) == sumq l)%Q.
Proof.
  intros Hl. unfold meanq.
  assert (N : ~ (inject_Z (Z.of_nat (length l)) == 0)%Q).
  { intros C. assert (C' : (inject_Z (Z.of_nat (length l)) == inject_Z 0)%Q) by exact C. unfold Qeq in C'. cbn in C'. destruct l; [congruence|cbn [length] in C'; lia]. }
  field. exact N.
Qed.

(** * Cells of the pressure maps *)
Definition valid (r : rec) : bool := qlt 0 (rp r) && qlt (rp r) maxsize.
Definition inCell (d : dom) (c : nat * nat) (r : rec) : bool :=
  half (dx0 d) (ddx d) (fst c) (rlon r) && half (dy0 d) (ddy d) (snd c) (rlat r).
Lemma filter_map {A B} (f : B -> bool) (g : A -> B) l : filter f (map g l) = map g (filter (fun a => f (g a)) l).
Proof. induction l as [|a l IH]; [reflexivity|]. cbn [map filter]. rewrite IH. now destruct (f (g a)). Qed.
Lemma filter_filter {A} (f g : A -> bool) l : filter f (filter g l) = filter (fun a => g a && f a) l.
Proof. induction l as [|a l IH]; [reflexivity|]. cbn [filter]. destruct (g a) eqn:E; cbn [filter andb]; rewrite IH; reflexivity. Qed.
Lemma filter_concat {A} (f : A -> bool) l : filter f (concat l) = flat_map (filter f) l.
Proof. induction l as [|a l IH]; [reflexivity|]. cbn [concat flat_map]. now rewrite filter_app, IH. Qed.
Lemma map_flat_map {A B C} (f : B -> C) (g : A -> list B) l : map f (flat_map g l) = flat_map (fun a => map f (g a)) l.
Proof. induction l as [|a l IH]; [reflexivity|]. cbn [flat_map]. now rewrite map_app, IH. Qed.
Section Grid.
  Variable d : dom.
  Variables nx ny : nat.
  Hypothesis Dx : (1 # 10 < ddx d)%Q.
  Hypothesis Dy : (1 # 10 < ddy d)%Q.
  Hypothesis Ex : (dx1 d == dx0 d + inject_Z (Z.of_nat nx) * ddx d)%Q.
  Hypothesis Ey : (dy1 d == dy0 d + inject_Z (Z.of_nat ny) * ddy d)%Q.
  Lemma cellValues_eq tracks k l : k < nx -> l < ny ->
    cellValues d tracks k l = map rp (filter (fun r => inCell d (k, l) r && valid r) (concat tracks)).
  Proof.
    intros Hk Hl. unfold cellValues, lonRange, latRange. rewrite (range_nth (dx0 d) (dx1 d) (ddx d) nx k Dx Ex), (range_nth (dy0 d) (dy1 d) (ddy d) ny l Dy Ey) by lia.
    rewrite filter_concat, map_flat_map. apply flat_map_ext. intros t. rewrite !filter_map, !filter_filter. f_equal. apply filter_ext.
    intros r. unfold inCell, half, valid. cbn [fst snd].
    pose proof (edge_S (dx0 d) (ddx d) k) as E1. pose proof (edge_S (dy0 d) (ddy d) l) as E2.
    set (a := edge _ _ k) in *. set (b := edge _ _ (S k)) in *. set (a' := edge _ _ l) in *. set (b' := edge _ _ (S l)) in *. clearbody a b a' b'.
    rewrite (andb_comm (Qle_bool a (rlon r) && _)).
    replace (qlt (rlon r) (a + ddx d)) with (qlt (rlon r) b); [replace (qlt (rlat r) (a' + ddy d)) with (qlt (rlat r) b')|].
    - destruct (qlt 0 (rp r)), (qlt (rp r) maxsize), (Qle_bool a' _), (qlt (rlat r) b'), (Qle_bool a _), (qlt (rlon r) b); reflexivity.
    - qb; try reflexivity; exfalso; lra.
    - qb; try reflexivity; exfalso; lra.
  Qed.
  Lemma cells_sum r : list_sum (map (fun c => b2n (inCell d c r && valid r)) (list_prod (seq 0 nx) (seq 0 ny))) =
    b2n (Qle_bool (dx0 d) (rlon r) && qlt (rlon r) (dx1 d) && (Qle_bool (dy0 d) (rlat r) && qlt (rlat r) (dy1 d)) && valid r).
  Proof.
    destruct (range_top _ _ _ nx (rlon r) Ex) as [_ <-]. destruct (range_top _ _ _ ny (rlat r) Ey) as [_ <-].
    rewrite !b2n_and with (b := valid r), b2n_and with (b := _ && _).
    rewrite <- (half_sum (dx0 d) (ddx d) (rlon r)), <- (half_sum (dy0 d) (ddy d) (rlat r)) by lra.
    rewrite <- list_sum_prod.
    rewrite (list_sum_le _ (fun c => (b2n (half (dx0 d) (ddx d) (fst c) (rlon r)) * b2n (half (dy0 d) (ddy d) (snd c) (rlat r))) * b2n (valid r))).
    - clear. induction (list_prod _ _) as [|c cs IH]; [reflexivity|]. cbn [map list_sum fold_right].
      fold (list_sum (map (fun c => b2n (half (dx0 d) (ddx d) (fst c) (rlon r)) * b2n (half (dy0 d) (ddy d) (snd c) (rlat r)) * b2n (valid r)) cs)).
      fold (list_sum (map (fun c => b2n (half (dx0 d) (ddx d) (fst c) (rlon r)) * b2n (half (dy0 d) (ddy d) (snd c) (rlat r))) cs)). rewrite IH. lia.
    - intros c _. unfold inCell. rewrite !b2n_and. reflexivity.
  Qed.
  Lemma pressure_split tracks :
    Permutation (flat_map (fun c => cellValues d tracks (fst c) (snd c)) (list_prod (seq 0 nx) (seq 0 ny)))
      (map rp (filter (fun r => Qle_bool (dx0 d) (rlon r) && qlt (rlon r) (dx1 d) && (Qle_bool (dy0 d) (rlat r) && qlt (rlat r) (dy1 d)) && valid r)
                 (concat tracks))).
  Proof.
    rewrite <- (cells_split (fun c r => inCell d c r && valid r) _ (list_prod (seq 0 nx) (seq 0 ny)) (concat tracks) (fun r _ => cells_sum r)).
    rewrite map_flat_map. match goal with |- Permutation ?a ?b => replace b with a; [reflexivity|] end. rewrite !flat_map_concat_map. f_equal. apply map_ext_in. intros [k l] H. apply in_prod_iff in H.
    destruct H as [H1 H2]. apply in_seq in H1. apply in_seq in H2. cbn [fst snd]. apply cellValues_eq; lia.
  Qed.
  Definition inBox (p : Q * Q) : bool :=
    Qle_bool (dx0 d) (fst p) && Qle_bool (fst p) (dx1 d) && (Qle_bool (dy0 d) (snd p) && Qle_bool (snd p) (dy1 d)).
  Lemma density_total tracks : 0 < nx -> 0 < ny ->
    list_sum (map list_sum (density d tracks)) = length (filter inBox (map (fun r => (rlon r, rlat r)) (concat tracks))).
  Proof.
    intros Nx Ny. unfold density, histogram2d, lonRange, latRange. rewrite (range_len (dx0 d) (dx1 d) (ddx d) nx Dx Ex), (range_len (dy0 d) (dy1 d) (ddy d) ny Dy Ey).
    cbn [Nat.sub]. rewrite !Nat.sub_0_r. set (pts := map _ (concat tracks)).
    set (P := fun (c : nat * nat) (p : Q * Q) => closedBin (dx0 d) (ddx d) nx (fst c) (fst p) && closedBin (dy0 d) (ddy d) ny (snd c) (snd p)).
    assert (H : forall p, In p pts -> list_sum (map (fun c => b2n (P c p)) (list_prod (seq 0 nx) (seq 0 ny))) = b2n (inBox p)).
    { intros p _. unfold inBox. destruct (range_top _ _ _ nx (fst p) Ex) as [<- _]. destruct (range_top _ _ _ ny (snd p) Ey) as [<- _].
      rewrite b2n_and. rewrite <- (closed_sum (dx0 d) (ddx d) (fst p) nx), <- (closed_sum (dy0 d) (ddy d) (snd p) ny) by (auto; lra).
      rewrite <- list_sum_prod. apply list_sum_le. intros c _. unfold P. apply b2n_and. }
    rewrite <- (Permutation_length (cells_split P inBox _ pts H)).
    clearbody pts. clear H.
    assert (G : forall xs, (forall i, In i xs -> i < nx) -> list_sum (map list_sum (map (fun i => map (fun j => length (filter (fun p => inBin (arange (dx0 d) (dx1 d + (1 # 10)) (ddx d)) i (fst p) && inBin (arange (dy0 d) (dy1 d + (1 # 10)) (ddy d)) j (snd p)) pts)) (seq 0 ny)) xs))
       = length (flat_map (fun c => filter (P c) pts) (list_prod xs (seq 0 ny)))).
    { induction xs as [|i xs IH]; intros Hx; [reflexivity|]. cbn [map list_sum fold_right list_prod].
      fold (list_sum (map list_sum (map (fun i => map (fun j => length (filter (fun p => inBin (arange (dx0 d) (dx1 d + (1 # 10)) (ddx d)) i (fst p) && inBin (arange (dy0 d) (dy1 d + (1 # 10)) (ddy d)) j (snd p)) pts)) (seq 0 ny)) xs))).
      rewrite IH by (intros; apply Hx; now right). rewrite flat_map_app, app_length. f_equal.
      rewrite flat_map_concat_map, map_map.
      assert (K : forall js, (forall j, In j js -> j < ny) ->
        list_sum (map (fun j => length (filter (fun p => inBin (arange (dx0 d) (dx1 d + (1 # 10)) (ddx d)) i (fst p) && inBin (arange (dy0 d) (dy1 d + (1 # 10)) (ddy d)) j (snd p)) pts)) js)
        = length (concat (map (fun j => filter (P (i, j)) pts) js))).
      { induction js as [|j js IHj]; intros Hj; [reflexivity|]. cbn [map list_sum fold_right concat]. rewrite app_length.
        fold (list_sum (map (fun j => length (filter (fun p => inBin (arange (dx0 d) (dx1 d + (1 # 10)) (ddx d)) i (fst p) && inBin (arange (dy0 d) (dy1 d + (1 # 10)) (ddy d)) j (snd p)) pts)) js)).
        rewrite IHj by (intros; apply Hj; now right). f_equal. f_equal. apply filter_ext. intros p. unfold P. cbn [fst snd].
        rewrite (range_bin (dx0 d) (dx1 d) (ddx d) nx), (range_bin (dy0 d) (dy1 d) (ddy d) ny); auto; [apply Hj|apply Hx]; now left. }
      apply K. intros j Hj. apply in_seq in Hj. lia. }
    apply G. intros i Hi. apply in_seq in Hi. lia.
  Qed.
End Grid.
