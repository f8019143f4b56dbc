(** The crossing number test is constant along segments that do not meet the polygon. *)
From Coq Require Import QArith Lqa Lia Bool List Permutation.
From Verif Require Import Base CellModel CellProofs GeomModel GeomProofs GenProofs.
Import ListNotations.
Close Scope Q_scope. Open Scope list_scope. Open Scope nat_scope.

(** The closed segments [a b] and [c d] have a common point *)
Definition meets (a b c d : pt) : Prop := exists q, on_seg q a b /\ on_seg q c d.

Lemma seg_start a b : on_seg a a b.
Proof. exists 0%Q. split; [lra|]. split; ring. Qed.
Lemma seg_end a b : on_seg b a b.
Proof. exists 1%Q. split; [lra|]. split; ring. Qed.
Lemma on_seg_sub p q r a b : on_seg p a b -> on_seg q a b -> on_seg r p q -> on_seg r a b.
Proof.
  intros (t & T & X & Y) (u & U & X' & Y') (w & W & X'' & Y''). exists (t + w * (u - t))%Q. split.
  - assert (0 <= (1 - w) * t)%Q by (apply Qmult_le_0_compat; lra). assert (0 <= w * u)%Q by (apply Qmult_le_0_compat; lra).
    assert (0 <= (1 - w) * (1 - t))%Q by (apply Qmult_le_0_compat; lra). assert (0 <= w * (1 - u))%Q by (apply Qmult_le_0_compat; lra).
    split; lra.
  - split; [rewrite X'', X, X'; ring|rewrite Y'', Y, Y'; ring].
Qed.
Lemma on_seg_swap q a b : on_seg q a b -> on_seg q b a.
Proof. intros (t & T & X & Y). exists (1 - t)%Q. split; [lra|]. split; [rewrite X; ring|rewrite Y; ring]. Qed.
Lemma meets_swap a b c d : meets a b c d -> meets b a c d.
Proof. intros (q & H1 & H2). exists q. split; [now apply on_seg_swap|exact H2]. Qed.
Lemma meets_comm a b c d : meets a b c d -> meets c d a b.
Proof. intros (q & H1 & H2). now exists q. Qed.

Section Strip.
  Variables s e : pt.
  Hypothesis Up : (py s < py e)%Q.
  Let D (v : pt) : Q := isLeft s e v.
  Lemma line_seg r : (D r == 0)%Q -> (py s <= py r <= py e)%Q -> on_seg r s e.
  Proof.
    intros H [Y1 Y2]. exists ((py r - py s) / (py e - py s))%Q. split.
    - split; [apply Qle_shift_div_l|apply Qle_shift_div_r]; lra.
    - unfold D, isLeft in H. split; [|field; lra].
      assert (E : (px r - px s == (px e - px s) * (py r - py s) / (py e - py s))%Q).
      { assert ((px e - px s) * (py r - py s) == (px r - px s) * (py e - py s))%Q as -> by lra. field. lra. }
      setoid_replace (px r) with (px s + (px r - px s))%Q by ring. rewrite E. field. lra.
  Qed.
  Lemma strip_meet p q : (py s <= py p <= py e)%Q -> (py s <= py q <= py e)%Q -> (0 <= D p)%Q -> (D q <= 0)%Q -> meets p q s e.
  Proof.
    intros Hp Hq P Q. destruct (Qlt_le_dec 0 (D p)) as [P'|P'].
    - set (w := (D p / (D p - D q))%Q).
      assert (W : (0 <= w <= 1)%Q) by (unfold w; split; [apply Qle_shift_div_l|apply Qle_shift_div_r]; lra).
      set (r := {| px := (px p + w * (px q - px p))%Q; py := (py p + w * (py q - py p))%Q |}).
      exists r. split; [exists w; split; [exact W|split; reflexivity]|]. apply line_seg.
      + assert (E : (D r == D p + w * (D q - D p))%Q) by (unfold D, isLeft, r; cbn [px py]; ring).
        rewrite E. unfold w. field. lra.
      + unfold r. cbn [py].
        assert (0 <= (1 - w) * (py p - py s))%Q by (apply Qmult_le_0_compat; lra). assert (0 <= w * (py q - py s))%Q by (apply Qmult_le_0_compat; lra).
        assert (0 <= (1 - w) * (py e - py p))%Q by (apply Qmult_le_0_compat; lra). assert (0 <= w * (py e - py q))%Q by (apply Qmult_le_0_compat; lra).
        split; lra.
    - exists p. split; [apply seg_start|]. apply line_seg; [lra|exact Hp].
  Qed.
  Variables a b : pt.
  Let neg (v : pt) : bool := qlt (D v) 0.
  Lemma same_side p q : on_seg p a b -> on_seg q a b -> (py s <= py p <= py e)%Q -> (py s <= py q <= py e)%Q ->
    meets s e a b \/ neg p = neg q.
  Proof.
    intros Sp Sq Hp Hq. unfold neg. destruct (qlt (D p) 0) eqn:E1, (qlt (D q) 0) eqn:E2; try (now right); left.
    - apply qlt_iff in E1. apply qlt_false_iff in E2.
      destruct (strip_meet q p Hq Hp E2 ltac:(lra)) as (r & R1 & R2). exists r. split; [exact R2|]. now apply (on_seg_sub q p).
    - apply qlt_iff in E2. apply qlt_false_iff in E1.
      destruct (strip_meet p q Hp Hq E1 ltac:(lra)) as (r & R1 & R2). exists r. split; [exact R2|]. now apply (on_seg_sub p q).
  Qed.
  (** The point of the line [a b] at the level of [p] *)
  Let level (p : pt) : pt := {| px := (px a + (py p - py a) / (py b - py a) * (px b - px a))%Q; py := py p |}.
  Let str (p : pt) : bool := xorb (low p a) (low p b).
  Lemma cn_level p : cnEdge p (a, b) = str p && qlt (px p) (px (level p)).
  Proof.
    unfold cnEdge, str, low, level. cbn [px]. unfold qlt at 1 2.
    destruct (Qle_bool (py a) (py p)), (Qle_bool (py b) (py p)); reflexivity.
  Qed.
  Lemma level_on p : str p = true -> on_seg (level p) a b.
  Proof.
    unfold str, low, level. intros H. exists ((py p - py a) / (py b - py a))%Q.
    destruct (Qle_bool (py a) (py p)) eqn:E1, (Qle_bool (py b) (py p)) eqn:E2; try discriminate.
    - apply Qle_bool_iff in E1. apply qle_false_iff in E2. split; [split; [apply Qle_shift_div_l|apply Qle_shift_div_r]; lra|].
      split; cbn [px py]; [reflexivity|field; lra].
    - apply Qle_bool_iff in E2. apply qle_false_iff in E1. split.
      + setoid_replace ((py p - py a) / (py b - py a))%Q with ((py a - py p) / (py a - py b))%Q by (field; split; lra).
        split; [apply Qle_shift_div_l|apply Qle_shift_div_r]; lra.
      + split; cbn [px py]; [reflexivity|field; lra].
  Qed.
  Lemma level_s : qlt (px s) (px (level s)) = neg (level s).
  Proof.
    unfold neg. assert (E : (D (level s) == (px s - px (level s)) * (py e - py s))%Q) by (unfold D, isLeft, level; cbn [px py]; ring).
    set (x := px (level s)) in *. clearbody x. apply eq_iff_eq_true. rewrite !qlt_iff, E. split; intros H.
    - assert (0 < (x - px s) * (py e - py s))%Q by (apply Qmult_lt_0_compat; lra). lra.
    - apply Qnot_le_lt. intros C. assert (0 <= (px s - x) * (py e - py s))%Q by (apply Qmult_le_0_compat; lra). lra.
  Qed.
  Lemma level_e : qlt (px e) (px (level e)) = neg (level e).
  Proof.
    unfold neg. assert (E : (D (level e) == (px e - px (level e)) * (py e - py s))%Q) by (unfold D, isLeft, level; cbn [px py]; ring).
    set (x := px (level e)) in *. clearbody x. apply eq_iff_eq_true. rewrite !qlt_iff, E. split; intros H.
    - assert (0 < (x - px e) * (py e - py s))%Q by (apply Qmult_lt_0_compat; lra). lra.
    - apply Qnot_le_lt. intros C. assert (0 <= (px e - x) * (py e - py s))%Q by (apply Qmult_le_0_compat; lra). lra.
  Qed.
  Definition region (v : pt) : bool := negb (low s v) && low e v && qlt (isLeft s e v) 0.
  Lemma if_both (x y : bool) (P Q : Prop) : (x = true -> y = true -> P \/ Q) -> P \/ (x = true -> y = true -> Q).
  Proof. destruct x, y; intros H; try (now right); destruct (H eq_refl eq_refl); tauto. Qed.
  Lemma strip_edge_or : meets s e a b \/ xorb (cnEdge s (a, b)) (cnEdge e (a, b)) = xorb (region a) (region b).
  Proof.
    rewrite !cn_level, level_s, level_e. unfold region. fold (D a) (D b). fold (neg a) (neg b).
    assert (Ia : negb (low s a) && low e a = true -> (py s <= py a <= py e)%Q).
    { unfold low. rewrite andb_true_iff, negb_true_iff, Qle_bool_iff, qle_false_iff. intros []. lra. }
    assert (Ib : negb (low s b) && low e b = true -> (py s <= py b <= py e)%Q).
    { unfold low. rewrite andb_true_iff, negb_true_iff, Qle_bool_iff, qle_false_iff. intros []. lra. }
    assert (La : low s a = true -> low e a = true) by (unfold low; rewrite !Qle_bool_iff; lra).
    assert (Lb : low s b = true -> low e b = true) by (unfold low; rewrite !Qle_bool_iff; lra).
    assert (Es : (py s <= py (level s) <= py e)%Q) by (unfold level; cbn [py]; lra).
    assert (Ee : (py s <= py (level e) <= py e)%Q) by (unfold level; cbn [py]; lra).
    pose proof (seg_start a b) as Sa. pose proof (seg_end a b) as Sb.
    pose proof (level_on s) as Ss. pose proof (level_on e) as Se.
    destruct (if_both (negb (low s a) && low e a) (negb (low s b) && low e b) (meets s e a b) (neg a = neg b) ltac:(intros; apply same_side; auto)) as [M|Hab]; [now left|].
    destruct (if_both (negb (low s a) && low e a) (str s) (meets s e a b) (neg a = neg (level s)) ltac:(intros; apply same_side; auto)) as [M|Has]; [now left|].
    destruct (if_both (negb (low s a) && low e a) (str e) (meets s e a b) (neg a = neg (level e)) ltac:(intros; apply same_side; auto)) as [M|Hae]; [now left|].
    destruct (if_both (negb (low s b) && low e b) (str s) (meets s e a b) (neg b = neg (level s)) ltac:(intros; apply same_side; auto)) as [M|Hbs]; [now left|].
    destruct (if_both (negb (low s b) && low e b) (str e) (meets s e a b) (neg b = neg (level e)) ltac:(intros; apply same_side; auto)) as [M|Hbe]; [now left|].
    destruct (if_both (str s) (str e) (meets s e a b) (neg (level s) = neg (level e)) ltac:(intros; apply same_side; auto)) as [M|Hse]; [now left|].
    right.
    clear Ia Ib Sa Sb Ss Se Es Ee. unfold str in *.
    generalize dependent (neg (level s)). generalize dependent (neg (level e)). generalize dependent (neg a). generalize dependent (neg b).
    destruct (low s a), (low s b), (low e a), (low e b); cbn [negb andb xorb];
      intros nb na Hab ne Hae Hbe ns Has Hbs Hse;
      try (specialize (La eq_refl); discriminate); try (specialize (Lb eq_refl); discriminate);
      repeat match goal with
      | H : true = true -> true = true -> ?x = ?y |- _ => specialize (H eq_refl eq_refl)
      | H : false = true -> _ |- _ => clear H
      | H : _ -> false = true -> _ |- _ => clear H
      end; subst; try reflexivity;
      repeat match goal with x : bool |- _ => destruct x end; try reflexivity; congruence.
  Qed.
End Strip.
Lemma strip_edge s e : (py s < py e)%Q -> forall a b, ~ meets s e a b ->
  xorb (cnEdge s (a, b)) (cnEdge e (a, b)) = xorb (region s e a) (region s e b).
Proof. intros Up a b N. destruct (strip_edge_or s e Up a b); tauto. Qed.

Lemma flat_edge_or s e a b : (py s == py e)%Q -> meets s e a b \/ cnEdge s (a, b) = cnEdge e (a, b).
Proof.
  intros Fl. rewrite (cn_level a b s), (cn_level a b e).
  assert (Lv : forall v, low s v = low e v).
  { intros v. unfold low. apply eq_iff_eq_true. rewrite !Qle_bool_iff. lra. }
  rewrite (Lv a), (Lv b). destruct (xorb (low e a) (low e b)) eqn:St; [|now right]. cbn [andb px].
  assert (Ss : on_seg {| px := (px a + (py s - py a) / (py b - py a) * (px b - px a))%Q; py := py s |} a b).
  { apply level_on. now rewrite (Lv a), (Lv b). }
  assert (E : ((py s - py a) / (py b - py a) == (py e - py a) / (py b - py a))%Q) by (apply Qdiv_comp; [lra|reflexivity]).
  set (xs := (px a + (py s - py a) / (py b - py a) * (px b - px a))%Q) in *.
  set (xe := (px a + (py e - py a) / (py b - py a) * (px b - px a))%Q) in *.
  assert (Ex : (xs == xe)%Q) by (unfold xs, xe; rewrite E; reflexivity). clearbody xs xe.
  destruct (qlt (px s) xs) eqn:E1, (qlt (px e) xe) eqn:E2; try (now right); left;
    exists {| px := xs; py := py s |}; (split; [|exact Ss]).
  - apply qlt_iff in E1. apply qlt_false_iff in E2. exists ((xs - px s) / (px e - px s))%Q.
    split; [split; [apply Qle_shift_div_l|apply Qle_shift_div_r]; lra|]. split; cbn [px py]; [field; lra|rewrite Fl; field; lra].
  - apply qlt_iff in E2. apply qlt_false_iff in E1. exists ((px s - xs) / (px s - px e))%Q.
    split; [split; [apply Qle_shift_div_l|apply Qle_shift_div_r]; lra|]. split; cbn [px py]; [field; lra|rewrite Fl; field; lra].
Qed.

Lemma flat_edge s e a b : (py s == py e)%Q -> ~ meets s e a b -> cnEdge s (a, b) = cnEdge e (a, b).
Proof. intros Fl N. destruct (flat_edge_or s e a b Fl); tauto. Qed.
Lemma last_cons {A} (v : list A) : forall b d, last (b :: v) d = last v b.
Proof.
  induction v as [|a v IH]; intros b d; [reflexivity|]. change (last (b :: a :: v) d) with (last (a :: v) d).
  rewrite (IH a d). symmetry. apply (IH a b).
Qed.

(** * Parity *)
Definition parity {A} (f : A -> bool) (l : list A) : bool := fold_right xorb false (map f l).
Lemma odd_parity {A} (f : A -> bool) l : Nat.odd (count f l) = parity f l.
Proof.
  induction l as [|a l IH]; [reflexivity|]. rewrite count_cons. unfold parity. cbn [map fold_right]. fold (parity f l). rewrite <- IH.
  destruct (f a); cbn [Nat.add]; [rewrite Nat.odd_succ, <- Nat.negb_odd|]; now destruct (Nat.odd (count f l)).
Qed.
Lemma parity_xor {A} (f g : A -> bool) l : xorb (parity f l) (parity g l) = parity (fun a => xorb (f a) (g a)) l.
Proof.
  induction l as [|a l IH]; [reflexivity|]. unfold parity in *. cbn [map fold_right]. rewrite <- IH.
  now destruct (f a), (g a), (fold_right xorb false (map f l)), (fold_right xorb false (map g l)).
Qed.
Lemma parity_ext {A} (f g : A -> bool) l : (forall a, In a l -> f a = g a) -> parity f l = parity g l.
Proof. intros H. unfold parity. f_equal. now apply map_ext_in. Qed.
Lemma parity_path (f : pt -> bool) v : forall a, parity (fun e => xorb (f (fst e)) (f (snd e))) (edges (a :: v)) = xorb (f a) (f (last v a)).
Proof.
  induction v as [|b v IH]; intros a; [cbn; now destruct (f a)|].
  change (edges (a :: b :: v)) with ((a, b) :: edges (b :: v)). unfold parity. cbn [map fold_right fst snd].
  fold (parity (fun e => xorb (f (fst e)) (f (snd e))) (edges (b :: v))). rewrite IH.
  rewrite (last_cons v b a). now destruct (f a), (f b), (f (last v b)).
Qed.
Lemma parity_closed (f : pt -> bool) v : parity (fun e => xorb (f (fst e)) (f (snd e))) (edges (closed v)) = false.
Proof.
  destruct v as [|a v]; [reflexivity|]. unfold closed. cbn [app]. rewrite parity_path, last_app_one. now destruct (f a).
Qed.

Lemma xorb_false_eq a b : xorb a b = false -> a = b.
Proof. now destruct a, b. Qed.
Lemma cn_constant s e v : (forall g, In g (edges (closed v)) -> ~ meets s e (fst g) (snd g)) ->
  cnPnPoly s (closed v) = cnPnPoly e (closed v).
Proof.
  intros H. unfold cnPnPoly. rewrite !cn_count, !odd_parity.
  destruct (Qlt_le_dec (py s) (py e)) as [L|L].
  - apply xorb_false_eq. rewrite parity_xor.
    rewrite (parity_ext _ (fun g => xorb (region s e (fst g)) (region s e (snd g)))); [apply parity_closed|].
    intros [a b] G. apply strip_edge; [exact L|]. exact (H _ G).
  - destruct (Qlt_le_dec (py e) (py s)) as [L'|L'].
    + symmetry. apply xorb_false_eq. rewrite parity_xor.
      rewrite (parity_ext _ (fun g => xorb (region e s (fst g)) (region e s (snd g)))); [apply parity_closed|].
      intros [a b] G. apply strip_edge; [exact L'|]. intros C. apply (H _ G). now apply meets_swap.
    + apply parity_ext. intros [a b] G. apply flat_edge; [lra|]. exact (H _ G).
Qed.
(** If the answer changes an edge is met. *)
Lemma parity_true {A} (f : A -> bool) l : parity f l = true -> exists a, In a l /\ f a = true.
Proof.
  induction l as [|a l IH]; [discriminate|]. unfold parity. cbn [map fold_right]. fold (parity f l). destruct (f a) eqn:E.
  - intros _. exists a. split; [now left|exact E].
  - intros H. assert (P : parity f l = true) by now destruct (parity f l). destruct (IH P) as (b & I & F). exists b. split; [now right|exact F].
Qed.
Lemma cn_changes s e v : cnPnPoly s (closed v) <> cnPnPoly e (closed v) ->
  exists g, In g (edges (closed v)) /\ meets s e (fst g) (snd g).
Proof.
  intros H. unfold cnPnPoly in H. rewrite !cn_count, !odd_parity in H.
  assert (Fin : forall s e, (py s < py e)%Q -> parity (cnEdge s) (edges (closed v)) <> parity (cnEdge e) (edges (closed v)) ->
    exists g, In g (edges (closed v)) /\ meets s e (fst g) (snd g)).
  { clear s e H. intros s e L H.
    assert (P : parity (fun g => xorb (xorb (cnEdge s g) (cnEdge e g)) (xorb (region s e (fst g)) (region s e (snd g)))) (edges (closed v)) = true).
    { rewrite <- parity_xor, <- parity_xor, parity_closed. revert H; destruct (parity (cnEdge s) _), (parity (cnEdge e) _); intros H; try reflexivity; now destruct H. }
    apply parity_true in P. destruct P as ([a b] & I & P). exists (a, b). split; [exact I|]. cbn [fst snd] in *.
    destruct (strip_edge_or s e L a b) as [M|E]; [exact M|]. rewrite E, xorb_nilpotent in P. discriminate. }
  destruct (Qlt_le_dec (py s) (py e)) as [L|L]; [now apply Fin|].
  destruct (Qlt_le_dec (py e) (py s)) as [L'|L'].
  - destruct (Fin e s L' (fun E => H (eq_sym E))) as (g & I & M). exists g. split; [exact I|now apply meets_swap].
  - assert (P : parity (fun g => xorb (cnEdge s g) (cnEdge e g)) (edges (closed v)) = true).
    { rewrite <- parity_xor. revert H; destruct (parity (cnEdge s) _), (parity (cnEdge e) _); intros H; try reflexivity; now destruct H. }
    apply parity_true in P. destruct P as ([a b] & I & P). exists (a, b). split; [exact I|]. cbn [fst snd].
    destruct (flat_edge_or s e a b ltac:(lra)) as [M|E]; [exact M|]. rewrite E, xorb_nilpotent in P. discriminate.
Qed.
(** A polyline *)
Lemma cn_path v w : forall s, (forall h g, In h (edges (s :: w)) -> In g (edges (closed v)) -> ~ meets (fst h) (snd h) (fst g) (snd g)) ->
  cnPnPoly s (closed v) = cnPnPoly (last w s) (closed v).
Proof.
  induction w as [|b w IH]; intros s H; [reflexivity|].
  rewrite (cn_constant s b v) by (intros g G; apply (H (s, b) g); [now left|exact G]).
  rewrite (IH b) by (intros h g Hh G; apply H; [now right|exact G]).
  now rewrite (last_cons w b s).
Qed.

(** * Crossings *)
(** Each segment has its ends strictly on different sides of the other *)
Definition properly (s e a b : pt) : Prop :=
  (isLeft s e a * isLeft s e b < 0)%Q /\ (isLeft a b s * isLeft a b e < 0)%Q.
Lemma opposite x y : (x * y < 0)%Q -> (x < 0 /\ 0 < y)%Q \/ (0 < x /\ y < 0)%Q.
Proof.
  intros H. destruct (Qlt_le_dec x 0) as [X|X].
  - left. split; [exact X|]. apply Qnot_le_lt. intros Y. assert (0 <= (- x) * (- y))%Q by (apply Qmult_le_0_compat; lra). lra.
  - right. destruct (Qlt_le_dec 0 x) as [X'|X'].
    + split; [exact X'|]. apply Qnot_le_lt. intros Y. assert (0 <= x * y)%Q by (apply Qmult_le_0_compat; lra). lra.
    + exfalso. assert (E : (x == 0)%Q) by lra. rewrite E in H. lra.
Qed.
(** The parameters of the common point *)
Lemma properly_level s e a b : properly s e a b ->
  exists t u, (0 < t < 1)%Q /\ (0 < u < 1)%Q /\ (t * (isLeft s e a - isLeft s e b) == isLeft s e a)%Q /\
    (py a + t * (py b - py a) == py s + u * (py e - py s))%Q /\ (px a + t * (px b - px a) == px s + u * (px e - px s))%Q.
Proof.
  intros [H1 H2]. exists (isLeft s e a / (isLeft s e a - isLeft s e b))%Q, (isLeft a b s / (isLeft a b s - isLeft a b e))%Q.
  assert (K : (isLeft a b s - isLeft a b e == - (isLeft s e a - isLeft s e b))%Q) by (unfold isLeft; ring).
  assert (G : forall x y, (x * y < 0)%Q -> (0 < x / (x - y) < 1)%Q /\ ~ (x - y == 0)%Q).
  { intros x y H. apply opposite in H. destruct H as [[X Y]|[X Y]].
    - split; [|lra]. setoid_replace (x / (x - y))%Q with ((- x) / (y - x))%Q by (field; split; lra).
      split; [apply Qlt_shift_div_l|apply Qlt_shift_div_r]; lra.
    - split; [|lra]. split; [apply Qlt_shift_div_l|apply Qlt_shift_div_r]; lra. }
  destruct (G _ _ H1) as [T N1]. destruct (G _ _ H2) as [U N2]. split; [exact T|]. split; [exact U|]. split; [field; exact N1|].
  clear T U G H1 H2. unfold isLeft in *. split; field; split; assumption.
Qed.
Section Cross.
  Variables s e a b : pt.
  Hypothesis Up : (py s < py e)%Q.
  Hypothesis Cr : properly s e a b.
  Let D (v : pt) : Q := isLeft s e v.
  Let level (p : pt) : pt := {| px := (px a + (py p - py a) / (py b - py a) * (px b - px a))%Q; py := py p |}.
  Lemma cross_up : (py a < py b)%Q -> xorb (cnEdge s (a, b)) (cnEdge e (a, b)) = negb (xorb (region s e a) (region s e b)).
  Proof.
    intros Ab. destruct (properly_level s e a b Cr) as (t & u & T & U & Et & Ey & _).
    rewrite !(cn_level a b). fold (level s) (level e).
    replace (qlt (px s) (px (level s))) with (qlt (D (level s)) 0) by (symmetry; exact (level_s s e Up a b)).
    replace (qlt (px e) (px (level e))) with (qlt (D (level e)) 0) by (symmetry; exact (level_e s e Up a b)).
    assert (M1 : (py s < py a + t * (py b - py a))%Q).
    { rewrite Ey. assert (0 < u * (py e - py s))%Q by (apply Qmult_lt_0_compat; lra). lra. }
    assert (M2 : (py a + t * (py b - py a) < py e)%Q).
    { rewrite Ey. assert (0 < (1 - u) * (py e - py s))%Q by (apply Qmult_lt_0_compat; lra). lra. }
    assert (Pt : (0 < t * (py b - py a))%Q) by (apply Qmult_lt_0_compat; lra).
    assert (Pt' : (0 < (1 - t) * (py b - py a))%Q) by (apply Qmult_lt_0_compat; lra).
    assert (DL : forall p, (D (level p) == (D a - D b) * (t - (py p - py a) / (py b - py a)))%Q).
    { intros p. assert (E1 : (D (level p) == D a + (py p - py a) / (py b - py a) * (D b - D a))%Q).
      { unfold D, isLeft, level. cbn [px py]. field. lra. }
      assert (E2 : ((D a - D b) * t == D a)%Q) by (rewrite Qmult_comm; exact Et).
      rewrite E1. setoid_replace ((D a - D b) * (t - (py p - py a) / (py b - py a)))%Q
        with ((D a - D b) * t - (py p - py a) / (py b - py a) * (D a - D b))%Q by (field; lra).
      rewrite E2. field. lra. }
    assert (Ts : (0 < t - (py s - py a) / (py b - py a))%Q).
    { assert ((py s - py a) / (py b - py a) < t)%Q by (apply Qlt_shift_div_r; lra). lra. }
    assert (Te : (t - (py e - py a) / (py b - py a) < 0)%Q).
    { assert (t < (py e - py a) / (py b - py a))%Q by (apply Qlt_shift_div_l; lra). lra. }
    destruct Cr as [C1 _]. apply opposite in C1. fold (D a) (D b) in C1.
    assert (Ls : qlt (D (level s)) 0 = qlt (D a) 0 /\ qlt (D (level e)) 0 = qlt (D b) 0 /\ qlt (D a) 0 = negb (qlt (D b) 0)).
    { pose proof (DL s) as Ds. pose proof (DL e) as De. set (ws := (t - (py s - py a) / (py b - py a))%Q) in *.
      set (we := (t - (py e - py a) / (py b - py a))%Q) in *. set (x := D (level s)) in *. set (y := D (level e)) in *.
      set (m := D a) in *. set (n := D b) in *. clearbody ws we x y m n.
      destruct C1 as [[X Y]|[X Y]].
      - assert (0 < (n - m) * ws)%Q by (apply Qmult_lt_0_compat; lra). assert (0 < (n - m) * (- we))%Q by (apply Qmult_lt_0_compat; lra).
        repeat split; apply eq_iff_eq_true; rewrite ?negb_true_iff, ?qlt_false_iff, ?qlt_iff; lra.
      - assert (0 < (m - n) * ws)%Q by (apply Qmult_lt_0_compat; lra). assert (0 < (m - n) * (- we))%Q by (apply Qmult_lt_0_compat; lra).
        repeat split; apply eq_iff_eq_true; rewrite ?negb_true_iff, ?qlt_false_iff, ?qlt_iff; lra. }
    destruct Ls as (-> & -> & E). unfold region. fold (D a) (D b). rewrite E.
    assert (L1 : low s b = false) by (unfold low; apply qle_false_iff; lra).
    assert (L2 : low e a = true) by (unfold low; apply Qle_bool_iff; lra).
    rewrite L1, L2. destruct (low s a), (low e b), (qlt (D b) 0); reflexivity.
  Qed.
  Lemma cross_flat : (py a == py b)%Q -> xorb (cnEdge s (a, b)) (cnEdge e (a, b)) = negb (xorb (region s e a) (region s e b)).
  Proof.
    intros Ab. destruct (properly_level s e a b Cr) as (t & u & T & U & Et & Ey & _).
    rewrite !(cn_level a b).
    assert (M1 : (py s < py a)%Q).
    { assert (0 < u * (py e - py s))%Q by (apply Qmult_lt_0_compat; lra).
      assert (py a + t * (py b - py a) == py a)%Q by (rewrite Ab; ring). lra. }
    assert (M2 : (py a < py e)%Q).
    { assert (0 < (1 - u) * (py e - py s))%Q by (apply Qmult_lt_0_compat; lra).
      assert (py a + t * (py b - py a) == py a)%Q by (rewrite Ab; ring). lra. }
    unfold region.
    assert (L1 : low s a = false) by (unfold low; apply qle_false_iff; lra). assert (L2 : low s b = false) by (unfold low; apply qle_false_iff; lra).
    assert (L3 : low e a = true) by (unfold low; apply Qle_bool_iff; lra). assert (L4 : low e b = true) by (unfold low; apply Qle_bool_iff; lra).
    rewrite L1, L2, L3, L4. cbn [xorb andb negb].
    destruct Cr as [C1 _]. apply opposite in C1. set (m := isLeft s e a) in *. set (n := isLeft s e b) in *. clearbody m n.
    destruct C1 as [[X Y]|[X Y]].
    - rewrite (proj2 (qlt_iff m 0)) by exact X. rewrite (proj2 (qlt_false_iff n 0)) by lra. reflexivity.
    - rewrite (proj2 (qlt_iff n 0)) by exact Y. rewrite (proj2 (qlt_false_iff m 0)) by lra. reflexivity.
  Qed.
End Cross.
Lemma properly_swap s e a b : properly s e a b -> properly s e b a.
Proof.
  intros [H1 H2]. split; [lra|]. pose proof (isLeft_swap a b s) as A. pose proof (isLeft_swap a b e) as B. rewrite A, B. lra.
Qed.
Lemma properly_turn s e a b : properly s e a b -> properly e s a b.
Proof.
  intros [H1 H2]. pose proof (isLeft_swap s e a) as A. pose proof (isLeft_swap s e b) as B. split; [rewrite A, B; lra|lra].
Qed.
Lemma cross_edge s e a b : (py s < py e)%Q -> properly s e a b ->
  xorb (cnEdge s (a, b)) (cnEdge e (a, b)) = negb (xorb (region s e a) (region s e b)).
Proof.
  intros Up Cr. destruct (Qlt_le_dec (py a) (py b)) as [L|L]; [now apply cross_up|].
  destruct (Qlt_le_dec (py b) (py a)) as [L'|L'].
  - rewrite (cnEdge_swap s b a), (cnEdge_swap e b a). rewrite (cross_up s e b a Up (properly_swap _ _ _ _ Cr) L').
    f_equal. apply xorb_comm.
  - apply cross_flat; [exact Up|exact Cr|lra].
Qed.
Lemma cross_edge_flat s e a b : (py s == py e)%Q -> properly s e a b -> cnEdge s (a, b) = negb (cnEdge e (a, b)).
Proof.
  intros Fl Cr. destruct (properly_level s e a b Cr) as (t & u & T & U & Et & Ey & Ex).
  rewrite (cn_level a b s), (cn_level a b e).
  assert (Lv : forall v, low s v = low e v).
  { intros v. unfold low. apply eq_iff_eq_true. rewrite !Qle_bool_iff. lra. }
  rewrite (Lv a), (Lv b). cbn [px].
  assert (Nz : ~ (py b - py a == 0)%Q).
  { intros C. destruct Cr as [C1 _]. unfold isLeft in C1.
    assert (E1 : ((px e - px s) * (py a - py s) - (px a - px s) * (py e - py s) == (px e - px s) * (py a - py s))%Q) by (rewrite <- Fl; ring).
    assert (E2 : ((px e - px s) * (py b - py s) - (px b - px s) * (py e - py s) == (px e - px s) * (py a - py s))%Q).
    { assert (Eb : (py b == py a)%Q) by lra. rewrite <- Fl, Eb. ring. }
    rewrite E1, E2 in C1. assert (G : forall z, (0 <= z * z)%Q).
    { intros z. destruct (Qlt_le_dec z 0) as [Z|Z].
      - assert (0 <= (- z) * (- z))%Q by (apply Qmult_le_0_compat; lra). lra.
      - apply Qmult_le_0_compat; lra. }
    pose proof (G ((px e - px s) * (py a - py s))%Q). lra. }
  assert (Ys : (py a + t * (py b - py a) == py s)%Q) by (rewrite Ey, <- Fl; ring).
  assert (Vs : ((py s - py a) / (py b - py a) == t)%Q).
  { assert (E : (py s - py a == t * (py b - py a))%Q) by lra. rewrite E. field. exact Nz. }
  assert (Ve : ((py e - py a) / (py b - py a) == t)%Q).
  { assert (E : (py e - py a == t * (py b - py a))%Q) by lra. rewrite E. field. exact Nz. }
  set (xs := (px a + (py s - py a) / (py b - py a) * (px b - px a))%Q). set (xe := (px a + (py e - py a) / (py b - py a) * (px b - px a))%Q).
  assert (Xs : (xs == px s + u * (px e - px s))%Q) by (unfold xs; rewrite Vs; exact Ex).
  assert (Xe : (xe == px s + u * (px e - px s))%Q) by (unfold xe; rewrite Ve; exact Ex). clearbody xs xe.
  assert (St : xorb (low e a) (low e b) = true).
  { assert (E : (py e == py a + t * (py b - py a))%Q) by lra. unfold low.
    destruct (Qlt_le_dec (py a) (py b)) as [L|L].
    - assert (0 < t * (py b - py a))%Q by (apply Qmult_lt_0_compat; lra). assert (0 < (1 - t) * (py b - py a))%Q by (apply Qmult_lt_0_compat; lra).
      rewrite (proj2 (Qle_bool_iff (py a) (py e))) by lra. rewrite (proj2 (qle_false_iff (py b) (py e))) by lra. reflexivity.
    - assert (0 < t * (py a - py b))%Q by (apply Qmult_lt_0_compat; lra). assert (0 < (1 - t) * (py a - py b))%Q by (apply Qmult_lt_0_compat; lra).
      rewrite (proj2 (Qle_bool_iff (py b) (py e))) by lra. rewrite (proj2 (qle_false_iff (py a) (py e))) by lra. reflexivity. }
  rewrite St. cbn [andb].
  destruct Cr as [C1 _]. assert (Nx : (px s < px e \/ px e < px s)%Q).
  { destruct (Qlt_le_dec (px s) (px e)) as [L|L]; [now left|]. destruct (Qlt_le_dec (px e) (px s)) as [L'|L']; [now right|]. exfalso.
    assert (Eq : (px e == px s)%Q) by lra. unfold isLeft in C1. rewrite Eq, <- Fl in C1. 
    assert (Z : (((px s - px s) * (py a - py s) - (px a - px s) * (py s - py s)) * ((px s - px s) * (py b - py s) - (px b - px s) * (py s - py s)) == 0)%Q) by ring.
    lra. }
  destruct Nx as [L|L].
  - assert (0 < u * (px e - px s))%Q by (apply Qmult_lt_0_compat; lra). assert (0 < (1 - u) * (px e - px s))%Q by (apply Qmult_lt_0_compat; lra).
    rewrite (proj2 (qlt_iff (px s) xs)) by lra. rewrite (proj2 (qlt_false_iff (px e) xe)) by lra. reflexivity.
  - assert (0 < u * (px s - px e))%Q by (apply Qmult_lt_0_compat; lra). assert (0 < (1 - u) * (px s - px e))%Q by (apply Qmult_lt_0_compat; lra).
    rewrite (proj2 (qlt_iff (px e) xe)) by lra. rewrite (proj2 (qlt_false_iff (px s) xs)) by lra. reflexivity.
Qed.
(** [crossed] tells which edges are crossed; the others do not meet the segment *)
Lemma cn_crossings s e v (crossed : pt * pt -> bool) :
  (forall g, In g (edges (closed v)) -> if crossed g then properly s e (fst g) (snd g) else ~ meets s e (fst g) (snd g)) ->
  xorb (cnPnPoly s (closed v)) (cnPnPoly e (closed v)) = Nat.odd (count crossed (edges (closed v))).
Proof.
  intros H. unfold cnPnPoly. rewrite !cn_count, !odd_parity, parity_xor.
  assert (Fin : forall s e, (py s < py e)%Q ->
    (forall g, In g (edges (closed v)) -> if crossed g then properly s e (fst g) (snd g) else ~ meets s e (fst g) (snd g)) ->
    parity (fun g => xorb (cnEdge s g) (cnEdge e g)) (edges (closed v)) = parity crossed (edges (closed v))).
  { clear s e H. intros s e L H.
    rewrite (parity_ext _ (fun g => xorb (crossed g) (xorb (region s e (fst g)) (region s e (snd g))))).
    - rewrite <- parity_xor, parity_closed. now destruct (parity crossed _).
    - intros [a b] G. specialize (H _ G). cbn [fst snd] in *. destruct (crossed (a, b)).
      + rewrite (cross_edge s e a b L H). now destruct (region s e a), (region s e b).
      + rewrite (strip_edge s e L a b H). now destruct (region s e a), (region s e b). }
  destruct (Qlt_le_dec (py s) (py e)) as [L|L]; [now apply Fin|].
  destruct (Qlt_le_dec (py e) (py s)) as [L'|L'].
  - rewrite <- (Fin e s L').
    + apply parity_ext. intros g _. apply xorb_comm.
    + intros g G. specialize (H g G). destruct (crossed g); [now apply properly_turn|]. intros C. apply H. now apply meets_swap.
  - apply parity_ext. intros [a b] G. specialize (H _ G). cbn [fst snd] in *. destruct (crossed (a, b)).
    + rewrite (cross_edge_flat s e a b) by (try exact H; lra). now destruct (cnEdge e (a, b)).
    + rewrite (flat_edge s e a b) by (try exact H; lra). now destruct (cnEdge e (a, b)).
Qed.
