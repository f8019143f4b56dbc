(** C204, C205: maps of tracks. *)
From Coq Require Import List Arith ZArith Bool QArith String Lia Lqa.
From Verif Require Import CellModel ScaleProps TmapModel.
Import ListNotations.
Open Scope Q_scope.

Lemma segs_len (pts : list point) : List.length (combine (removelast pts) (tl pts)) = (List.length pts - 1)%nat.
Proof.
  rewrite combine_length. assert (R : List.length (removelast pts) = (List.length pts - 1)%nat).
  { induction pts as [|p [|q l] IH]; [reflexivity|reflexivity|]. cbn [removelast List.length] in *. lia. }
  rewrite R. destruct pts; cbn; lia.
Qed.
Lemma removelast_nth (d : point) pts : forall i, (i < List.length pts - 1)%nat -> nth i (removelast pts) d = nth i pts d.
Proof.
  induction pts as [|p [|q l] IH]; intros i Hi; [cbn in Hi; lia|cbn in Hi; lia|].
  destruct i; [reflexivity|]. change (removelast (p :: q :: l)) with (p :: removelast (q :: l)). cbn [nth]. apply IH. cbn in *. lia.
Qed.
Lemma seg_nth (pts : list point) d i : (i < List.length pts - 1)%nat ->
  nth i (combine (removelast pts) (tl pts)) (d, d) = (nth i pts d, nth (S i) pts d).
Proof.
  intros Hi. rewrite combine_nth.
  - rewrite removelast_nth by exact Hi. f_equal. destruct pts; [cbn in Hi; lia|reflexivity].
  - assert (R : forall q : list point, List.length (removelast q) = (List.length q - 1)%nat).
    { induction q as [|p [|r l] IH]; [reflexivity|reflexivity|]. cbn [removelast List.length] in *. lia. }
    rewrite R. destruct pts; cbn; lia.
Qed.

(** ** C204 *)
(** A track of [n] positions is drawn as [n-1] segments: each from a position to the next one, in the colour of the
    wind at its start *)
Theorem c204_segments : forall xx yy zz, List.length yy = List.length xx -> List.length zz = List.length xx ->
  exists lines, colorline xx yy (Some zz) = Some lines /\ List.length lines = (List.length xx - 1)%nat /\
    forall i, (S i < List.length xx)%nat ->
      nth_error lines i = Some ((nth i xx 0, nth i yy 0), (nth (S i) xx 0, nth (S i) yy 0), colour (nth i zz None)).
Proof.
  intros xx yy zz Ly Lz. unfold colorline, makeSegments. rewrite Ly, Nat.eqb_refl.
  assert (Lp : List.length (combine xx yy) = List.length xx) by (rewrite combine_length; lia).
  assert (Ls := segs_len (combine xx yy)). rewrite Lp in Ls.
  assert (Ll : List.length (combine (combine (removelast (combine xx yy)) (tl (combine xx yy))) (map colour zz)) = (List.length xx - 1)%nat).
  { rewrite combine_length, Ls, map_length. lia. }
  eexists. split; [reflexivity|]. split; [exact Ll|]. intros i Hi.
  assert (Pn : forall j, (j < List.length xx)%nat -> nth j (combine xx yy) (0, 0) = (nth j xx 0, nth j yy 0)) by (intros; apply combine_nth; lia).
  set (segs := combine (removelast (combine xx yy)) (tl (combine xx yy))) in *.
  rewrite (nth_error_nth' _ ((0, 0), (0, 0), None)) by (rewrite Ll; lia). f_equal.
  assert (Hc : forall (l : list (point * point)) (m : list (option nat)) k, (k < List.length l)%nat -> (k < List.length m)%nat ->
    nth k (combine l m) ((0, 0), (0, 0), None) = (nth k l ((0, 0), (0, 0)), nth k m None)).
  { induction l as [|a l IH]; intros [|b m] [|k] H1 H2; cbn in *; try lia; [reflexivity|]. apply IH; lia. }
  rewrite Hc by (rewrite ?Ls, ?map_length; lia). unfold segs. rewrite seg_nth by lia. rewrite !Pn by lia. f_equal.
  change None with (colour None) at 1. apply map_nth.
Qed.

Lemma colour_cases z : colour (Some z) = Some (
  if Qle_bool (111 # 2) z then 5 else if Qle_bool (221 # 5) z then 4 else if Qle_bool (65 # 2) z then 3
  else if Qle_bool (49 # 2) z then 2 else if Qle_bool (35 # 2) z then 1 else 0)%nat.
Proof.
  unfold colour, digitize, intervals. cbn [filter].
  destruct (Qle_bool 1000 z) eqn:E6; destruct (Qle_bool (111 # 2) z) eqn:E5; destruct (Qle_bool (221 # 5) z) eqn:E4; destruct (Qle_bool (65 # 2) z) eqn:E3;
  destruct (Qle_bool (49 # 2) z) eqn:E2; destruct (Qle_bool (35 # 2) z) eqn:E1; destruct (Qle_bool 0 z) eqn:E0; try reflexivity; exfalso;
  rewrite ?Qle_bool_iff, ?qle_no in *; lra.
Qed.
(** The legend: the colour of a wind is that of the category of the Australian scale the wind is in *)
Theorem c204_legend : forall z, 0 <= z -> exists k, colour (Some z) = Some k /\ exists l, nth_error labels k = Some l /\
  (l = "Category 1" <-> 35 # 2 <= z < 49 # 2)%string /\ (l = "Category 2" <-> 49 # 2 <= z < 65 # 2)%string /\
  (l = "Category 3" <-> 65 # 2 <= z < 221 # 5)%string /\ (l = "Category 4" <-> 221 # 5 <= z < 111 # 2)%string /\
  (l = "Category 5" <-> 111 # 2 <= z)%string.
Proof.
  intros z P. rewrite colour_cases. eexists. split; [reflexivity|].
  destruct (Qle_bool (111 # 2) z) eqn:E5; [|destruct (Qle_bool (221 # 5) z) eqn:E4; [|destruct (Qle_bool (65 # 2) z) eqn:E3; [|
    destruct (Qle_bool (49 # 2) z) eqn:E2; [|destruct (Qle_bool (35 # 2) z) eqn:E1]]]];
  rewrite ?Qle_bool_iff, ?qle_no in *; eexists; (split; [reflexivity|]); repeat split; intros; try discriminate; try lra; try reflexivity.
Qed.
(** A stronger wind is never shown as a lower category *)
Theorem c204_rising : forall a b i j, a <= b -> colour (Some a) = Some i -> colour (Some b) = Some j -> (i <= j)%nat.
Proof.
  intros a b i j L. rewrite !colour_cases. intros [= <-] [= <-].
  repeat match goal with |- context [Qle_bool ?x ?y] => let E := fresh "E" in destruct (Qle_bool x y) eqn:E end; try lia; exfalso;
  rewrite ?Qle_bool_iff, ?qle_no in *; lra.
Qed.

(** ** C205 *)
(** No map with a track on it can be drawn: the axes are called like a function *)
Theorem c205_map_refuted : forall tracks, tracks <> [] -> subplot tracks = TypeErr.
Proof. intros [|t l] H; [congruence|reflexivity]. Qed.
(** Winds that are known and below category 1, and negative ones, are shown as if there were no data *)
Theorem c205_weak_refuted : forall z, z < 35 # 2 -> exists k, colour (Some z) = Some k /\ nth_error labels k = Some "No data"%string.
Proof.
  intros z H. rewrite colour_cases. eexists. split; [reflexivity|].
  repeat match goal with |- context [Qle_bool ?x ?y] => let E := fresh "E" in destruct (Qle_bool x y) eqn:E end; try reflexivity; exfalso;
  rewrite ?Qle_bool_iff, ?qle_no in *; lra.
Qed.
(** The wind at the last position is not shown; a track of one position is not shown at all *)
Theorem c205_last_refuted : forall xx yy zz w w', List.length yy = S (List.length zz) -> List.length xx = S (List.length zz) ->
  colorline xx yy (Some (zz ++ [w])) = colorline xx yy (Some (zz ++ [w'])).
Proof.
  intros xx yy zz w w' Ly Lx. unfold colorline, makeSegments. rewrite Lx, Ly, Nat.eqb_refl. f_equal.
  assert (L : List.length (combine (removelast (combine xx yy)) (tl (combine xx yy))) = List.length (map colour zz)).
  { rewrite segs_len, combine_length, map_length. lia. }
  rewrite !map_app. cbn [map].
  assert (H : forall (A B : Type) (l : list A) (m n : list B), List.length l = List.length m -> combine l (m ++ n) = combine l m).
  { intros A B l. induction l as [|a l IH]; intros [|b m] n E; try discriminate; [destruct n; reflexivity|]. cbn in *. f_equal. apply IH. lia. }
  rewrite !H by exact L. reflexivity.
Qed.
Theorem c205_single_refuted : forall x y z, colorline [x] [y] (Some [z]) = Some [].
Proof. reflexivity. Qed.
(** Without winds all lines have the colour of no data *)
Theorem c205_default_refuted : forall xx yy lines i l, (2 <= List.length xx)%nat -> colorline xx yy None = Some lines -> nth_error lines i = Some l ->
  snd l = Some 0%nat.
Proof.
  intros xx yy lines i l L. unfold colorline. destruct (makeSegments xx yy) as [segs|]; [|discriminate]. intros [= <-] H.
  destruct l as [s c]. apply nth_error_In in H. apply in_combine_r in H. cbn [snd]. apply in_map_iff in H as (v & <- & H).
  unfold linspace01 in H. apply in_map_iff in H as (k & <- & H). apply in_seq in H. rewrite colour_cases.
  assert (V : inject_Z (Z.of_nat k) / inject_Z (Z.of_nat (List.length xx - 1)) <= 1).
  { apply Qle_shift_div_r; [change 0 with (inject_Z 0); rewrite <- Zlt_Qlt; lia|]. rewrite Qmult_1_l, <- Zle_Qle. lia. }
  set (q := inject_Z (Z.of_nat k) / inject_Z (Z.of_nat (List.length xx - 1))) in *. f_equal.
  repeat match goal with |- context [Qle_bool ?x ?y] => let E := fresh "E" in destruct (Qle_bool x y) eqn:E end; try reflexivity; exfalso;
  rewrite ?Qle_bool_iff, ?qle_no in *; lra.
Qed.

(** ** Examples *)
Example c204_met : colorline [150; 151; 152] [-20; -21; -22] (Some [Some 20; Some 60; None]) =
  Some [((150, -20), (151, -21), Some 1%nat); ((151, -21), (152, -22), Some 5%nat)].
Proof. reflexivity. Qed.

Print Assumptions c204_segments.
Print Assumptions c204_legend.
Print Assumptions c204_rising.
Print Assumptions c205_map_refuted.
Print Assumptions c205_weak_refuted.
Print Assumptions c205_last_refuted.
Print Assumptions c205_single_refuted.
Print Assumptions c205_default_refuted.
