(** Details of converted grids and of the names of tiles. *)
From Coq Require Import List Arith ZArith Bool QArith Lia String.
From Verif Require Import NamesModel GridFileModel NctxtModel NctxtProps S3Model.
Import ListNotations.
Close Scope string_scope. Open Scope list_scope. Local Open Scope Q_scope.

(** Files of records are no hindrance to a file without one, and the other way round *)
Theorem c198_beside : forall vs lon lat data mv x0 y0 d, gridded lon lat x0 y0 d -> shaped lon lat data ->
  (exists f, nc2txt (map Some vs) lon lat mv (OneGrid data) = ([(None, f)], true) /\ shows f lon lat data d mv) /\
  forall v, exists f, nc2txt [None] lon lat mv (Records [v] [data]) = ([(Some v, f)], true) /\ shows f lon lat data d mv.
Proof.
  intros vs lon lat data mv x0 y0 d G Sh. split.
  - apply (c198_grid _ _ _ _ _ x0 y0); auto. induction vs as [|v vs IH]; [reflexivity|exact IH].
  - intros v. destruct (c198_records [None] lon lat [v] [data] mv x0 y0 d G eq_refl) as (fs & E & L & H).
    + intros g [<-|[]]. exact Sh.
    + intros w _ n [<-|[]]. reflexivity.
    + intros i j Hij. cbn in Hij. lia.
    + destruct fs as [|f [|g fs]]; try discriminate L. cbn in E. exists f. split; [exact E|].
      destruct (H 0%nat) as (f' & E' & Hs); [cbn; lia|]. injection E' as <-. exact Hs.
Qed.
(** The file of a run before is one of the same name *)
Theorem c199_own_refuted : forall lon lat mv data, nc2txt [None] lon lat mv (OneGrid data) = ([], false).
Proof. intros. apply c199_again_refuted. reflexivity. Qed.

(** Names of tiles in the bucket *)
Theorem c200_tile_names : wanted (lit "ms") [lit "e4020s2260"; lit "e4022s2260"] [lit "n"; lit "ne"] =
  map lit ["e4020s2260_ms_n.nc"; "e4020s2260_ms_ne.nc"; "e4022s2260_ms_n.nc"; "e4022s2260_ms_ne.nc"]%string.
Proof. reflexivity. Qed.
Theorem c200_tile_same : forall tile suffix d tile' suffix' d', List.length tile = List.length tile' ->
  List.length suffix = List.length suffix' -> tileFile tile suffix d = tileFile tile' suffix' d' ->
  tile = tile' /\ suffix = suffix' /\ d = d'.
Proof.
  assert (A : forall (a b c e : str), List.length a = List.length b -> a ++ c = b ++ e -> a = b /\ c = e).
  { induction a as [|x a IH]; intros [|y b] c e L E; try discriminate L; [auto|]. injection L as L. injection E as -> E.
    destruct (IH b c e L E) as [-> ->]. auto. }
  intros tile suffix d tile' suffix' d' L1 L2 E. unfold tileFile in E.
  apply A in E as [-> E]; [|exact L1]. apply app_inv_head in E. apply A in E as [-> E]; [|exact L2]. apply app_inv_head in E.
  apply app_inv_tail in E. auto.
Qed.
Print Assumptions c198_beside.
Print Assumptions c199_own_refuted.
Print Assumptions c200_tile_names.
Print Assumptions c200_tile_same.
