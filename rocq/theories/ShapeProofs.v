(** Proofs about the shape file model (ShapeModel). *)
From Coq Require Import List QArith ZArith Bool String Lia Lqa.
From Verif Require Import Base CellModel CellProofs GenProofs ShapeModel.
Import ListNotations.
Local Open Scope nat_scope.

Section Tracks.
  Context {R : Type}.

  (** The end of feature n of the segments. *)
  Lemma segmentsFrom_spec : forall (rest : list (obs R)) o,
    List.length (segmentsFrom o rest) = S (List.length rest) /\
    forall n a, nth_error (o :: rest) n = Some a ->
      exists p, nth_error (segmentsFrom o rest) n = Some ([[at_pos a; p]], o_rec a) /\
        (forall b, nth_error (o :: rest) (S n) = Some b ->
           (- inject_Z 180 <= o_lon b - o_lon a)%Q -> p = at_pos b) /\
        (forall b, nth_error (o :: rest) (S n) = Some b ->
           (o_lon b - o_lon a < - inject_Z 180)%Q -> p = at_pos a) /\
        (nth_error (o :: rest) (S n) = None -> p = at_pos a).
  Proof.
    induction rest as [|o' rest IH]; intros o.
    - split; [reflexivity|]. intros [|[|n]] a H; cbn in H; try discriminate.
      injection H as <-. exists (at_pos o). cbn.
      repeat split; intros; try discriminate; reflexivity.
    - destruct (IH o') as [L N]. split; [cbn [segmentsFrom List.length]; now rewrite L|].
      intros [|n] a H.
      + cbn in H. injection H as <-. cbn [segmentsFrom].
        destruct (qlt (o_lon o' - o_lon o) (- inject_Z 180)) eqn:E.
        * exists (at_pos o). split; [reflexivity|]. apply qlt_iff in E.
          repeat split; intros; try reflexivity.
          cbn in H. injection H as <-. exfalso. lra.
        * exists (at_pos o'). split; [reflexivity|]. apply qlt_false_iff in E.
          repeat split; intros; cbn in H; try discriminate; injection H as <-.
          -- reflexivity.
          -- exfalso. lra.
      + cbn [nth_error] in H. destruct (N n a H) as (p & E & K).
        exists p. split; [exact E|exact K].
  Qed.

  Lemma diffs_nth : forall l k a b, nth_error l k = Some a -> nth_error l (S k) = Some b ->
    nth_error (diffs l) k = Some (b - a)%Q.
  Proof.
    induction l as [|x l IH]; intros k a b H1 H2; [destruct k; discriminate|].
    destruct l as [|y l]; [destruct k; [discriminate|destruct k; discriminate]|].
    destruct k as [|k].
    - cbn in H1, H2. injection H1 as <-. injection H2 as <-. reflexivity.
    - change (diffs (x :: y :: l)) with ((y - x)%Q :: diffs (y :: l)).
      cbn [nth_error]. exact (IH k a b H1 H2).
  Qed.

  Lemma diffs_len : forall l, List.length (diffs l) = List.length l - 1.
  Proof.
    induction l as [|x l IH]; [reflexivity|]. destruct l as [|y l]; [reflexivity|].
    change (diffs (x :: y :: l)) with ((y - x)%Q :: diffs (y :: l)).
    cbn [List.length] in *. rewrite IH. lia.
  Qed.

  Lemma argminFrom_spec : forall l best ib i (d : Q) pre,
    List.length pre = i -> ib < i -> nth ib pre d = best ->
    (forall x, In x pre -> (best <= x)%Q) ->
    argminFrom best ib i l < i + List.length l /\
    (forall x, In x (pre ++ l) -> (nth (argminFrom best ib i l) (pre ++ l) d <= x)%Q).
  Proof.
    induction l as [|y l IH]; intros best ib i d pre L B N M; cbn [argminFrom].
    - rewrite app_nil_r. cbn. split; [lia|]. intros x I. rewrite N. now apply M.
    - assert (L' : List.length (pre ++ [y]) = S i) by (rewrite app_length; cbn; lia).
      replace (pre ++ y :: l) with ((pre ++ [y]) ++ l) by (now rewrite <- app_assoc).
      destruct (qlt y best) eqn:E.
      + apply qlt_iff in E.
        destruct (IH y i (S i) d (pre ++ [y]) L') as [A C].
        * lia.
        * rewrite app_nth2 by lia. replace (i - List.length pre) with 0 by lia. reflexivity.
        * intros x I. apply in_app_iff in I as [I|[<-|[]]]; [|lra].
          specialize (M x I). lra.
        * split; [cbn [List.length]; lia|exact C].
      + apply qlt_false_iff in E.
        destruct (IH best ib (S i) d (pre ++ [y]) L') as [A C].
        * lia.
        * rewrite app_nth1 by lia. exact N.
        * intros x I. apply in_app_iff in I as [I|[<-|[]]]; [now apply M|exact E].
        * split; [cbn [List.length]; lia|exact C].
  Qed.

  Lemma argmin_spec : forall l d, l <> [] ->
    argmin l < List.length l /\ forall x, In x l -> (nth (argmin l) l d <= x)%Q.
  Proof.
    intros [|x l] d N; [now elim N|]. cbn [argmin].
    destruct (argminFrom_spec l x 0 1 d [x]) as [A B].
    - reflexivity.
    - lia.
    - reflexivity.
    - intros y [<-|[]]. lra.
    - split; [cbn [List.length] in *; lia|exact B].
  Qed.

  (** A track falls west over Greenwich between two consecutive records. *)
  Definition drops (tr : list (obs R)) (k : nat) : Prop :=
    exists a b, nth_error tr k = Some a /\ nth_error tr (S k) = Some b /\
      (o_lon b - o_lon a < - inject_Z 180)%Q.

  Lemma nth_error_nth' : forall {A} (l : list A) k d, k < List.length l ->
    nth_error l k = Some (nth k l d).
  Proof.
    induction l as [|x l IH]; intros [|k] d H; cbn in *; try lia; [reflexivity|].
    apply IH. lia.
  Qed.

  Lemma diffs_drop : forall (tr : list (obs R)) k, k < List.length (diffs (map o_lon tr)) ->
    exists a b, nth_error tr k = Some a /\ nth_error tr (S k) = Some b /\
      nth k (diffs (map o_lon tr)) 0%Q = (o_lon b - o_lon a)%Q.
  Proof.
    intros tr k H. rewrite diffs_len, map_length in H.
    destruct (nth_error tr k) as [a|] eqn:A;
      [|apply nth_error_None in A; lia].
    destruct (nth_error tr (S k)) as [b|] eqn:B;
      [|apply nth_error_None in B; lia].
    exists a, b. repeat split.
    pose proof (diffs_nth (map o_lon tr) k (o_lon a) (o_lon b)
                  (map_nth_error o_lon _ _ A) (map_nth_error o_lon _ _ B)) as D.
    now apply nth_error_nth with (d := 0%Q) in D.
  Qed.

  Lemma dissolved_spec : forall tr : list (obs R),
    ((forall k, ~ drops tr k) -> dissolved tr = [map at_pos tr]) /\
    (forall k, drops tr k ->
       exists j, drops tr j /\
         dissolved tr = [map at_pos (firstn j tr); map at_pos (skipn (S j) tr)]).
  Proof.
    intros tr. unfold dissolved. split.
    - intros N. destruct (1 <? List.length tr) eqn:E; [|reflexivity].
      apply Nat.ltb_lt in E.
      destruct (qlt _ _) eqn:Q; [|reflexivity]. exfalso. apply qlt_iff in Q.
      destruct (argmin_spec (diffs (map o_lon tr)) 0%Q) as [L _].
      { intros Z. apply (f_equal (@List.length _)) in Z.
        rewrite diffs_len, map_length in Z. cbn in Z. lia. }
      destruct (diffs_drop tr _ L) as (a & b & A & B & D).
      apply (N (argmin (diffs (map o_lon tr)))). exists a, b.
      repeat split; try assumption. now rewrite <- D.
    - intros k (a & b & A & B & D).
      assert (G : S k < List.length tr) by (apply nth_error_Some; now rewrite B).
      destruct (1 <? List.length tr) eqn:E; [|apply Nat.ltb_ge in E; lia].
      destruct (argmin_spec (diffs (map o_lon tr)) 0%Q) as [L M].
      { intros Z. apply (f_equal (@List.length _)) in Z.
        rewrite diffs_len, map_length in Z. cbn in Z. lia. }
      destruct (diffs_drop tr _ L) as (a' & b' & A' & B' & D').
      assert (I : In (o_lon b - o_lon a)%Q (diffs (map o_lon tr))).
      { eapply nth_error_In. apply diffs_nth; apply map_nth_error; eassumption. }
      specialize (M _ I).
      assert (X : (nth (argmin (diffs (map o_lon tr))) (diffs (map o_lon tr)) 0 < - inject_Z 180)%Q)
        by lra.
      exists (argmin (diffs (map o_lon tr))). split.
      + exists a', b'. repeat split; try assumption. now rewrite <- D'.
      + apply qlt_iff in X. now rewrite X.
  Qed.

  Lemma fold_qmax : forall l a, In (fold_left qmax l a) (a :: l) /\
    forall x, In x (a :: l) -> (x <= fold_left qmax l a)%Q.
  Proof.
    induction l as [|y l IH]; intros a; cbn [fold_left].
    - split; [now left|]. intros x [<-|[]]. lra.
    - destruct (IH (qmax a y)) as [I M]. unfold qmax in *.
      destruct (qlt a y) eqn:E; [apply qlt_iff in E|apply qlt_false_iff in E].
      + split; [right; exact I|]. intros x [<-|H]; [|now apply M].
        specialize (M y (or_introl eq_refl)). lra.
      + split.
        * destruct I as [I|I]; [now left|right; now right].
        * intros x [<-|[<-|H]]; [apply M; now left| |apply M; now right].
          specialize (M a (or_introl eq_refl)). lra.
  Qed.

  Lemma fold_qmin : forall l a, In (fold_left qmin l a) (a :: l) /\
    forall x, In x (a :: l) -> (fold_left qmin l a <= x)%Q.
  Proof.
    induction l as [|y l IH]; intros a; cbn [fold_left].
    - split; [now left|]. intros x [<-|[]]. lra.
    - destruct (IH (qmin a y)) as [I M]. unfold qmin in *.
      destruct (qlt y a) eqn:E; [apply qlt_iff in E|apply qlt_false_iff in E].
      + split; [right; exact I|]. intros x [<-|H]; [|now apply M].
        specialize (M y (or_introl eq_refl)). lra.
      + split.
        * destruct I as [I|I]; [now left|right; now right].
        * intros x [<-|[<-|H]]; [apply M; now left| |apply M; now right].
          specialize (M a (or_introl eq_refl)). lra.
  Qed.
End Tracks.

(** Shapes with several parts. *)
Fixpoint starts (s : nat) (qs : list (list pos)) : list nat :=
  match qs with
  | [] => []
  | q :: qs' => s :: starts (s + List.length q) qs'
  end.
Definition shapeOf (qs : list (list pos)) : shape := mkShape (List.concat qs) (starts 0 qs).

Lemma removelast_firstn_len : forall {A} (l : list A), removelast l = firstn (List.length l - 1) l.
Proof.
  intros A. induction l as [|x l IH]; [reflexivity|]. destruct l as [|y l]; [reflexivity|].
  change (removelast (x :: y :: l)) with (x :: removelast (y :: l)).
  rewrite IH. cbn [List.length]. replace (S (S (List.length l)) - 1) with (S (S (List.length l) - 1)) by lia.
  reflexivity.
Qed.

Lemma slice_middle : forall {A} (pre q post : list A) k,
  k <= List.length q ->
  pyslice (List.length pre) (List.length pre + k) (pre ++ q ++ post) = firstn k q.
Proof.
  intros A pre q post k H. unfold pyslice.
  rewrite skipn_app, skipn_all, Nat.sub_diag. cbn [app skipn].
  replace (List.length pre + k - List.length pre) with k by lia.
  rewrite firstn_app. replace (k - List.length q) with 0 by lia.
  rewrite firstn_O. now rewrite app_nil_r.
Qed.

Lemma rebuild_spec : forall qs pre q,
  q <> [] -> Forall (fun p => p <> []) qs ->
  rebuild (pre ++ q ++ List.concat qs) (List.length pre)
          (starts (List.length pre + List.length q) qs)
  = map (@removelast _) (q :: qs).
Proof.
  induction qs as [|q' qs IH]; intros pre q N F; cbn [starts rebuild map List.concat].
  - f_equal. rewrite app_nil_r.
    assert (L : 1 <= List.length q) by (destruct q; [now elim N|cbn; lia]).
    rewrite app_length.
    replace (List.length pre + List.length q - 1)
      with (List.length pre + (List.length q - 1)) by lia.
    pose proof (slice_middle pre q [] (List.length q - 1)) as S. rewrite app_nil_r in S.
    rewrite S by lia. symmetry. apply removelast_firstn_len.
  - assert (L : 1 <= List.length q) by (destruct q; [now elim N|cbn; lia]).
    inversion F as [|? ? F1 F2]; subst.
    f_equal.
    + replace (List.length pre + List.length q - 1)
        with (List.length pre + (List.length q - 1)) by lia.
      rewrite slice_middle by lia. symmetry. apply removelast_firstn_len.
    + specialize (IH (pre ++ q) q' F1 F2). rewrite app_length in IH.
      rewrite <- app_assoc in IH. exact IH.
Qed.

Lemma outParts_many : forall qs, 1 < List.length qs -> Forall (fun p => p <> []) qs ->
  outParts (shapeOf qs) = map (@removelast _) qs.
Proof.
  intros [|q qs] L F; [cbn in L; lia|]. inversion F as [|? ? F1 F2]; subst.
  unfold outParts, shapeOf. cbn [s_points s_parts starts tl List.concat].
  assert (Z : List.length (starts (0 + List.length q) qs) = List.length qs).
  { clear. generalize (0 + List.length q). induction qs as [|x l IH]; intros n; cbn; [reflexivity|].
    now rewrite IH. }
  cbn [List.length] in *. rewrite Z.
  destruct (1 <? S (List.length qs)) eqn:E; [|apply Nat.ltb_ge in E; lia].
  exact (rebuild_spec qs [] q F1 F2).
Qed.

(** Dictionary assignment with distinct keys appends. *)
Lemma dset_fresh : forall {V} (d : list (nat * V)) k v, ~ In k (map fst d) ->
  dset k v d = d ++ [(k, v)].
Proof.
  intros V. induction d as [|[k' v'] d IH]; intros k v N; cbn in *; [reflexivity|].
  destruct (k =? k') eqn:E; [apply Nat.eqb_eq in E; subst; tauto|].
  rewrite IH by tauto. reflexivity.
Qed.

Lemma fold_dset : forall {V W} (f : W -> V) (l : list (nat * W)) d,
  NoDup (map fst d ++ map fst l) ->
  fold_left (fun d ks => dset (fst ks) (f (snd ks)) d) l d
  = d ++ map (fun ks => (fst ks, f (snd ks))) l.
Proof.
  intros V W f. induction l as [|[k w] l IH]; intros d N; cbn [fold_left map fst snd].
  - now rewrite app_nil_r.
  - cbn [map fst] in N. rewrite dset_fresh.
    + rewrite IH.
      * now rewrite <- app_assoc.
      * rewrite map_app. cbn [map fst]. now rewrite <- app_assoc.
    + intros I. apply NoDup_remove_2 in N. apply N. apply in_or_app. now left.
Qed.

Lemma indexOf_spec : forall names name,
  match indexOf name names with
  | Some i => nth_error names i = Some name
  | None => ~ In name names
  end.
Proof.
  induction names as [|n ns IH]; intros name; cbn [indexOf].
  - intros [].
  - destruct (String.eqb name n) eqn:E.
    + apply String.eqb_eq in E. now subst.
    + apply String.eqb_neq in E. specialize (IH name).
      destruct (indexOf name ns) as [i|]; cbn; [exact IH|].
      intros [X|X]; [now apply E|now apply IH].
Qed.

Lemma column_drop : forall {V} names (t : table V) name,
  column name (recdropfields names t)
  = if existsb (String.eqb name) names then None else column name t.
Proof.
  intros V names. induction t as [|[n c] t IH]; intros name.
  - cbn. now destruct (existsb _ _).
  - unfold recdropfields, column in *. cbn [filter fst find].
    destruct (existsb (String.eqb n) names) eqn:E; cbn [negb].
    + rewrite IH. destruct (existsb (String.eqb name) names) eqn:E2; [reflexivity|].
      destruct (String.eqb name n) eqn:E3; [|reflexivity].
      apply String.eqb_eq in E3. subst. congruence.
    + cbn [find fst]. destruct (String.eqb name n) eqn:E3.
      * apply String.eqb_eq in E3. subst. now rewrite E.
      * apply IH.
Qed.
