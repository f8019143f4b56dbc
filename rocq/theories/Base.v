(** Shared library lemmas: a Permutation solver, function update, sums. *)
From Coq Require Export List Arith ZArith Lia Bool Permutation.
From Coq Require Import Sorting.Mergesort.
From Coq Require Export ZifyBool ZifyNat.
Export ListNotations.

(** ** A reflective solver for [Permutation] goals built from [++], [::], [nil]. *)
Section PermReflect.
  Context {A : Type}.
  Inductive pexp := PNil | PAtom (n : nat) | PApp (a b : pexp).
  Fixpoint pden (env : list (list A)) (e : pexp) : list A :=
    match e with
    | PNil => []
    | PAtom n => nth n env []
    | PApp a b => pden env a ++ pden env b
    end.
  Fixpoint pflat (e : pexp) : list nat :=
    match e with
    | PNil => []
    | PAtom n => [n]
    | PApp a b => pflat a ++ pflat b
    end.
  Lemma pflat_ok env e : pden env e = concat (map (fun n => nth n env []) (pflat e)).
  Proof.
    induction e as [|n|a IHa b IHb]; simpl.
    - reflexivity.
    - now rewrite app_nil_r.
    - now rewrite map_app, concat_app, IHa, IHb.
  Qed.
  Lemma concat_map_perm (env : list (list A)) l1 l2 :
    Permutation l1 l2 ->
    Permutation (concat (map (fun n => nth n env []) l1))
                (concat (map (fun n => nth n env []) l2)).
  Proof.
    induction 1 as [|x l l' _ IH|x y l|l l' l'' _ IH1 _ IH2]; simpl.
    - constructor.
    - now apply Permutation_app_head.
    - rewrite !app_assoc. apply Permutation_app_tail, Permutation_app_comm.
    - now transitivity (concat (map (fun n => nth n env []) l')).
  Qed.
  Fixpoint leqb (l1 l2 : list nat) : bool :=
    match l1, l2 with
    | [], [] => true
    | x :: a, y :: b => Nat.eqb x y && leqb a b
    | _, _ => false
    end.
  Lemma leqb_ok l1 : forall l2, leqb l1 l2 = true -> l1 = l2.
  Proof.
    induction l1 as [|x l1 IH]; intros [|y l2] H; simpl in H; try discriminate; auto.
    apply andb_prop in H as [H1 H2]. apply Nat.eqb_eq in H1. subst. f_equal; auto.
  Qed.
  Lemma perm_reflect env e1 e2 :
    leqb (NatSort.sort (pflat e1)) (NatSort.sort (pflat e2)) = true ->
    Permutation (pden env e1) (pden env e2).
  Proof.
    intros H. apply leqb_ok in H. rewrite !pflat_ok. apply concat_map_perm.
    rewrite (NatSort.Permuted_sort (pflat e1)), H. symmetry. apply NatSort.Permuted_sort.
  Qed.
End PermReflect.

Ltac p_in x l :=
  lazymatch l with
  | nil => constr:(false)
  | x :: _ => constr:(true)
  | _ :: ?t => p_in x t
  end.
Ltac p_add x l := let b := p_in x l in
  lazymatch b with true => l | false => constr:(x :: l) end.
Ltac p_atoms e l :=
  lazymatch e with
  | nil => l
  | ?a ++ ?b => let l := p_atoms a l in p_atoms b l
  | ?x :: nil => p_add e l
  | ?x :: ?t => let T := type of x in let l := p_add (@cons T x nil) l in p_atoms t l
  | _ => p_add e l
  end.
Ltac p_idx x l :=
  lazymatch l with
  | x :: _ => constr:(O)
  | _ :: ?t => let n := p_idx x t in constr:(S n)
  end.
Ltac p_reify e l :=
  lazymatch e with
  | nil => constr:(PNil)
  | ?a ++ ?b => let a := p_reify a l in let b := p_reify b l in constr:(PApp a b)
  | ?x :: nil => let n := p_idx e l in constr:(PAtom n)
  | ?x :: ?t => let T := type of x in
                let n := p_idx (@cons T x nil) l in
                let t := p_reify t l in constr:(PApp (PAtom n) t)
  | _ => let n := p_idx e l in constr:(PAtom n)
  end.
Ltac perm_solve :=
  lazymatch goal with
  | |- @Permutation ?A ?a ?b =>
      let l := p_atoms a (@nil (list A)) in
      let l := p_atoms b l in
      let ra := p_reify a l in
      let rb := p_reify b l in
      change (Permutation (pden l ra) (pden l rb));
      apply perm_reflect; vm_compute; reflexivity
  end.

Goal forall (A : Type) (x y : A) l1 l2 l3,
    Permutation (x :: l1 ++ y :: l2 ++ l3) (l3 ++ [y] ++ l2 ++ l1 ++ [x]).
Proof. intros. perm_solve. Qed.

(** ** Function update at a natural index. *)
Definition upd {A} (f : nat -> A) (i : nat) (v : A) : nat -> A :=
  fun j => if Nat.eqb j i then v else f j.
Lemma upd_same {A} (f : nat -> A) i v : upd f i v i = v.
Proof. unfold upd. now rewrite Nat.eqb_refl. Qed.
Lemma upd_other {A} (f : nat -> A) i j v : j <> i -> upd f i v j = f j.
Proof. unfold upd. intros H. apply Nat.eqb_neq in H. now rewrite H. Qed.

Lemma flat_map_upd_split {A} (f : nat -> list A) n i :
  1 <= i <= n ->
  exists rest, Permutation (flat_map f (seq 1 n)) (f i ++ rest) /\
    forall v, Permutation (flat_map (upd f i v) (seq 1 n)) (v ++ rest).
Proof.
  intros Hi.
  assert (Hseq : seq 1 n = seq 1 (i-1) ++ i :: seq (S i) (n - i)).
  { replace n with ((i-1) + S (n - i)) at 1 by lia.
    rewrite seq_app. cbn [seq]. replace (1 + (i-1)) with i by lia. reflexivity. }
  rewrite Hseq.
  exists (flat_map f (seq 1 (i-1)) ++ flat_map f (seq (S i) (n-i))).
  assert (Hext : forall v a m, (a + m <= i \/ i < a) ->
            flat_map (upd f i v) (seq a m) = flat_map f (seq a m)).
  { intros v a m Ham. rewrite !flat_map_concat_map. f_equal. apply map_ext_in.
    intros x Hx. apply in_seq in Hx. apply upd_other. lia. }
  split.
  - rewrite flat_map_app. cbn [flat_map]. perm_solve.
  - intros v. rewrite flat_map_app. cbn [flat_map].
    rewrite !Hext, upd_same by lia. perm_solve.
Qed.

Definition sumf (f : nat -> nat) (l : list nat) : nat := list_sum (map f l).
Lemma sumf_app f a b : sumf f (a ++ b) = sumf f a + sumf f b.
Proof. unfold sumf. now rewrite map_app, list_sum_app. Qed.
Lemma sumf_ext f g l : (forall x, In x l -> f x = g x) -> sumf f l = sumf g l.
Proof. unfold sumf. intros H. f_equal. now apply map_ext_in. Qed.
Lemma sumf_one f n i : 1 <= i <= n ->
  forall g, (forall j, j <> i -> g j = f j) ->
  sumf g (seq 1 n) + f i = sumf f (seq 1 n) + g i.
Proof.
  intros Hi g Hg.
  assert (Hseq : seq 1 n = seq 1 (i-1) ++ i :: seq (S i) (n - i)).
  { replace n with ((i-1) + S (n - i)) at 1 by lia.
    rewrite seq_app. cbn [seq]. replace (1 + (i-1)) with i by lia. reflexivity. }
  rewrite Hseq, !sumf_app.
  rewrite (sumf_ext g f (seq 1 (i-1))) by (intros x Hx; apply in_seq in Hx; apply Hg; lia).
  unfold sumf at 2 4. cbn [map list_sum fold_right].
  change (fold_right Nat.add 0 (map g (seq (S i) (n-i)))) with (sumf g (seq (S i) (n-i))).
  change (fold_right Nat.add 0 (map f (seq (S i) (n-i)))) with (sumf f (seq (S i) (n-i))).
  rewrite (sumf_ext g f (seq (S i) (n-i))) by (intros x Hx; apply in_seq in Hx; apply Hg; lia).
  lia.
Qed.
Lemma sumf_zero f l : (forall x, In x l -> f x = 0) -> sumf f l = 0.
Proof.
  unfold sumf. induction l as [|a l IH]; intros H; cbn; auto.
  rewrite H by (left; auto). apply IH. intros; apply H; now right.
Qed.
Lemma sumf_pos f l : 0 < sumf f l -> exists x, In x l /\ 0 < f x.
Proof.
  unfold sumf. induction l as [|a l IH]; cbn; [lia|]. intros H.
  destruct (Nat.eq_dec (f a) 0) as [E|E].
  - destruct IH as [x [Hx Hf]]; [unfold list_sum; lia|]. exists x; auto.
  - exists a; split; [now left|lia].
Qed.
Lemma sumf_le_zero f l : sumf f l = 0 -> forall x, In x l -> f x = 0.
Proof.
  unfold sumf. induction l as [|a l IH]; cbn; [tauto|]. intros H x [<-|Hx]; [lia|].
  apply IH; auto. unfold list_sum; lia.
Qed.

(** ** Relations: reflexive transitive closure, reachable states. *)
Inductive star {S} (step : S -> S -> Prop) : S -> S -> Prop :=
| star_refl s : star step s s
| star_step s t u : star step s t -> step t u -> star step s u.
Lemma star_inv {S} (step : S -> S -> Prop) (I : S -> Prop) s0 s :
  I s0 -> (forall s t, I s -> step s t -> I t) -> star step s0 s -> I s.
Proof. intros H0 Hs Hst. induction Hst; eauto. Qed.
