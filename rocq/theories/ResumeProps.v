(** C09, C62, C63: interrupted and resumed wind field runs. *)
From Verif Require Import Base ResumeModel ResumeProofs.

(** C09, except for one crash window: tracks with different file names, a configured domain,
    any number of runs interrupted anywhere but between the creation of the variable 'slp' and
    the write of its data, starting from any disk on which files that look complete hold their
    track's data. When a run completes, every track's file holds all its data. *)
Theorem c09_resume_partial :
  forall (N V T D : Type) (N_eq : forall a b : N, {a = b} + {a <> b}) (name : T -> N)
    (config_domain : option D) (domain_of : T -> D) (field : D -> T -> var -> V) (multipliers : bool)
    (tracks : list T) (dm : D),
  config_domain = Some dm -> NoDup (map name tracks) ->
  forall (d0 : disk N V T D) (s : st N V T D),
  (forall t, In t tracks -> complete d0 (name t) = true -> has_data N V T D name field d0 dm t) ->
  history N V T D N_eq name config_domain domain_of field multipliers tracks
    (fun s => ~ slp_unwritten s) d0 s ->
  finished s ->
  forall t, In t tracks -> has_data N V T D name field (dsk s) dm t.
Proof. exact resume_ok. Qed.
Print Assumptions c09_resume_partial.

(** C09: every uninterrupted run ends. *)
Theorem c09_run_ends :
  forall (N V T D : Type) (N_eq : forall a b : N, {a = b} + {a <> b}) (name : T -> N)
    (config_domain : option D) (domain_of : T -> D) (field : D -> T -> var -> V) (multipliers : bool)
    (tracks : list T) (d : disk N V T D) n s,
  nsteps N V T D N_eq name domain_of field multipliers n (start config_domain tracks d) s ->
  (n <= 16 * length tracks)%nat /\
  (finished s \/ exists s', step N_eq name domain_of field multipliers s s').
Proof.
  exact (fun N V T D e nm c dof f m tr d n s H =>
    conj (run_bounded N V T D e nm c dof f m tr d n s H) (run_progress N V T D e nm dof f m s)).
Qed.
Print Assumptions c09_run_ends.

(** C09: a file recognised as complete when a run looks at it is never written again. *)
Theorem c09_complete_files_untouched :
  forall (N V T D : Type) (N_eq : forall a b : N, {a = b} + {a <> b}) (name : T -> N)
    (config_domain : option D) (domain_of : T -> D) (field : D -> T -> var -> V) (multipliers : bool)
    (tracks : list T) (s s' : st N V T D) (n : N),
  ops s = [] -> complete (dsk s) n = true ->
  later N V T D N_eq name config_domain domain_of field multipliers tracks s s' ->
  gust (dsk s') n = gust (dsk s) n.
Proof. exact not_rewritten. Qed.
Print Assumptions c09_complete_files_untouched.

Definition no_files {T D : Type} : disk nat nat T D := {| gust := fun _ => None; local_wind := None |}.
Definition ex_start (c : option nat) (tr : list nat) := @start nat nat nat nat c tr no_files.
Definition ex_run (m : bool) := stepf nat nat nat nat Nat.eq_dec (fun t => t) (fun t => t) (fun dm t _ => 100 * dm + t) m.
Definition ex_history c m tr := history nat nat nat nat Nat.eq_dec (fun t => t) c (fun t => t) (fun dm t _ => 100 * dm + t) m tr.
Definition ex_data := has_data nat nat nat nat (fun t => t) (fun dm t _ => 100 * dm + t).

(** The hypotheses are met: a run over two tracks interrupted in the middle of the first file,
    then completed. *)
Example c09_example : exists s,
  ex_history (Some 7) false [1; 2] (fun s => ~ slp_unwritten s) no_files s /\ finished s /\ ex_data (dsk s) 7 2.
Proof.
  set (s1 := Nat.iter 9 (ex_run false) (ex_start (Some 7) [1; 2])).
  exists (Nat.iter 40 (ex_run false) (crash (Some 7) [1; 2] s1)).
  split; [|split].
  - apply iter_history. apply Hcrash; [apply iter_history, Hstart|].
    intros (dm & t & os & E). vm_compute in E. discriminate.
  - vm_compute. auto.
  - eexists. split; [vm_compute; reflexivity|].
    intros v Hv. cbn in Hv. repeat (destruct Hv as [<-|Hv]; [vm_compute; reflexivity|]). destruct Hv.
Qed.

(** C09 refuted for a crash in that window: one track, one interrupted run, then a completed
    run; the file's pressure was never written. *)
Theorem c09_refuted : exists s,
  ex_history (Some 7) false [1] (fun _ => True) no_files s /\ finished s /\ ~ ex_data (dsk s) 7 1.
Proof.
  set (s1 := Nat.iter 13 (ex_run false) (ex_start (Some 7) [1])).
  exists (Nat.iter 40 (ex_run false) (crash (Some 7) [1] s1)).
  split; [|split].
  - apply iter_history. apply Hcrash; [apply iter_history, Hstart|exact I].
  - vm_compute. auto.
  - intros (f & E & H). specialize (H Vslp). vm_compute in E. injection E as <-.
    specialize (H ltac:(cbn; auto 8)). vm_compute in H. discriminate.
Qed.
Print Assumptions c09_refuted.

(** C62: with a configured region all completed histories end with the same data. *)
Theorem c62_same_files_partial :
  forall (N V T D : Type) (N_eq : forall a b : N, {a = b} + {a <> b}) (name : T -> N)
    (domain_of : T -> D) (field : D -> T -> var -> V) (multipliers : bool)
    (tracks : list T) (dm : D), NoDup (map name tracks) ->
  let ok := fun s => ~ slp_unwritten s in
  let hist := history N V T D N_eq name (Some dm) domain_of field multipliers tracks ok in
  forall (d0 : disk N V T D) (s s' : st N V T D), (forall n, gust d0 n = None) ->
  hist d0 s -> finished s -> hist d0 s' -> finished s' ->
  forall t v, In t tracks -> In v [Vlat; Vlon; Vvmax; Vua; Vva; Vslp] ->
  exists f f', gust (dsk s) (name t) = Some f /\ gust (dsk s') (name t) = Some f' /\
    filter (fun e => var_eqb (fst e) v) f = filter (fun e => var_eqb (fst e) v) f'.
Proof.
  intros N V T D N_eq name domain_of field multipliers tracks dm Hn ok hist d0 s s' H0 H1 F1 H2 F2 t v Ht Hv.
  assert (K : forall s, hist d0 s -> finished s -> has_data N V T D name field (dsk s) dm t).
  { intros x Hx Fx. eapply resume_ok; eauto. intros t' _ Hc. unfold complete in Hc. rewrite H0 in Hc. discriminate. }
  destruct (K s H1 F1) as (f & E & G). destruct (K s' H2 F2) as (f' & E' & G').
  exists f, f'. split; [exact E|]. split; [exact E'|]. now rewrite G, G'.
Qed.
Print Assumptions c62_same_files_partial.

(** C62 refuted without a configured region: the interrupted history gives the second track
    its own domain, the uninterrupted one the domain of the first. *)
Theorem c62_refuted : exists s s',
  ex_history None false [1; 2] (fun s => ops s = []) no_files s /\ finished s /\
  ex_history None false [1; 2] (fun s => ops s = []) no_files s' /\ finished s' /\
  ex_data (dsk s) 1 2 /\ ex_data (dsk s') 2 2 /\ ~ ex_data (dsk s') 1 2.
Proof.
  set (s1 := Nat.iter 15 (ex_run false) (ex_start None [1; 2])).
  exists (Nat.iter 40 (ex_run false) (ex_start None [1; 2])).
  exists (Nat.iter 40 (ex_run false) (crash None [1; 2] s1)).
  split; [apply iter_history, Hstart|]. split; [vm_compute; auto|].
  split; [apply iter_history; apply Hcrash; [apply iter_history, Hstart|vm_compute; reflexivity]|].
  split; [vm_compute; auto|]. split; [|split].
  - eexists. split; [vm_compute; reflexivity|].
    intros v Hv. cbn in Hv. repeat (destruct Hv as [<-|Hv]; [vm_compute; reflexivity|]). destruct Hv.
  - eexists. split; [vm_compute; reflexivity|].
    intros v Hv. cbn in Hv. repeat (destruct Hv as [<-|Hv]; [vm_compute; reflexivity|]). destruct Hv.
  - intros (f & E & H). specialize (H Vslp). vm_compute in E. injection E as <-.
    specialize (H ltac:(cbn; auto 8)). vm_compute in H. discriminate.
Qed.
Print Assumptions c62_refuted.

(** C63 refuted: after an uninterrupted run over two tracks only the last track's local wind
    field is on the disk; and after a crash between saving a track's gusts and its local wind
    field, no completed run produces the latter. *)
Theorem c63_refuted :
  (exists s, ex_history (Some 7) true [1; 2] (fun _ => False) no_files s /\ finished s /\
     local_wind (dsk s) = Some (7, 2)) /\
  (exists s, ex_history (Some 7) true [1] (fun s => ~ slp_unwritten s) no_files s /\ finished s /\
     local_wind (dsk s) = None).
Proof.
  split.
  - exists (Nat.iter 40 (ex_run true) (ex_start (Some 7) [1; 2])).
    split; [apply iter_history, Hstart|]. vm_compute. auto.
  - set (s1 := Nat.iter 15 (ex_run true) (ex_start (Some 7) [1])).
    exists (Nat.iter 40 (ex_run true) (crash (Some 7) [1] s1)).
    split; [|vm_compute; auto].
    apply iter_history. apply Hcrash; [apply iter_history, Hstart|].
    intros (dm & t & os & E). vm_compute in E. discriminate.
Qed.
Print Assumptions c63_refuted.
