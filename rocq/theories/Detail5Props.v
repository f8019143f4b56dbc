(** C83: the size and closed isobar of generated cyclones follow the published regressions. *)
From Coq Require Import QArith Qabs Qround Lqa Lia List.
From Verif Require Import Base SplitModel CellModel CellProofs SampModel GenModel GenProofs GenProps GenProps2.
Import ListNotations.
Open Scope Q_scope.

(** The radius at every point is the exponential of 4.22 - 0.0198 dp + 0.0023 |lat| + one deviate. *)
Theorem c83_radius : forall (G NG : Type) (w : world G NG) fuel year a st e t st', (forall x y, x == y -> w_exp w x = w_exp w y) ->
  attempt w fuel year a st = GOk (e, Some t, st') -> given (i_rmax a) = None ->
  exists eps env pres p l, e = Some env /\ t = p :: l /\ p_pres p = Some pres /\
    p_rmax p = Some (w_exp w (4.22 - 0.0198 * (env - pres) + 0.0023 * Qabs (p_lat p) + eps)) /\
    forall q, In q l -> p_rmax q = match p_poci q, p_pres q with
      | Some o, Some c => Some (w_exp w (4.22 - 0.0198 * (o - c) + 0.0023 * Qabs (p_lat q) + eps))
      | _, _ => None end.
Proof.
  intros G NG w fuel year a st e t st' X H I. destruct (c83_one_size_deviate G NG w fuel year a st e t st' H I) as (eps & env & pres & p & l & E & T & P & _ & R & F).
  exists eps, env, pres, p, l. split; [exact E|]. split; [exact T|]. split; [exact P|]. split.
  - rewrite R. unfold trackRmax. f_equal. apply X. lra.
  - intros q Q. rewrite Forall_forall in F. rewrite (F q Q). unfold osub. destruct (p_poci q) as [o|]; [|reflexivity].
    destruct (p_pres q) as [c|]; [|reflexivity]. cbn [trackRmax]. f_equal. apply X. lra.
Qed.
(** The pressure of the closed isobar is missing for a missing central pressure and for one above the environment, else
    the published regression. *)
Theorem c83_closed_isobar : forall (G NG : Type) (w : world G NG) penv pc lat jday eps,
  match getPoci w penv pc lat jday eps with
  | None => forall p, pc = Some p -> penv < p \/ p == 9223372036854775807
  | Some o => exists p, pc = Some p /\ p <= penv /\
      o == 2324.1564738613392 - 0.6539853183796136 * penv - 1.3984456535888878 * p + 0.00074072928008818927 * (p * p)
           + 0.0044469231429346088 * (lat * lat) - 1.4337623534206905 * w_cos w jday + eps
  end.
Proof.
  intros G NG w penv pc lat jday eps. unfold getPoci. destruct pc as [p|]; [|discriminate].
  destruct (qlt penv p) eqn:L; [intros ? [= <-]; left; now apply qlt_iff|].
  destruct (Qeq_bool p missing) eqn:M; [intros ? [= <-]; right; now apply Qeq_bool_iff in M|].
  exists p. split; [reflexivity|]. split; [apply Qnot_lt_le; intros C; apply qlt_iff in C; congruence|].
  unfold lowest. rewrite Qred_correct. ring.
Qed.
Example c83_radius_met : (forall x y, x == y -> w_exp w0 x = w_exp w0 y) /\ given (i_rmax noInits) = None /\
  match attempt w0 50 2000 noInits st0 with GOk (_, Some t, _) => (2 <= length t)%nat | _ => False end.
Proof.
  split; [|split; [reflexivity|vm_compute; lia]]. intros x y E. cbn [w0 tw w_exp]. unfold f.
  assert (C1 : Qceiling (-4 * x) = Qceiling (-4 * y)) by (now rewrite E). assert (C2 : Qceiling (100 * x) = Qceiling (100 * y)) by (now rewrite E).
  assert (B : Qle_bool x 0 = Qle_bool y 0) by (now rewrite E). now rewrite C1, C2, B.
Qed.
Print Assumptions c83_radius.
Print Assumptions c83_closed_isobar.
