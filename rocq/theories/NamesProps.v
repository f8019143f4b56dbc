(** C03, C10: gust file names and annual maxima. *)
From Coq Require Import Ascii String Decimal DecimalNat QArith.
From Verif Require Import Base NamesModel NamesProofs.
Close Scope Q_scope. Close Scope string_scope. Open Scope list_scope.

(** C10: both parts of the identifier are recovered from the name by the database loader;
    hence different identifiers give different names. *)
Theorem c10_identifier_recovered : forall id, event_id (gust_name id) = Some id.
Proof. exact event_id_gust. Qed.
Print Assumptions c10_identifier_recovered.

Theorem c10_names_distinct : forall a b, gust_name a = gust_name b -> a = b.
Proof. exact gust_name_inj. Qed.
Print Assumptions c10_names_distinct.

Example c10_example :
  gust_name (7, 123) = lit "gust.007-00123.nc" /\ gust_name (1234, 5) = lit "gust.1234-00005.nc" /\
  event_id (lit "gust.1234-00005.nc") = Some (1234, 5).
Proof. vm_compute. auto. Qed.

(** C03: for every set of events and every order in which the directory lists their files,
    the aggregation returns one value per year 0..n-1: the largest gust of the events of that
    year, or zero without events. *)
Theorem c03_annual_maxima : forall (events : list ((nat * nat) * Q)) (d : dir) (n : nat),
  Permutation d (map (fun e => (gust_name (fst e), Some (snd e))) events) ->
  exists r, annual_maxima d n = Some r /\ length r = n /\
    forall y, (y < n)%nat -> exists m, nth_error r y = Some m /\
      let gusts := map snd (filter (fun e => snd (fst e) =? y) events) in
      (gusts = [] /\ m = 0%Q) \/
      ((exists v, In v gusts /\ m = v) /\ forall v, In v gusts -> (v <= m)%Q).
Proof. exact c03_l. Qed.
Print Assumptions c03_annual_maxima.

(** C03: the value of a year is determined by the events alone. *)
Theorem c03_order_independent : forall events y m m',
  year_value events y m -> year_value events y m' -> (m == m')%Q.
Proof. exact year_value_unique. Qed.
Print Assumptions c03_order_independent.

Example c03_example :
  annual_maxima [(lit "gust.001-00002.nc", Some 30%Q); (lit "gust.000-00000.nc", Some 12%Q);
                 (lit "gust.000-00002.nc", Some 41%Q)] 3 = Some [12%Q; 0%Q; 41%Q].
Proof. vm_compute. reflexivity. Qed.
