(** Precipitation subcolumns: properties C08 (precipitation part) - C13. *)
From Verif Require Import Gen_Model Spec_Common Gen_Spec Strat_Corol Precip_Corol Witness.
Local Open Scope nat_scope.

(** C09. *)
Theorem C09_precip_count :
  forall m is_conv rad sch thr dr N T H hs F Qv ci cl,
  precip_ready m is_conv rad N T H hs F Qv ci cl -> good_sched sch -> draws_ok dr ->
  exists m' G, set_precip is_conv None rad sch hs thr dr m = (Ok tt, m') /\
    forall h, In h hs -> flags m' (frac_out is_conv h) (G h) /\
    forall t j k, t < T -> S j < H ->
      requested rad thr (at2 0%Q (Qv h) t j) (at2 0%Q (F h) t j) N k ->
      Z.of_nat (occ (at2 [] (G h) t j)) = k.
Proof. exact precip_count. Qed.
Print Assumptions C09_precip_count.

Example C09_witness :
  precip_ready w_ms false true 4 2 3 ["pl"; "pi"]%string (pick w_f2 w_f1) (pick w_q w_q)
    (w_flags w_ms "strat_frac_subcolumns_ci") (w_flags w_ms "strat_frac_subcolumns_cl") /\
  good_sched (Parallel (Some 1%Z)) /\ draws_ok w_dr /\
  w_flags (snd (set_precip false None true (Parallel (Some 1%Z)) ["pl"; "pi"]%string (1#1000)%Q w_dr w_ms)) "strat_frac_subcolumns_pi" <> [].
Proof.
  split; [exact w_precip_ready|]. split; [simpl; discriminate|]. split; [exact w_draws_ok|]. vm_compute; discriminate.
Qed.

(** C10. *)
Theorem C10_precip_nested :
  forall m is_conv rad sch thr dr N T H hs F Qv ci cl,
  precip_ready m is_conv rad N T H hs F Qv ci cl -> good_sched sch -> draws_ok dr ->
  exists m' G, set_precip is_conv None rad sch hs thr dr m = (Ok tt, m') /\
    (forall h, In h hs -> flags m' (frac_out is_conv h) (G h)) /\
    forall h1 h2 t j k1 k2, In h1 hs -> In h2 hs -> t < T -> j < H ->
      requested rad thr (at2 0%Q (Qv h1) t j) (at2 0%Q (F h1) t j) N k1 ->
      requested rad thr (at2 0%Q (Qv h2) t j) (at2 0%Q (F h2) t j) N k2 ->
      (k1 <= k2)%Z -> subset (at2 [] (G h1) t j) (at2 [] (G h2) t j).
Proof. exact precip_nested. Qed.
Print Assumptions C10_precip_nested.

(** C11, for every class (hence for the one with the largest count). *)
Theorem C11_precip_continues :
  forall m is_conv rad sch thr dr N T H hs F Qv ci cl,
  precip_ready m is_conv rad N T H hs F Qv ci cl -> good_sched sch -> draws_ok dr ->
  exists m' G, set_precip is_conv None rad sch hs thr dr m = (Ok tt, m') /\
    (forall h, In h hs -> flags m' (frac_out is_conv h) (G h)) /\
    let rains t j i := exists h, In h hs /\ flagged (at2 [] (G h) t j) i in
    forall h t j k n, In h hs -> t < T -> S j < H ->
      requested rad thr (at2 0%Q (Qv h) t j) (at2 0%Q (F h) t j) N k ->
      number_of (rains t (S j)) n ->
      number_of (fun i => flagged (at2 [] (G h) t j) i /\ rains t (S j) i) (Z.to_nat (Z.min k (Z.of_nat n))).
Proof. exact precip_overlying. Qed.
Print Assumptions C11_precip_continues.

(** C12, for every class. *)
Theorem C12_precip_cloudy_first :
  forall m is_conv rad sch thr dr N T H hs F Qv ci cl,
  precip_ready m is_conv rad N T H hs F Qv ci cl -> good_sched sch -> draws_ok dr ->
  exists m' G, set_precip is_conv None rad sch hs thr dr m = (Ok tt, m') /\
    (forall h, In h hs -> flags m' (frac_out is_conv h) (G h)) /\
    let rains t j i := exists h, In h hs /\ flagged (at2 [] (G h) t j) i in
    let cloudy t j i := flagged (at2 [] ci t j) i \/ flagged (at2 [] cl t j) i in
    forall h t j i, In h hs -> t < T -> S j < H ->
      flagged (at2 [] (G h) t j) i -> ~ cloudy t j i -> ~ rains t (S j) i ->
      forall i', cloudy t j i' \/ rains t (S j) i' -> flagged (at2 [] (G h) t j) i'.
Proof. exact precip_cloudy_first. Qed.
Print Assumptions C12_precip_cloudy_first.

(** C08 (precipitation part). *)
Theorem C08_precip_top_empty :
  forall m is_conv rad sch thr dr N T H hs F Qv ci cl,
  precip_ready m is_conv rad N T H hs F Qv ci cl -> good_sched sch -> draws_ok dr ->
  exists m' G, set_precip is_conv None rad sch hs thr dr m = (Ok tt, m') /\
    dim_sub m' = Some N /\ unchanged_except (map (frac_out is_conv) hs) m m' /\
    forall h, In h hs -> flags m' (frac_out is_conv h) (G h) /\ shape3 T H N (G h) /\
      forall t j i, t < T -> S j = H -> ~ flagged (at2 [] (G h) t j) i.
Proof. exact precip_top. Qed.
Print Assumptions C08_precip_top_empty.

(** C13 (precipitation part). *)
Theorem C13_precip_schedule :
  forall m is_conv Ncol rad s1 s2 hs thr dr, good_sched s1 -> good_sched s2 ->
  set_precip is_conv Ncol rad s1 hs thr dr m = set_precip is_conv Ncol rad s2 hs thr dr m.
Proof. exact precip_schedule. Qed.
Print Assumptions C13_precip_schedule.
