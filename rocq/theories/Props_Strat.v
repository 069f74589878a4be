(** Stratiform subcolumns: properties C04-C08, C13 and C49. *)
From Verif Require Import Gen_Model Spec_Common Gen_Spec Strat_Corol Strat_Refuted Witness.
Local Open Scope nat_scope.

(** C04. *)
Theorem C04_stratiform_nested :
  forall m Ncol rad sch thr dr N T H F Qv,
  strat_ready m Ncol rad N T H F Qv -> good_sched sch -> draws_ok dr ->
  exists m' gl gi, set_stratiform Ncol rad sch thr dr m = (Ok tt, m') /\
    flags m' "strat_frac_subcolumns_cl" gl /\ flags m' "strat_frac_subcolumns_ci" gi /\
    shape3 T H N gl /\ shape3 T H N gi /\
    forall t j, t < T -> j < H -> forall kl ki,
      requested rad thr (at2 0%Q (Qv "cl"%string) t j) (at2 0%Q (F "cl"%string) t j) N kl ->
      requested rad thr (at2 0%Q (Qv "ci"%string) t j) (at2 0%Q (F "ci"%string) t j) N ki ->
      ((kl <= ki)%Z -> subset (at2 [] gl t j) (at2 [] gi t j)) /\
      ((ki <= kl)%Z -> subset (at2 [] gi t j) (at2 [] gl t j)).
Proof. exact strat_nested. Qed.
Print Assumptions C04_stratiform_nested.

(** Hypotheses of all theorems of this file: with convection, and without
    convection under radiation logic. *)
Example C04_witness :
  (strat_ready w_mc None false 4 2 3 (pick w_f1 w_f2) (pick w_q w_q) /\ good_sched (Parallel (Some 2%Z)) /\ draws_ok w_dr /\
   flags (snd (set_stratiform None false (Parallel (Some 2%Z)) 0%Q w_dr w_mc)) "strat_frac_subcolumns_cl"
     [[[false; false; true; true]; [false; false; false; true]; [false; false; false; false]];
      [[false; true; true; true]; [false; false; true; true]; [false; false; false; false]]]) /\
  strat_ready (w_m false) (Some 4) true 4 2 3 (pick w_f2 w_f1) (pick w_q w_q).
Proof.
  split; [|exact w_strat_ready_noconv]. split; [exact w_strat_ready|]. split; [simpl; discriminate|].
  split; [exact w_draws_ok|]. vm_compute; reflexivity.
Qed.

(** C05: [round (fraction * N)] subcolumns, capped by the convection-free
    ones - except where the type is alone at its level below subcolumns that
    hold both types, or where both types are overcast. *)
Theorem C05_stratiform_count_partial :
  forall m Ncol rad sch thr dr N T H F Qv,
  strat_ready m Ncol rad N T H F Qv -> good_sched sch -> draws_ok dr ->
  exists m' gl gi, set_stratiform Ncol rad sch thr dr m = (Ok tt, m') /\
    flags m' "strat_frac_subcolumns_cl" gl /\ flags m' "strat_frac_subcolumns_ci" gi /\
    forall t j, t < T -> S j < H -> forall kl ki a,
      requested rad thr (at2 0%Q (Qv "cl"%string) t j) (at2 0%Q (F "cl"%string) t j) N kl ->
      requested rad thr (at2 0%Q (Qv "ci"%string) t j) (at2 0%Q (F "ci"%string) t j) N ki ->
      number_of (fun i => i < N /\ ~ convective m t j i) a ->
      ~ (kl = Z.of_nat N /\ ki = Z.of_nat N) ->
      ((0 < ki)%Z \/ (forall i, ~ (flagged (at2 [] gl t (S j)) i /\ flagged (at2 [] gi t (S j)) i /\ ~ convective m t j i)) ->
         Z.of_nat (occ (at2 [] gl t j)) = Z.min kl (Z.of_nat a)) /\
      ((0 < kl)%Z \/ (forall i, ~ (flagged (at2 [] gl t (S j)) i /\ flagged (at2 [] gi t (S j)) i /\ ~ convective m t j i)) ->
         Z.of_nat (occ (at2 [] gi t j)) = Z.min ki (Z.of_nat a)).
Proof. exact strat_count_ok. Qed.
Print Assumptions C05_stratiform_count_partial.

(** The full C05 is false of the code: liquid alone at a level, below
    subcolumns that hold both types, is given fewer subcolumns. *)
Theorem C05_stratiform_count_refuted :
  exists m Ncol rad sch thr dr N T H F Qv m' gl t j kl a,
  strat_ready m Ncol rad N T H F Qv /\ good_sched sch /\ draws_ok dr /\
  set_stratiform Ncol rad sch thr dr m = (Ok tt, m') /\ flags m' "strat_frac_subcolumns_cl" gl /\
  t < T /\ S j < H /\ requested rad thr (at2 0%Q (Qv "cl"%string) t j) (at2 0%Q (F "cl"%string) t j) N kl /\
  number_of (fun i => i < N /\ ~ convective m t j i) a /\
  (Z.of_nat (occ (at2 [] gl t j)) < Z.min kl (Z.of_nat a))%Z.
Proof. exact count_refuted. Qed.
Print Assumptions C05_stratiform_count_refuted.

(** C49: the exact number of subcolumns in every case. *)
Theorem C49_stratiform_count_exact :
  forall m Ncol rad sch thr dr N T H F Qv,
  strat_ready m Ncol rad N T H F Qv -> good_sched sch -> draws_ok dr ->
  exists m' gl gi, set_stratiform Ncol rad sch thr dr m = (Ok tt, m') /\
    flags m' "strat_frac_subcolumns_cl" gl /\ flags m' "strat_frac_subcolumns_ci" gi /\
    forall t j, t < T -> S j < H -> forall kl ki a b,
      requested rad thr (at2 0%Q (Qv "cl"%string) t j) (at2 0%Q (F "cl"%string) t j) N kl ->
      requested rad thr (at2 0%Q (Qv "ci"%string) t j) (at2 0%Q (F "ci"%string) t j) N ki ->
      number_of (fun i => i < N /\ ~ convective m t j i) a ->
      number_of (fun i => flagged (at2 [] gl t (S j)) i /\ flagged (at2 [] gi t (S j)) i /\ ~ convective m t j i) b ->
      let short k other := if (other =? 0)%Z && (0 <? Z.of_nat b)%Z && (Z.of_nat b <=? k)%Z then Z.of_nat b else 0%Z in
      (kl = Z.of_nat N /\ ki = Z.of_nat N -> forall i, i < N -> flagged (at2 [] gl t j) i /\ flagged (at2 [] gi t j) i) /\
      (~ (kl = Z.of_nat N /\ ki = Z.of_nat N) ->
         Z.of_nat (occ (at2 [] gl t j)) = Z.min (kl - short kl ki) (Z.of_nat a) /\
         Z.of_nat (occ (at2 [] gi t j)) = Z.min (ki - short ki kl) (Z.of_nat a)).
Proof. exact strat_count_all. Qed.
Print Assumptions C49_stratiform_count_exact.

(** C06, except at levels where both types are requested everywhere. *)
Theorem C06_stratiform_not_convective_partial :
  forall m Ncol rad sch thr dr N T H F Qv,
  strat_ready m Ncol rad N T H F Qv -> good_sched sch -> draws_ok dr ->
  exists m' gl gi, set_stratiform Ncol rad sch thr dr m = (Ok tt, m') /\
    flags m' "strat_frac_subcolumns_cl" gl /\ flags m' "strat_frac_subcolumns_ci" gi /\
    forall t j, t < T -> j < H -> forall kl ki,
      requested rad thr (at2 0%Q (Qv "cl"%string) t j) (at2 0%Q (F "cl"%string) t j) N kl ->
      requested rad thr (at2 0%Q (Qv "ci"%string) t j) (at2 0%Q (F "ci"%string) t j) N ki ->
      ~ (S j < H /\ kl = Z.of_nat N /\ ki = Z.of_nat N) ->
      forall i, convective m t j i -> ~ flagged (at2 [] gl t j) i /\ ~ flagged (at2 [] gi t j) i.
Proof. exact strat_no_conv. Qed.
Print Assumptions C06_stratiform_not_convective_partial.

Theorem C06_stratiform_not_convective_refuted :
  exists m Ncol rad sch thr dr N T H F Qv m' gl t j i,
  strat_ready m Ncol rad N T H F Qv /\ good_sched sch /\ draws_ok dr /\
  set_stratiform Ncol rad sch thr dr m = (Ok tt, m') /\ flags m' "strat_frac_subcolumns_cl" gl /\
  t < T /\ j < H /\ convective m t j i /\ flagged (at2 [] gl t j) i.
Proof. exact conv_refuted. Qed.
Print Assumptions C06_stratiform_not_convective_refuted.

(** C07, except where the type is alone at its level below subcolumns that
    hold both types. *)
Theorem C07_stratiform_overlap_partial :
  forall m Ncol rad sch thr dr N T H F Qv,
  strat_ready m Ncol rad N T H F Qv -> good_sched sch -> draws_ok dr ->
  exists m' gl gi, set_stratiform Ncol rad sch thr dr m = (Ok tt, m') /\
    flags m' "strat_frac_subcolumns_cl" gl /\ flags m' "strat_frac_subcolumns_ci" gi /\
    let below t j i := (flagged (at2 [] gl t (S j)) i \/ flagged (at2 [] gi t (S j)) i) /\ ~ convective m t j i in
    forall t j, t < T -> S j < H -> forall kl ki n,
      requested rad thr (at2 0%Q (Qv "cl"%string) t j) (at2 0%Q (F "cl"%string) t j) N kl ->
      requested rad thr (at2 0%Q (Qv "ci"%string) t j) (at2 0%Q (F "ci"%string) t j) N ki ->
      number_of (below t j) n ->
      ((0 < ki)%Z \/ (forall i, ~ (flagged (at2 [] gl t (S j)) i /\ flagged (at2 [] gi t (S j)) i /\ ~ convective m t j i)) ->
         number_of (fun i => flagged (at2 [] gl t j) i /\ below t j i) (Z.to_nat (Z.min kl (Z.of_nat n)))) /\
      ((0 < kl)%Z \/ (forall i, ~ (flagged (at2 [] gl t (S j)) i /\ flagged (at2 [] gi t (S j)) i /\ ~ convective m t j i)) ->
         number_of (fun i => flagged (at2 [] gi t j) i /\ below t j i) (Z.to_nat (Z.min ki (Z.of_nat n)))).
Proof. exact strat_overlap_ok. Qed.
Print Assumptions C07_stratiform_overlap_partial.

Theorem C07_stratiform_overlap_refuted :
  exists m Ncol rad sch thr dr N T H F Qv m' gl gi t j kl n,
  strat_ready m Ncol rad N T H F Qv /\ good_sched sch /\ draws_ok dr /\
  set_stratiform Ncol rad sch thr dr m = (Ok tt, m') /\
  flags m' "strat_frac_subcolumns_cl" gl /\ flags m' "strat_frac_subcolumns_ci" gi /\
  t < T /\ S j < H /\ requested rad thr (at2 0%Q (Qv "cl"%string) t j) (at2 0%Q (F "cl"%string) t j) N kl /\
  let below i := (flagged (at2 [] gl t (S j)) i \/ flagged (at2 [] gi t (S j)) i) /\ ~ convective m t j i in
  number_of below n /\
  ~ number_of (fun i => flagged (at2 [] gl t j) i /\ below i) (Z.to_nat (Z.min kl (Z.of_nat n))).
Proof. exact overlap_refuted. Qed.
Print Assumptions C07_stratiform_overlap_refuted.

(** C08 (stratiform part): the top level is empty; the arrays have exactly
    [N] subcolumns; nothing else in the object changes. *)
Theorem C08_stratiform_top_empty :
  forall m Ncol rad sch thr dr N T H F Qv,
  strat_ready m Ncol rad N T H F Qv -> good_sched sch -> draws_ok dr ->
  exists m' gl gi, set_stratiform Ncol rad sch thr dr m = (Ok tt, m') /\
    flags m' "strat_frac_subcolumns_cl" gl /\ flags m' "strat_frac_subcolumns_ci" gi /\
    shape3 T H N gl /\ shape3 T H N gi /\ dim_sub m' = Some N /\
    unchanged_except ["strat_frac_subcolumns_cl"; "strat_frac_subcolumns_ci"]%string m m' /\
    forall t j i, t < T -> S j = H -> ~ flagged (at2 [] gl t j) i /\ ~ flagged (at2 [] gi t j) i.
Proof. exact strat_top. Qed.
Print Assumptions C08_stratiform_top_empty.

(** C13 (stratiform part): whatever the object and arguments, result and
    exceptions are the same for every schedule. *)
Theorem C13_stratiform_schedule :
  forall m Ncol rad s1 s2 thr dr, good_sched s1 -> good_sched s2 ->
  set_stratiform Ncol rad s1 thr dr m = set_stratiform Ncol rad s2 thr dr m.
Proof. exact strat_schedule. Qed.
Print Assumptions C13_stratiform_schedule.

(** Each column is processed exactly once, in its own position. *)
Theorem C13_columns_once :
  forall s T, good_sched s -> tt_order s T = Ok (map Z.of_nat (seq 0 T)).
Proof. exact columns_once. Qed.
Print Assumptions C13_columns_once.

Example C13_witness : good_sched Serial /\ good_sched (Parallel None) /\ good_sched (Parallel (Some 3%Z)) /\
  tt_order (Parallel (Some 3%Z)) 7 = Ok [0; 1; 2; 3; 4; 5; 6]%Z.
Proof. repeat split; discriminate. Qed.
