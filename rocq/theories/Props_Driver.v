(** The whole subcolumn generation of [make_simulated_data]: property C54. *)
From Verif Require Import Driver_Model Spec_Common Gen_Spec QN_Spec Driver_Spec Driver_Proofs Witness QN_Witness Driver_Witness.
Local Open Scope nat_scope.

(** C54.  With the radiation approach every complete model object is
    processed to the end, under every schedule.  With the microphysics
    approach the same holds without chunks if the liquid mixing ratio exceeds
    the threshold wherever the liquid fraction is positive. *)
Theorem C54_driver_generates :
  forall m T H hs F Qv Nf, complete m T H hs F Qv Nf ->
  forall N rad sch d, 2 <= N -> good_sched sch ->
  draws_ok (d_strat d) -> draws_ok (d_precip d) -> draws_ok (d_conv d) ->
  exists ms, driver_flags (Some N) rad sch d m = (Ok tt, ms) /\
    (forall h, In h hs -> flags_for ms T H N false h /\ (process_conv m = true -> flags_for ms T H N true h)) /\
    ((rad = true \/
      ((sch = Serial \/ sch = Parallel None) /\ perms_ok (d_perm d) /\
       (forall gl, flags ms (frac_out false "cl") gl -> gammas_ok T H gl (d_gam d)) /\
       forall t j, t < T -> j < H -> (0 < at2 0%Q (F false false "cl"%string) t j)%Q -> ((1 # 1000000000000000000) < at2 0%Q (Qv false "cl"%string) t j)%Q)) ->
     exists m', driver_subcolumns (Some N) rad sch d m = (Ok tt, m') /\ dim_sub m' = Some N /\ only_outputs m m' /\
       forall h, In h hs ->
         flags_for m' T H N false h /\ values_for m' T H N (q_out false h) /\ values_for m' T H N (n_out h) /\
         (process_conv m = true -> flags_for m' T H N true h /\ values_for m' T H N (q_out true h))).
Proof. exact driver_runs. Qed.
Print Assumptions C54_driver_generates.

Example C54_witness :
  complete d_m 2 3 ["cl"; "ci"; "pl"; "pi"]%string d_F d_Q (fun _ => w_q) /\ process_conv d_m = true /\
  (let ms := snd (driver_flags (Some 4) false Serial d_rng d_m) in
   (forall gl, flags ms (frac_out false "cl") gl -> gammas_ok 2 3 gl (d_gam d_rng)) /\
   (forall t j, t < 2 -> j < 3 -> (0 < at2 0%Q (d_F false false "cl"%string) t j)%Q -> ((1 # 1000000000000000000) < at2 0%Q (d_Q false "cl"%string) t j)%Q)) /\
  draws_ok (d_strat d_rng) /\ perms_ok (d_perm d_rng).
Proof.
  split; [exact d_complete|]. split; [reflexivity|]. split; [split; [exact d_gammas|exact d_liquid]|].
  split; [exact w_draws_ok|exact v_perm_ok].
Qed.
