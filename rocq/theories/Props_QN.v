(** Mixing ratio and number concentration in subcolumns: properties C14-C19
    and C50-C52. *)
From Verif Require Import Gen_Model Spec_Common Gen_Spec QN_Spec QN_Corol Single Chunk_Hang Witness QN_Witness.
Local Open Scope nat_scope.

(** C14.  The English claim, for the variable distribution, is
      forall c >= 1, set_q_n .. (Parallel (Some c)) .. = set_q_n .. Serial ..;
    it holds without chunks, for the uniform distribution, and for one column. *)
Theorem C14_qn_schedule_partial :
  forall m h is_conv qc rad thr perm gam,
  set_q_n h is_conv qc rad (Parallel None) thr perm gam m = set_q_n h is_conv qc rad Serial thr perm gam m /\
  (qc = false \/ rad = true \/ is_conv = true -> forall s1 s2,
     set_q_n h is_conv qc rad s1 thr perm gam m = set_q_n h is_conv qc rad s2 thr perm gam m) /\
  (forall N H f q nf fl s1 s2, qn_ready m is_conv rad N 1 H h f q nf fl -> good_sched s1 -> good_sched s2 ->
     set_q_n h is_conv qc rad s1 thr perm gam m = set_q_n h is_conv qc rad s2 thr perm gam m).
Proof.
  exact (fun m h is_conv qc rad thr perm gam =>
    conj (eq_sym (qn_schedule_plain m h is_conv qc rad thr perm gam))
    (conj (fun Hu s1 s2 => qn_schedule_uniform m h is_conv qc rad s1 s2 thr perm gam Hu)
          (fun N H f q nf fl s1 s2 => qn_schedule_one m is_conv rad qc thr perm gam N H h f q nf fl s1 s2))).
Qed.
Print Assumptions C14_qn_schedule_partial.

(** C14 is false of the code: two columns in chunks of one come out swapped,
    and chunks of two end in an error. *)
Theorem C14_qn_schedule_refuted :
  exists m h thr perm gam N T H f q nf fl,
    qn_ready m false false N T H h f q nf fl /\ perms_ok perm /\ gammas_ok T H fl gam /\ present_where_fraction T H f fl /\
    exists m1 m2 q1 q2,
      set_q_n h false true false Serial thr perm gam m = (Ok tt, m1) /\ values m1 (q_out false h) q1 /\
      set_q_n h false true false (Parallel (Some 1%Z)) thr perm gam m = (Ok tt, m2) /\ values m2 (q_out false h) q2 /\
      q2 = rev q1 /\ q2 <> q1 /\
      set_q_n h false true false (Parallel (Some 2%Z)) thr perm gam m = (Raise ValueError, m).
Proof.
  exists v_m, "cl"%string, 0%Q, v_perm, v_gam, 4, 2, 3, w_f1, v_q, w_q, v_fl.
  split; [exact v_ready|]. split; [exact v_perm_ok|]. split; [exact v_gam_ok|]. split; [exact v_present|].
  do 4 eexists. split; [vm_compute; reflexivity|]. split; [vm_compute; reflexivity|].
  split; [vm_compute; reflexivity|]. split; [vm_compute; reflexivity|]. split; [reflexivity|]. split; [discriminate|].
  vm_compute; reflexivity.
Qed.
Print Assumptions C14_qn_schedule_refuted.

(** C15. *)
Theorem C15_uniform_values :
  forall m is_conv rad qc sch thr perm gam N T H h f q nf fl,
  qn_ready m is_conv rad N T H h f q nf fl -> 2 <= N ->
  (qc = false \/ rad = true \/ is_conv = true) ->
  exists m' qv, set_q_n h is_conv qc rad sch thr perm gam m = (Ok tt, m') /\ dim_sub m' = Some N /\
    unchanged_except (if is_conv then [q_out is_conv h] else [q_out is_conv h; n_out h]) m m' /\
    values m' (q_out is_conv h) qv /\ shape3 T H N qv /\
    forall t j i, t < T -> j < H -> i < N ->
      (flagged (at2 [] fl t j) i -> in_cloud thr (at2 0%Q q t j) (at2 0%Q f t j) (nth i (at2 [] qv t j) NaN)) /\
      (~ flagged (at2 [] fl t j) i -> nth i (at2 [] qv t j) NaN = Fin 0).
Proof. exact uniform_values. Qed.
Print Assumptions C15_uniform_values.

Theorem C15_uniform_mass :
  forall m is_conv rad qc sch thr perm gam N T H h f q nf fl,
  qn_ready m is_conv rad N T H h f q nf fl -> 2 <= N ->
  (qc = false \/ rad = true \/ is_conv = true) ->
  exists m' qv, set_q_n h is_conv qc rad sch thr perm gam m = (Ok tt, m') /\
    values m' (q_out is_conv h) qv /\
    forall t j, t < T -> j < H -> exists s,
      (~ (at2 0%Q f t j == 0)%Q -> sums_to (at2 [] qv t j) s) /\
      (~ (at2 0%Q f t j == 0)%Q -> (thr < at2 0%Q q t j)%Q ->
         (s * at2 0%Q f t j == at2 0%Q q t j * inject (occ (at2 [] fl t j)))%Q) /\
      (~ (at2 0%Q f t j == 0)%Q -> (thr < at2 0%Q q t j)%Q ->
         (at2 0%Q f t j * inject N == inject (occ (at2 [] fl t j)))%Q -> (s / inject N == at2 0%Q q t j)%Q) /\
      ((at2 0%Q q t j <= thr)%Q -> sums_to (at2 [] qv t j) 0%Q).
Proof. exact uniform_mass. Qed.
Print Assumptions C15_uniform_mass.

Example C15_witness : qn_ready v_m false false 4 2 3 "cl" w_f1 v_q w_q v_fl /\ 2 <= 4 /\
  (at2 0%Q w_f1 0 0 * inject 4 == inject (occ (at2 [] v_fl 0 0)))%Q /\ ~ (at2 0%Q w_f1 0 0 == 0)%Q /\ (0 < at2 0%Q v_q 0 0)%Q.
Proof. split; [exact v_ready|]. split; [lia|]. split; [vm_compute; reflexivity|]. split; [discriminate|reflexivity]. Qed.

(** C16, for the uniform and the (unchunked) variable distribution. *)
Theorem C16_number_values :
  forall m rad qc sch thr perm gam N T H h f q nf fl,
  qn_ready m false rad N T H h f q nf fl -> 2 <= N ->
  forall m', set_q_n h false qc rad sch thr perm gam m = (Ok tt, m') ->
  (qc = true -> rad = false -> perms_ok perm /\ gammas_ok T H fl gam /\ present_where_fraction T H f fl /\ (0 <= thr)%Q /\
     (sch = Serial \/ sch = Parallel None)) ->
  exists nv, values m' (n_out h) nv /\ shape3 T H N nv /\
    forall t j i, t < T -> j < H -> i < N ->
      (flagged (at2 [] fl t j) i -> in_cloud_n rad thr (at2 0%Q q t j) (at2 0%Q f t j) (at2 0%Q nf t j) (nth i (at2 [] nv t j) NaN)) /\
      (~ flagged (at2 [] fl t j) i -> nth i (at2 [] nv t j) NaN = Fin 0).
Proof. exact number_values. Qed.
Print Assumptions C16_number_values.

Example C16_witness : qn_ready v_m false false 4 2 3 "cl" w_f1 v_q w_q v_fl /\
  perms_ok v_perm /\ gammas_ok 2 3 v_fl v_gam /\ present_where_fraction 2 3 w_f1 v_fl /\
  fst (set_q_n "cl" false true false Serial 0%Q v_perm v_gam v_m) = Ok tt /\
  fst (set_q_n "cl" false false false Serial 0%Q v_perm v_gam v_m) = Ok tt.
Proof.
  split; [exact v_ready|]. split; [exact v_perm_ok|]. split; [exact v_gam_ok|]. split; [exact v_present|].
  split; vm_compute; reflexivity.
Qed.

(** C17. *)
Theorem C17_variable_conserves :
  forall m N T H h f q nf fl thr perm gam,
  qn_ready m false false N T H h f q nf fl -> 2 <= N -> perms_ok perm -> gammas_ok T H fl gam ->
  present_where_fraction T H f fl -> (0 <= thr)%Q ->
  forall sch m', sch = Serial \/ sch = Parallel None ->
  set_q_n h false true false sch thr perm gam m = (Ok tt, m') ->
  exists qv, values m' (q_out false h) qv /\ shape3 T H N qv /\
    forall t j, t < T -> j < H ->
      (forall i, i < N -> (exists v, nth i (at2 [] qv t j) NaN = Fin v /\ (0 <= v)%Q) /\
                 (~ flagged (at2 [] fl t j) i -> nth i (at2 [] qv t j) NaN = Fin 0)) /\
      ((at2 0%Q q t j <= thr)%Q -> sums_to (at2 [] qv t j) 0%Q) /\
      ((thr < at2 0%Q q t j)%Q ->
         sums_to (at2 [] qv t j) (at2 0%Q q t j / at2 0%Q f t j * inject (occ (at2 [] fl t j)))%Q).
Proof. exact variable_conserves. Qed.
Print Assumptions C17_variable_conserves.

(** C18.  The English claim is "always returns"; it returns exactly when no
    cell with two or more cloudy subcolumns has a mixing ratio at or below
    the threshold (C51). *)
Theorem C18_variable_returns_partial :
  forall m N T H h f q nf fl thr perm gam,
  qn_ready m false false N T H h f q nf fl -> 2 <= N -> perms_ok perm -> gammas_ok T H fl gam ->
  present_where_fraction T H f fl -> (0 <= thr)%Q ->
  forall sch, sch = Serial \/ sch = Parallel None ->
  (forall t j, t < T -> j < H -> 2 <= occ (at2 [] fl t j) -> (thr < at2 0%Q q t j)%Q) ->
  exists m', set_q_n h false true false sch thr perm gam m = (Ok tt, m').
Proof.
  exact (fun m N T H h f q nf fl thr perm gam Hr HN Hp Hg Hf Ht sch Hs =>
    proj2 (variable_returns m N T H h f q nf fl thr perm gam Hr HN Hp Hg Hf Ht sch Hs)).
Qed.
Print Assumptions C18_variable_returns_partial.

Theorem C18_variable_returns_refuted :
  exists m N T H h f q nf fl thr perm gam,
  qn_ready m false false N T H h f q nf fl /\ perms_ok perm /\ gammas_ok T H fl gam /\
  present_where_fraction T H f fl /\ (0 <= thr)%Q /\
  set_q_n h false true false Serial thr perm gam m = (Raise Hang, m).
Proof.
  exists w_ms, 4, 2, 3, "cl"%string, w_f1, w_q, w_q, v_fl, 0%Q, v_perm, v_gam.
  split; [exact w_qn_ready|]. split; [exact v_perm_ok|]. split; [exact v_gam_ok|]. split; [exact v_present|].
  split; [discriminate|]. vm_compute; reflexivity.
Qed.
Print Assumptions C18_variable_returns_refuted.

(** C51. *)
Theorem C51_variable_returns_exactly :
  forall m N T H h f q nf fl thr perm gam,
  qn_ready m false false N T H h f q nf fl -> 2 <= N -> perms_ok perm -> gammas_ok T H fl gam ->
  present_where_fraction T H f fl -> (0 <= thr)%Q ->
  forall sch, sch = Serial \/ sch = Parallel None ->
  ((exists t j, t < T /\ j < H /\ 2 <= occ (at2 [] fl t j) /\ (at2 0%Q q t j <= thr)%Q) <->
     set_q_n h false true false sch thr perm gam m = (Raise Hang, m)) /\
  ((forall t j, t < T -> j < H -> 2 <= occ (at2 [] fl t j) -> (thr < at2 0%Q q t j)%Q) ->
     exists m', set_q_n h false true false sch thr perm gam m = (Ok tt, m')).
Proof. exact variable_returns. Qed.
Print Assumptions C51_variable_returns_exactly.

(** C50. *)
Theorem C50_chunked_placement :
  forall m N T H h f q nf fl thr perm gam,
  qn_ready m false false N T H h f q nf fl -> 2 <= N -> perms_ok perm -> gammas_ok T H fl gam ->
  present_where_fraction T H f fl -> (0 <= thr)%Q ->
  forall c, 1 <= c ->
  (forall t j, t < T -> j < H -> 2 <= occ (at2 [] fl t j) -> (thr < at2 0%Q q t j)%Q) ->
  ((T - 1) mod c <> 0 -> set_q_n h false true false (Parallel (Some (Z.of_nat c))) thr perm gam m = (Raise ValueError, m)) /\
  ((T - 1) mod c = 0 -> exists m1 m2 q1 q2,
     set_q_n h false true false Serial thr perm gam m = (Ok tt, m1) /\ values m1 (q_out false h) q1 /\
     set_q_n h false true false (Parallel (Some (Z.of_nat c))) thr perm gam m = (Ok tt, m2) /\ values m2 (q_out false h) q2 /\
     length q1 = T /\ length q2 = T /\
     nth 0 q2 [] = nth (T - 1) q1 [] /\
     forall a b, b < c -> 1 + a * c + b < T -> nth (1 + a * c + b) q2 [] = nth (T - 1 - (a + 1) * c + b) q1 []).
Proof. exact variable_chunked. Qed.
Print Assumptions C50_chunked_placement.

Example C17_C50_C51_witness : qn_ready v_m false false 4 2 3 "cl" w_f1 v_q w_q v_fl /\
  perms_ok v_perm /\ gammas_ok 2 3 v_fl v_gam /\ present_where_fraction 2 3 w_f1 v_fl /\
  (forall t j, t < 2 -> j < 3 -> 2 <= occ (at2 [] v_fl t j) -> (0 < at2 0%Q v_q t j)%Q) /\
  (exists t j, t < 2 /\ j < 3 /\ 2 <= occ (at2 [] v_fl t j)).
Proof.
  split; [exact v_ready|]. split; [exact v_perm_ok|]. split; [exact v_gam_ok|]. split; [exact v_present|]. split.
  - intros t j Ht Hj _. destruct t as [|[|]]; [| |lia]; (destruct j as [|[|[|]]]; [| | |lia]); reflexivity.
  - exists 0, 0. split; [lia|]. split; [lia|]. vm_compute. lia.
Qed.

(** C52. *)
Theorem C52_chunk_below_one_never_returns :
  forall m c, (c <= 0)%Z -> num_sub m <> 1 ->
  (forall Ncol rad thr dr, Ncol <> Some 1 -> fst (set_stratiform Ncol rad Serial thr dr m) = Ok tt ->
     fst (set_stratiform Ncol rad (Parallel (Some c)) thr dr m) = Raise Hang) /\
  (forall is_conv Ncol rad hs thr dr, Ncol <> Some 1 -> fst (set_precip is_conv Ncol rad Serial hs thr dr m) = Ok tt ->
     fst (set_precip is_conv Ncol rad (Parallel (Some c)) hs thr dr m) = Raise Hang) /\
  (forall h thr perm gam, fst (set_q_n h false true false Serial thr perm gam m) = Ok tt ->
     fst (set_q_n h false true false (Parallel (Some c)) thr perm gam m) = Raise Hang).
Proof.
  exact (fun m c Hc Hm =>
    conj (fun Ncol rad thr dr Hn => strat_hang m Ncol rad thr dr c Hc Hn tt)
    (conj (fun is_conv Ncol rad hs thr dr Hn => precip_hang m is_conv Ncol rad hs thr dr c Hc Hn Hm tt)
          (fun h thr perm gam => qn_call_hang m h thr perm gam c Hc Hm tt))).
Qed.
Print Assumptions C52_chunk_below_one_never_returns.

Example C52_witness :
  fst (set_stratiform None false Serial 0%Q w_dr w_mc) = Ok tt /\ num_sub w_mc = 4 /\
  fst (set_precip false None false Serial ["pl"]%string 0%Q w_dr w_ms) = Ok tt /\ num_sub w_ms = 4 /\
  fst (set_q_n "cl" false true false Serial 0%Q v_perm v_gam v_m) = Ok tt /\ num_sub v_m = 4.
Proof. repeat split; vm_compute; reflexivity. Qed.

(** C19: stratiform clouds. *)
Theorem C19_off_stratiform_partial :
  forall m rad sch thr dr T H (Qv : string -> list (list Q)),
  process_conv m = false -> (unset m \/ dim_sub m = Some 1) -> ntime m = T ->
  (exists f, field m (frac_strat (nm m)) "cl" f) -> (exists f, field m (frac_strat_rad (nm m)) "cl" f) ->
  (forall h, In h ["cl"; "ci"]%string -> field m (q_strat (nm m)) h (Qv h) /\ shape2 T H (Qv h)) ->
  not_input m "strat_frac_subcolumns_cl" ->
  exists m' G, set_stratiform (Some 1) rad sch thr dr m = (Ok tt, m') /\ dim_sub m' = Some 1 /\
    unchanged_except ["strat_frac_subcolumns_cl"; "strat_frac_subcolumns_ci"]%string m m' /\
    forall h, In h ["cl"; "ci"]%string ->
      flags m' (frac_out false h) (G h) /\ shape3 T H 1 (G h) /\
      forall t j, t < T -> j < H -> (flagged (at2 [] (G h) t j) 0 <-> (thr < at2 0%Q (Qv h) t j)%Q).
Proof. exact strat_single. Qed.
Print Assumptions C19_off_stratiform_partial.

(** C19: precipitation classes. *)
Theorem C19_off_precip_partial :
  forall m is_conv rad sch thr dr T H (F Qv : string -> list (list Q)) hs ci,
  dim_sub m = Some 1 -> ntime m = T ->
  (forall h, In h hs -> frac_input m is_conv rad T H F Qv h) ->
  (forall h, In h hs -> field m (q_dict m is_conv) h (Qv h) /\ shape2 T H (Qv h)) ->
  flags m (frac_out is_conv "ci") ci ->
  (forall h, In h hs -> not_input m (frac_out is_conv h)) ->
  exists m' G, set_precip is_conv None rad sch hs thr dr m = (Ok tt, m') /\ dim_sub m' = Some 1 /\
    unchanged_except (map (frac_out is_conv) hs) m m' /\
    forall h, In h hs ->
      flags m' (frac_out is_conv h) (G h) /\ shape3 T H 1 (G h) /\
      forall t j, t < T -> j < H -> (flagged (at2 [] (G h) t j) 0 <-> (thr < at2 0%Q (Qv h) t j)%Q).
Proof. exact precip_single. Qed.
Print Assumptions C19_off_precip_partial.

(** C19: mixing ratio. *)
Theorem C19_off_mixing_ratio_partial :
  forall m is_conv rad qc sch thr perm gam T H h f q nf fl,
  qn_ready m is_conv rad 1 T H h f q nf fl ->
  exists m' qv, set_q_n h is_conv qc rad sch thr perm gam m = (Ok tt, m') /\ dim_sub m' = Some 1 /\
    unchanged_except (if is_conv then [q_out is_conv h] else [q_out is_conv h; n_out h]) m m' /\
    values m' (q_out is_conv h) qv /\ shape3 T H 1 qv /\
    (forall t j, t < T -> j < H -> exists v, at2 [] qv t j = [v] /\
       ((at2 0%Q q t j <= thr)%Q -> v = Fin 0) /\
       ((thr < at2 0%Q q t j)%Q -> v = xdiv (Fin (at2 0%Q q t j)) (Fin (at2 0%Q f t j)))).
Proof. exact qn_single. Qed.
Print Assumptions C19_off_mixing_ratio_partial.

(** C19 is false of the code for convective clouds: asking convective
    generation for one subcolumn always fails. *)
Theorem C19_off_convective_refuted :
  forall m hyd rad thr, num_sub m = 0 \/ dim_sub m = Some 1 ->
  exists e, fst (set_convective hyd (Some 1) rad thr m) = Raise e /\
    ((exists f, field m (frac_conv (nm m)) hyd f) -> (exists q, field m (q_conv (nm m)) hyd q) -> e = ValueError).
Proof. exact conv_single. Qed.
Print Assumptions C19_off_convective_refuted.

Example C19_witness :
  unset (w_m false) /\ (exists f, field (w_m false) (frac_strat w_names) "cl" f) /\
  (forall h, In h ["cl"; "ci"]%string -> field (w_m false) (q_strat w_names) h w_q) /\
  not_input (w_m false) "strat_frac_subcolumns_cl" /\
  dim_sub o_m = Some 1 /\ flags o_m "strat_frac_subcolumns_ci" (w_flags o_m "strat_frac_subcolumns_ci") /\
  qn_ready o_mp false false 1 2 3 "pi" w_f1 w_q w_q (w_flags o_mp "strat_frac_subcolumns_pi") /\
  w_flags o_mp "strat_frac_subcolumns_pi" = [[[true]; [true]; [true]]; [[true]; [false]; [true]]] /\
  (exists f, field (w_m true) (frac_conv w_names) "cl" f) /\ (exists q, field (w_m true) (q_conv w_names) "cl" q).
Proof.
  split; [apply w_unset|]. split; [exists w_f1, "cf_cl"%string; split; reflexivity|].
  split. { intros h Hh. destruct Hh as [<-|[<-|[]]]; eexists; split; reflexivity. }
  split; [apply (w_not_input false "strat_frac_subcolumns_" "cl"); simpl; auto|].
  split; [reflexivity|]. split; [vm_compute; reflexivity|]. split; [exact o_ready|]. split; [vm_compute; reflexivity|].
  split; [exists w_c1, "ccf_cl"%string; split; reflexivity|exists w_q, "q_conv_cl"%string; split; reflexivity].
Qed.
