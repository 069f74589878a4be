(** C78-C87: the microphysics methods.  The vocabulary is in Micro_Spec.v:
    [population D X n] is the trapezoidal integral over the table of sizes,
    [holds_particles] and [holds_none] say what a cell holds, [carries] that a
    size distribution has the number and the mass of the cell. *)
From Coq Require Import Permutation.
From Verif Require Import Mom_Base Mom_Spec Sched_Model Psd_Model Psd_Spec Psd_Witness Lidar_Model Lidar_Spec
  Lidar_Corol Lidar_Witness Radar_Model Radar_Spec Radar_Witness Micro_Spec Micro_Lidar Micro_Radar Micro_Witness Micro_Again
  Micro_Trans Micro_P3.
From Verif Require Gen_Spec.
Local Open Scope R_scope.

(** C78: lidar: extinction and backscatter of a class are the integrals of its
    single-particle cross-sections over the gamma distribution that carries
    the number and mass of the cell; zero without condensate; never negative. *)
Theorem C78_lidar_class_values : forall Gam e ins o hs s s1,
  micro_tables_ok e -> o_emp o = false -> o_rad o = false -> classes_of e (o_hyds o) hs -> ~ In "tot"%string hs ->
  (forall h, In h hs -> gamma_class e h) -> totals_stored s ->
  calc_lidar_moments Gam e ins o false s = (Ok tt, s1) ->
  forall h tab D B A i t k q n r,
  In h hs -> class_table e ins (o_mie o) h tab -> particle_table tab D B A -> cell e i t k ->
  holds_particles e s h i t k q n r -> gamma_known Gam (class_shape e (o_kw o) h n) ->
  let mu := class_shape e (o_kw o) h n in
  exists lam n0, carries r q n mu lam n0 /\
    value s1 (out "alpha_p" h false) i t k = XF (population D A (gamma_psd n0 lam mu)) /\
    value s1 (out "beta_p" h false) i t k = XF (population D B (gamma_psd n0 lam mu)).
Proof. exact micro_value. Qed.
Print Assumptions C78_lidar_class_values.
Theorem C78_lidar_no_condensate : forall Gam e ins o hs s s1,
  micro_tables_ok e -> o_emp o = false -> o_rad o = false -> classes_of e (o_hyds o) hs -> ~ In "tot"%string hs ->
  (forall h, In h hs -> gamma_class e h) -> totals_stored s ->
  calc_lidar_moments Gam e ins o false s = (Ok tt, s1) ->
  forall h i t k, In h hs -> cell e i t k -> holds_none s h i t k ->
  value s1 (out "alpha_p" h false) i t k = XF 0 /\ value s1 (out "beta_p" h false) i t k = XF 0.
Proof. exact micro_empty. Qed.
Print Assumptions C78_lidar_no_condensate.
Theorem C78_lidar_not_negative : forall Gam e ins o hs s s1,
  micro_tables_ok e -> o_emp o = false -> o_rad o = false -> classes_of e (o_hyds o) hs -> ~ In "tot"%string hs ->
  (forall h, In h hs -> gamma_class e h) -> totals_stored s ->
  calc_lidar_moments Gam e ins o false s = (Ok tt, s1) ->
  forall h tab D B A i t k q n r,
  In h hs -> class_table e ins (o_mie o) h tab -> particle_table tab D B A ->
  (forall x, In x A \/ In x B -> 0 <= x) -> cell e i t k ->
  value s (qn false h) i t k = XF q -> value s (nn false h) i t k = XF n -> density_at e s h t k r ->
  (0 < q -> 0 < n) -> 0 < r -> gamma_known Gam (class_shape e (o_kw o) h n) ->
  exists a b, value s1 (out "alpha_p" h false) i t k = XF a /\ value s1 (out "beta_p" h false) i t k = XF b /\
    0 <= a /\ 0 <= b.
Proof. exact micro_nonneg. Qed.
Print Assumptions C78_lidar_not_negative.
Example C78_witness : exists s1,
  calc_lidar_moments w_gam w_mg2 (m_with w_ins) (m_lopts ["pl"; "cl"; "ci"]%string) false m_ds = (Ok tt, s1) /\
  micro_tables_ok w_mg2 /\ totals_stored m_ds /\
  (exists lam n0, carries 1000 (1/10000) (1/100) 0 lam n0 /\
     value s1 "sub_col_alpha_p_pl_strat" 0 0 1 = XF (population m_D m_A (gamma_psd n0 lam 0)) /\
     value s1 "sub_col_beta_p_pl_strat" 0 0 1 = XF (population m_D m_B (gamma_psd n0 lam 0))) /\
  value s1 "sub_col_alpha_p_cl_strat" 0 0 1 = XF 0.
Proof. exact m_lidar. Qed.

(** C79: lidar totals: the classes are added to the totals stored before the
    call; a second call succeeds, leaves the classes and adds them again. *)
Theorem C79_lidar_totals : forall Gam e ins o hs s s1,
  micro_tables_ok e -> o_emp o = false -> o_rad o = false -> classes_of e (o_hyds o) hs -> ~ In "tot"%string hs ->
  totals_stored s ->
  calc_lidar_moments Gam e ins o false s = (Ok tt, s1) ->
  (forall f h, In f lidar_fields -> In h hs -> exists a, var3 s1 (out f h false) a) /\
  forall f i t k, In f lidar_fields ->
    value s1 (out f "tot" false) i t k
    = xadd (total_before s f i t k) (xsum (map (fun h => fillna 0 (value s1 (out f h false) i t k)) hs)).
Proof. exact any_totals_sum. Qed.
Print Assumptions C79_lidar_totals.
Theorem C79_lidar_second_call : forall Gam e ins o hs s s1,
  micro_tables_ok e -> o_emp o = false -> o_rad o = false -> classes_of e (o_hyds o) hs -> ~ In "tot"%string hs ->
  (forall h, In h hs -> gamma_class e h) -> totals_stored s ->
  calc_lidar_moments Gam e ins o false s = (Ok tt, s1) ->
  hs <> [] -> exists s2, calc_lidar_moments Gam e ins o false s1 = (Ok tt, s2) /\
  forall f i t k, In f lidar_fields ->
    (forall h, In h hs -> value s2 (out f h false) i t k = value s1 (out f h false) i t k) /\
    value s2 (out f "tot" false) i t k
    = xadd (value s1 (out f "tot" false) i t k) (xsum (map (fun h => fillna 0 (value s1 (out f h false) i t k)) hs)).
Proof. exact micro_repeat. Qed.
Print Assumptions C79_lidar_second_call.
(** C35 is false of the microphysics method: a second call raises the totals
    wherever a class is present. *)
Theorem C35_microphysics_refuted : forall Gam e ins o hs s s1,
  micro_tables_ok e -> o_emp o = false -> o_rad o = false -> classes_of e (o_hyds o) hs -> ~ In "tot"%string hs ->
  (forall h, In h hs -> gamma_class e h) -> totals_stored s ->
  calc_lidar_moments Gam e ins o false s = (Ok tt, s1) ->
  forall f i t k a, In f lidar_fields -> value s1 (out f "tot" false) i t k = XF a ->
  (forall h, In h hs -> exists b, value s1 (out f h false) i t k = XF b /\ 0 <= b) ->
  (exists h b, In h hs /\ value s1 (out f h false) i t k = XF b /\ 0 < b) ->
  exists s2 b, calc_lidar_moments Gam e ins o false s1 = (Ok tt, s2) /\ value s2 (out f "tot" false) i t k = XF b /\ a < b.
Proof. exact micro_again_raises. Qed.
Print Assumptions C35_microphysics_refuted.
Example C35_case : exists s1 s2 a b,
  calc_lidar_moments w_gam w_mg2 (m_with w_ins) (m_lopts ["pl"; "ci"]%string) false m_ds = (Ok tt, s1) /\
  calc_lidar_moments w_gam w_mg2 (m_with w_ins) (m_lopts ["pl"; "ci"]%string) false s1 = (Ok tt, s2) /\
  value s1 (out "alpha_p" "tot" false) 0 0 1 = XF a /\ value s2 (out "alpha_p" "tot" false) 0 0 1 = XF b /\ 0 < a /\ b = 2 * a.
Proof. exact m_again_lidar. Qed.
Example C79_witness : exists s1,
  calc_lidar_moments w_gam w_mg2 (m_with w_ins) (m_lopts ["pl"; "ci"]%string) false m_ds = (Ok tt, s1) /\
  micro_tables_ok w_mg2 /\ totals_stored m_ds /\ forall h, gamma_class w_mg2 h.
Proof. exact m_C79. Qed.

(** C80: the order of the classes does not matter to the lidar. *)
Theorem C80_lidar_class_order : forall Gam e ins o hs1 hs2 s s1,
  micro_tables_ok e -> o_emp o = false -> o_rad o = false -> Permutation hs1 hs2 -> ~ In "tot"%string hs1 ->
  (forall h, In h hs1 -> gamma_class e h) -> totals_stored s ->
  calc_lidar_moments Gam e ins (with_hyds o hs1) false s = (Ok tt, s1) ->
  exists s2, calc_lidar_moments Gam e ins (with_hyds o hs2) false s = (Ok tt, s2) /\
    forall f h i t k, In f lidar_fields -> In h ("tot"%string :: hs1) ->
      value s2 (out f h false) i t k = value s1 (out f h false) i t k.
Proof. exact micro_order. Qed.
Print Assumptions C80_lidar_class_order.
Example C80_witness : Permutation ["pl"; "ci"]%string ["ci"; "pl"]%string /\ exists s1,
  calc_lidar_moments w_gam w_mg2 (m_with w_ins) (with_hyds (m_lopts []) ["pl"; "ci"]%string) false m_ds = (Ok tt, s1).
Proof. exact m_C80. Qed.

(** C81: schedules: whatever the chunks and whether serial or not, a call has
    the same result, for both instruments and all methods. *)
Theorem C81_lidar_schedule : forall Gam e ins o c sch s, Gen_Spec.good_sched (o_sched o) -> Gen_Spec.good_sched sch ->
  calc_lidar_moments Gam e ins (with_sched o sch) c s = calc_lidar_moments Gam e ins o c s.
Proof. exact micro_sched. Qed.
Print Assumptions C81_lidar_schedule.
Theorem C81_radar_schedule : forall Gam e ins o c sch s, Gen_Spec.good_sched (r_sched o) -> Gen_Spec.good_sched sch ->
  calc_radar_moments Gam e ins (rwith_sched o sch) c s = calc_radar_moments Gam e ins o c s.
Proof. exact rm_sched. Qed.
Print Assumptions C81_radar_schedule.
Example C81_witness : Gen_Spec.good_sched (Parallel (Some 2%Z)) /\ Gen_Spec.good_sched Serial.
Proof. exact m_C81. Qed.

(** C82: radar: reflectivity, mean Doppler velocity and spectral width of a
    class are the moments of its particles' backscatter. *)
Theorem C82_radar_class_values : forall Gam e ins o hs s s1,
  rmicro_tables_ok e -> r_emp o = false -> r_rad o = false -> classes_of e (r_hyds o) hs -> plain hs ->
  (forall h, In h hs -> gamma_class e h) -> 0 < k_w ins ->
  calc_radar_moments Gam e ins o false s = (Ok tt, s1) ->
  forall h tab D B A w x i t k q n r,
  In h hs -> class_table e ins (r_mie o) h tab -> particle_table tab D B A ->
  (forall b, In b B -> 0 < b) -> (2 <= length D)%nat -> cell e i t k ->
  holds_particles e s h i t k q n r -> gamma_known Gam (class_shape e (r_kw o) h n) ->
  class_speed e h w -> air_factor e s h t k x ->
  let mu := class_shape e (r_kw o) h n in
  exists lam n0, carries r q n mu lam n0 /\
    let nd := gamma_psd n0 lam mu in let V := map (fun d => w d * x) D in
    0 < population D B nd /\
    value s1 (out "Ze" h false) i t k = dBZ (reflectivity ins (population D B nd)) /\
    value s1 (out "Vd" h false) i t k = XF (mean_of D V B nd) /\
    (r_width o = true -> value s1 (out "sigma_d" h false) i t k = XF (spread_of D V B nd)).
Proof. exact rm_value. Qed.
Print Assumptions C82_radar_class_values.
Theorem C82_radar_no_condensate : forall Gam e ins o hs s s1,
  rmicro_tables_ok e -> r_emp o = false -> r_rad o = false -> classes_of e (r_hyds o) hs -> plain hs ->
  (forall h, In h hs -> gamma_class e h) -> 0 < k_w ins ->
  calc_radar_moments Gam e ins o false s = (Ok tt, s1) ->
  forall h i t k, In h hs -> cell e i t k -> holds_none s h i t k ->
  value s1 (out "Ze" h false) i t k = XNaN.
Proof. exact rm_missing. Qed.
Print Assumptions C82_radar_no_condensate.
(** The velocity lies between those of the slowest and fastest particles, and
    the width is at most their difference. *)
Theorem C82_radar_velocity_range : forall Gam e ins o hs s s1,
  rmicro_tables_ok e -> r_emp o = false -> r_rad o = false -> classes_of e (r_hyds o) hs -> plain hs ->
  (forall h, In h hs -> gamma_class e h) -> 0 < k_w ins ->
  calc_radar_moments Gam e ins o false s = (Ok tt, s1) ->
  forall h tab D B A w x i t k q n r lo hi,
  In h hs -> class_table e ins (r_mie o) h tab -> particle_table tab D B A ->
  (forall b, In b B -> 0 < b) -> (2 <= length D)%nat -> cell e i t k ->
  holds_particles e s h i t k q n r -> gamma_known Gam (class_shape e (r_kw o) h n) ->
  class_speed e h w -> air_factor e s h t k x -> (forall d, In d D -> lo <= w d * x <= hi) ->
  exists v, value s1 (out "Vd" h false) i t k = XF v /\ lo <= v <= hi /\
    (r_width o = true -> exists g, value s1 (out "sigma_d" h false) i t k = XF g /\ 0 <= g <= hi - lo).
Proof. exact rm_speed. Qed.
Print Assumptions C82_radar_velocity_range.
Example C82_witness : exists s1 s2,
  calc_radar_moments w_gam w_mg2 (m_with w_radar) (m_ropts ["pl"; "cl"; "ci"]%string) false m_ds = (Ok tt, s1) /\
  calc_radar_moments w_gam w_mg2 (m_with w_radar) (m_ropts ["cl"; "pl"; "ci"]%string) false m_ds = (Ok tt, s2) /\
  value s1 "sub_col_Ze_cl_strat" 0 0 1 = XNaN /\
  value s1 "sub_col_Vd_pl_strat" 0 0 1 = XF (-8) /\ value s1 "sub_col_Vd_ci_strat" 0 0 1 = XF (-1) /\
  value s1 "sub_col_Vd_tot_strat" 0 0 1 = XF (-1) /\
  exists v, value s2 "sub_col_Vd_tot_strat" 0 0 1 = XF v /\ v < -1.
Proof. exact m_velocity. Qed.
Example C82_hypotheses : rmicro_tables_ok w_mg2 /\ plain ["pl"; "cl"; "ci"]%string /\ (forall h, gamma_class w_mg2 h) /\
  0 < k_w (m_with w_radar) /\ 0 < wavelen (m_with w_radar) /\
  (forall h i t k, In h ["pl"; "ci"]%string -> holds_particles w_mg2 m_ds h i t k (m_q h) (1/100) (m_r h)) /\
  (forall i t k, holds_none m_ds "cl" i t k) /\
  (forall h, In h ["pl"; "ci"]%string -> class_speed w_mg2 h (fun d => - (m_a h * Rpower d 0))) /\
  (forall h t k, In h ["pl"; "ci"]%string -> air_factor w_mg2 m_ds h t k 1) /\
  (forall h, In h ["cl"; "pl"; "ci"]%string -> class_table w_mg2 (m_with w_radar) false h (map XF m_D, map XF m_B, map XF m_A)) /\
  particle_table (map XF m_D, map XF m_B, map XF m_A) m_D m_B m_A.
Proof. exact m_C82. Qed.

(** C83: the total velocity is the reflectivity-weighted mean over the
    classes.  Proved for the classes from "cl" on ([from_cl]), hence for all
    when "cl" is listed first or not at all; the classes listed before "cl"
    are missing from the mean, which refutes the full claim. *)
Theorem C83_total_velocity_partial : forall Gam e ins o hs s s1,
  rmicro_tables_ok e -> r_emp o = false -> r_rad o = false -> classes_of e (r_hyds o) hs -> plain hs ->
  (forall h, In h hs -> gamma_class e h) -> 0 < k_w ins ->
  calc_radar_moments Gam e ins o false s = (Ok tt, s1) ->
  forall i t k, cell e i t k -> 0 < wavelen ins ->
  (forall h, In h (from_cl hs) -> determined Gam e ins o s h i t k) ->
  (exists h q n r, In h (from_cl hs) /\ holds_particles e s h i t k q n r) ->
  0 < sum_over (from_cl hs) (fun h => linear (value s1 (out "Ze" h false) i t k)) /\
  value s1 (out "Vd" "tot" false) i t k
  = XF (sum_over (from_cl hs) (fun h => linear (value s1 (out "Ze" h false) i t k) * speed_of (value s1 (out "Vd" h false) i t k))
        / sum_over (from_cl hs) (fun h => linear (value s1 (out "Ze" h false) i t k))).
Proof. exact rm_total_velocity. Qed.
Print Assumptions C83_total_velocity_partial.
Theorem C83_classes_before_cl_dropped : forall pre post, ~ In "cl"%string post ->
  from_cl (pre ++ "cl"%string :: post) = "cl"%string :: post.
Proof. exact from_cl_cut. Qed.
Print Assumptions C83_classes_before_cl_dropped.
Theorem C83_without_cl_none_dropped : forall hs, ~ In "cl"%string hs -> from_cl hs = hs.
Proof. exact from_cl_none. Qed.
Print Assumptions C83_without_cl_none_dropped.
Theorem C83_total_velocity_refuted : exists e ins hs s s1 i t k,
  calc_radar_moments w_gam e ins (m_ropts hs) false s = (Ok tt, s1) /\ cell e i t k /\
  rmicro_tables_ok e /\ plain hs /\ (forall h, In h hs -> gamma_class e h) /\ 0 < k_w ins /\ 0 < wavelen ins /\
  (forall h, In h hs -> determined w_gam e ins (m_ropts hs) s h i t k) /\
  (exists h q n r, In h hs /\ holds_particles e s h i t k q n r) /\
  value s1 (out "Vd" "tot" false) i t k
  <> XF (sum_over hs (fun h => linear (value s1 (out "Ze" h false) i t k) * speed_of (value s1 (out "Vd" h false) i t k))
        / sum_over hs (fun h => linear (value s1 (out "Ze" h false) i t k))).
Proof. exact m_mean_refuted. Qed.
Print Assumptions C83_total_velocity_refuted.

(** C84: the total reflectivity is, in linear units, the sum over the classes
    added to the total stored before the call. *)
Theorem C84_radar_total : forall Gam e ins o hs s s1,
  rmicro_tables_ok e -> r_emp o = false -> r_rad o = false -> classes_of e (r_hyds o) hs -> plain hs ->
  (forall h, In h hs -> gamma_class e h) -> 0 < k_w ins ->
  calc_radar_moments Gam e ins o false s = (Ok tt, s1) ->
  forall i t k, cell e i t k -> 0 < wavelen ins -> (forall h, In h hs -> determined Gam e ins o s h i t k) ->
  value s1 (out "Ze" "tot" false) i t k
  = to_dBZ (xadd (Ze_before s i t k) (XF (sum_over hs (fun h => linear (value s1 (out "Ze" h false) i t k))))).
Proof. exact rm_total_Ze. Qed.
Print Assumptions C84_radar_total.
(** The total of an earlier call is in decibels, and the linear sum is added
    to it as it is; classes and total velocity are those of the first call. *)
Theorem C84_radar_second_call : forall Gam e ins o hs s s1 s2,
  rmicro_tables_ok e -> r_emp o = false -> r_rad o = false -> classes_of e (r_hyds o) hs -> plain hs ->
  (forall h, In h hs -> gamma_class e h) -> 0 < k_w ins -> 0 < wavelen ins ->
  calc_radar_moments Gam e ins o false s = (Ok tt, s1) -> calc_radar_moments Gam e ins o false s1 = (Ok tt, s2) ->
  (forall f h i t k, In f ["Ze"; "Vd"; "sigma_d"]%string -> In h hs ->
     value s2 (out f h false) i t k = value s1 (out f h false) i t k) /\
  (forall i t k, value s2 (out "Vd" "tot" false) i t k = value s1 (out "Vd" "tot" false) i t k) /\
  (forall i t k, cell e i t k -> (forall h, In h hs -> determined Gam e ins o s h i t k) ->
     value s2 (out "Ze" "tot" false) i t k
     = to_dBZ (xadd (value s1 (out "Ze" "tot" false) i t k)
                    (XF (sum_over hs (fun h => linear (value s1 (out "Ze" h false) i t k)))))).
Proof. exact rm_repeat. Qed.
Print Assumptions C84_radar_second_call.
Example C84_witness : exists s1 s2,
  calc_radar_moments w_gam w_mg2 (m_with w_radar) (m_ropts ["pl"; "ci"]%string) false m_ds = (Ok tt, s1) /\
  calc_radar_moments w_gam w_mg2 (m_with w_radar) (m_ropts ["pl"; "ci"]%string) false s1 = (Ok tt, s2).
Proof. exact m_again. Qed.

(** C85: order of the classes and the radar.  Missing: the total velocity,
    which does depend on it. *)
Theorem C85_radar_class_order_partial : forall Gam e ins o hs1 hs2 s s1 s2,
  rmicro_tables_ok e -> r_emp o = false -> r_rad o = false -> plain hs1 -> Permutation hs1 hs2 ->
  (forall h, In h hs1 -> gamma_class e h) ->
  calc_radar_moments Gam e ins (radar_hyds o hs1) false s = (Ok tt, s1) ->
  calc_radar_moments Gam e ins (radar_hyds o hs2) false s = (Ok tt, s2) ->
  (forall f h i t k, In f ["Ze"; "Vd"; "sigma_d"]%string -> In h hs1 ->
     value s2 (out f h false) i t k = value s1 (out f h false) i t k) /\
  (forall i t k, value s2 (out "Ze" "tot" false) i t k = value s1 (out "Ze" "tot" false) i t k).
Proof. exact rm_order. Qed.
Print Assumptions C85_radar_class_order_partial.
Theorem C85_radar_class_order_refuted : exists e ins o s hs1 hs2 s1 s2 i t k,
  Permutation hs1 hs2 /\
  calc_radar_moments w_gam e ins (radar_hyds o hs1) false s = (Ok tt, s1) /\
  calc_radar_moments w_gam e ins (radar_hyds o hs2) false s = (Ok tt, s2) /\ cell e i t k /\
  value s2 (out "Vd" "tot" false) i t k <> value s1 (out "Vd" "tot" false) i t k.
Proof. exact m_order_refuted. Qed.
Print Assumptions C85_radar_class_order_refuted.

(** C86: the attenuation by hydrometeors is that of the last class alone. *)
Theorem C86_only_last_class_attenuates : forall Gam e ins o pre h s s1 s2,
  rmicro_tables_ok e -> r_emp o = false -> r_rad o = false -> plain (pre ++ [h]) ->
  (forall x, In x (pre ++ [h]) -> gamma_class e x) ->
  calc_radar_moments Gam e ins (radar_hyds o (pre ++ [h])) false s = (Ok tt, s1) ->
  calc_radar_moments Gam e ins (radar_hyds o [h]) false s = (Ok tt, s2) ->
  forall i t k, value s1 "hyd_ext_strat"%string i t k = value s2 "hyd_ext_strat"%string i t k.
Proof. exact rm_ext_last_only. Qed.
Print Assumptions C86_only_last_class_attenuates.
Theorem C86_transmittance_of_last_class : forall Gam e ins o hs s s1,
  rmicro_tables_ok e -> r_emp o = false -> r_rad o = false -> classes_of e (r_hyds o) hs -> plain hs ->
  (forall h, In h hs -> gamma_class e h) -> 0 < k_w ins ->
  calc_radar_moments Gam e ins o false s = (Ok tt, s1) ->
  forall pre h tab D B A Z w, hs = pre ++ [h] -> heights e s Z ->
  class_table e ins (r_mie o) h tab -> particle_table tab D B A -> (forall b, In b B -> 0 < b) -> (2 <= length D)%nat ->
  class_speed e h w -> (forall t k, point e t k -> exists x, air_factor e s h t k x) ->
  (forall i t k, cell e i t k -> holds_none s h i t k \/
     exists q n r, holds_particles e s h i t k q n r /\ gamma_known Gam (class_shape e (r_kw o) h n)) ->
  exists X : nat -> nat -> nat -> R,
    (forall i t k, cell e i t k -> (holds_none s h i t k -> X i t k = 0) /\
       forall q n r, holds_particles e s h i t k q n r ->
         exists lam n0, carries r q n (class_shape e (r_kw o) h n) lam n0 /\
           X i t k = population D A (gamma_psd n0 lam (class_shape e (r_kw o) h n))) /\
    forall i t k, cell e i t k ->
      value s1 "hyd_ext_strat"%string i t k = XF (two_way (path (r_sfc o) (nht e) (Z t) (X i t) k)).
Proof. exact rm_last_extinction. Qed.
Print Assumptions C86_transmittance_of_last_class.
Example C86_witness : exists s1 s2,
  calc_radar_moments w_gam w_mg2 (m_with w_radar) (m_ropts ["pl"; "ci"]%string) false m_ds = (Ok tt, s1) /\
  calc_radar_moments w_gam w_mg2 (m_with w_radar) (m_ropts ["ci"]%string) false m_ds = (Ok tt, s2) /\
  (exists lam n0, carries 1000 (1/10000) (1/100) 0 lam n0 /\ 0 < population m_D m_A (gamma_psd n0 lam 0)) /\
  forall i t k, value s1 "hyd_ext_strat"%string i t k = value s2 "hyd_ext_strat"%string i t k.
Proof. exact m_extinction. Qed.

(** C60 (microphysics method): the hydrometeor transmittance is in (0,1], 1 at
    the instrument and non-increasing away from it.  Missing for the full
    property: see C60 in Props_Radar.v and Props_Val.v. *)
Theorem C60_microphysics_partial : forall Gam e ins o hs s s1,
  rmicro_tables_ok e -> r_emp o = false -> r_rad o = false -> classes_of e (r_hyds o) hs -> plain hs ->
  (forall h, In h hs -> gamma_class e h) -> 0 < k_w ins ->
  calc_radar_moments Gam e ins o false s = (Ok tt, s1) ->
  forall pre h tab D B A Z w, hs = pre ++ [h] -> heights e s Z ->
  (forall t k, (t < ntm e)%nat -> (S k < nht e)%nat -> Z t k <= Z t (S k)) ->
  class_table e ins (r_mie o) h tab -> particle_table tab D B A -> (forall b, In b B -> 0 < b) ->
  (forall a, In a A -> 0 <= a) -> (2 <= length D)%nat ->
  class_speed e h w -> (forall t k, point e t k -> exists x, air_factor e s h t k x) ->
  (forall i t k, cell e i t k -> holds_none s h i t k \/
     exists q n r, holds_particles e s h i t k q n r /\ gamma_known Gam (class_shape e (r_kw o) h n)) ->
  exists TH : nat -> nat -> nat -> R,
    (forall i t k, cell e i t k -> value s1 "hyd_ext_strat"%string i t k = XF (TH i t k)) /\
    (forall i t k, cell e i t k -> 0 < TH i t k <= 1) /\
    (forall i t k, cell e i t k -> at_instrument (r_sfc o) (nht e) k -> TH i t k = 1) /\
    (forall i t k k', cell e i t k -> cell e i t k' -> not_nearer (r_sfc o) k k' -> TH i t k' <= TH i t k).
Proof. exact micro_transmittance. Qed.
Print Assumptions C60_microphysics_partial.
Example C60_microphysics_witness : exists s1 T,
  calc_radar_moments w_gam w_mg2 (m_with w_radar) (m_ropts ["pl"; "ci"]%string) false m_ds = (Ok tt, s1) /\
  heights w_mg2 m_ds (fun _ k => 100 * INR (S k)) /\
  value s1 "hyd_ext_strat"%string 0 0 0 = XF 1 /\ value s1 "hyd_ext_strat"%string 0 0 1 = XF T /\ 0 < T < 1.
Proof. exact m_transmittance. Qed.

(** C87: with the NSSL scheme a radar call that succeeds has cloud liquid as
    its only class. *)
Theorem C87_nssl_only_cloud_liquid : forall Gam e ins o hs s s1,
  rmicro_tables_ok e -> r_emp o = false -> r_rad o = false -> classes_of e (r_hyds o) hs -> plain hs ->
  (forall h, In h hs -> gamma_class e h) ->
  calc_radar_moments Gam e ins o false s = (Ok tt, s1) ->
  mcphys e = "nssl"%string -> forall h, In h hs -> h = "cl"%string.
Proof. exact rm_nssl. Qed.
Print Assumptions C87_nssl_only_cloud_liquid.
Example C87_witness : 
  (exists s1, calc_radar_moments w_gam (m_env "nssl") (m_with w_radar) (m_ropts ["cl"]%string) false m_ds = (Ok tt, s1)) /\
  fst (calc_radar_moments w_gam (m_env "nssl") (m_with w_radar) (m_ropts ["cl"; "pl"]%string) false m_ds) <> Ok tt.
Proof. exact m_nssl. Qed.
