(** C32 (driver part), C45, C46, C61: the simulation driver and the
    instrument constructor.  Vocabulary: Mom_Spec.v, Sim_Spec.v. *)
From Verif Require Import Mom_Base Mom_Spec Sched_Model Lidar_Model Lidar_Spec Lidar_Witness
  Radar_Model Radar_Spec Radar_Witness Class_Model Class_Witness Sim_Model Sim_Spec Sim_Final Sim_Witness Sim_Options Sim_Frame Sim_Two Sim_Again Sim_Passed.
Local Open Scope R_scope.

(** C45: frequency in Hz, wavelength in micron. *)
Theorem C45_from_frequency : forall f, 0 < f ->
  exists w, instrument_band (Some f) None = Ok (f, w) /\ 0 < w /\ f * w = 299792458 * 10 ^ 6.
Proof. exact band_freq. Qed.
Print Assumptions C45_from_frequency.
Theorem C45_from_wavelength : forall w, 0 < w ->
  exists f, instrument_band None (Some w) = Ok (f, w * 10 ^ 6) /\ 0 < f /\ f * (w * 10 ^ 6) = 299792458 * 10 ^ 6.
Proof. exact band_wave. Qed.
Print Assumptions C45_from_wavelength.
Example C45_witness : 0 < 35 / 10 /\ 0 < 532 / 1000.
Proof. lra. Qed.
Theorem C45_neither : instrument_band None None = Raise ValueError.
Proof. exact eq_refl. Qed.
Print Assumptions C45_neither.
(** A caller that gives both is not checked. *)
Theorem C45_both_given_unchecked : exists f w, instrument_band (Some 35) (Some 1) = Ok (f, w) /\ f * w <> 299792458 * 10 ^ 6.
Proof. exact w_both_given. Qed.
Print Assumptions C45_both_given_unchecked.

(** C46: once the moments are computed, every later step finds its inputs. *)
Theorem C46_radar_order : forall Gam e ins a o s s1 s2,
  own_inputs e -> m_only o = false -> lower (i_class ins) = "radar"%string -> m_reg o = false ->
  (m_classify o = true -> each_type e (fun c => hasb s (fn c "cl"))) ->
  calc_radar_moments Gam e ins (sim_ropts e a o false) false s = (Ok tt, s1) ->
  (if p_conv e then calc_radar_moments Gam e ins (sim_ropts e a o true) true s1 = (Ok tt, s2) else s2 = s1) ->
  exists s', simulate Gam e ins a o s = (Ok tt, s').
Proof. exact sim_radar_order. Qed.
Print Assumptions C46_radar_order.
Theorem C46_lidar_order_partial : forall Gam e ins a o hs s s1 s2,
  own_inputs e -> m_only o = false -> lower (i_class ins) = "lidar"%string ->
  classes_of e (m_hyds o) hs -> (exists h0 rest, hyds e = h0 :: rest /\ In h0 hs) ->
  (forall h, In h hs -> exists w, assoc (ldr_hyd e) h = Some w) ->
  (m_classify o = true -> i_str ins = "HSRL"%string /\ numbered (ia_thresh a)) ->
  calc_lidar_moments Gam e ins (sim_lopts e a o false) false s = (Ok tt, s1) ->
  (if p_conv e then calc_lidar_moments Gam e ins (sim_lopts e a o true) true s1 = (Ok tt, s2) else s2 = s1) ->
  exists s', simulate Gam e ins a o s = (Ok tt, s').
Proof. exact sim_lidar_order. Qed.
Print Assumptions C46_lidar_order_partial.
(** Leaving the model's first class out of the lidar simulation fails. *)
Theorem C46_lidar_order_refuted : forall Gam, exists s1 s2 s',
  calc_lidar_moments Gam w_e w_ins (sim_lopts w_e w_iattr (w_sopts false None (Some ["ci"%string])) false) false w_ds = (Ok tt, s1) /\
  calc_lidar_moments Gam w_e w_ins (sim_lopts w_e w_iattr (w_sopts false None (Some ["ci"%string])) true) true s1 = (Ok tt, s2) /\
  simulate Gam w_e w_ins w_iattr (w_sopts false None (Some ["ci"%string])) w_ds = (Raise KeyError, s').
Proof. exact w_first_class. Qed.
Print Assumptions C46_lidar_order_refuted.
(** The whole simulation with the empirical method, from the generated
    fields, for every combination of the other options. *)
Theorem C46_radar_empirical : forall Gam e ins a o hs rho s,
  own_inputs e -> m_only o = false -> lower (i_class ins) = "radar"%string -> m_reg o = false -> m_emp o = true ->
  classes_of e (m_hyds o) hs -> hs <> [] -> assoc (rho_hyd e) "cl" = Some (RConst rho) ->
  air_fields e s -> each_type e (fun c => mass_fields c hs s) ->
  (m_classify o = true -> each_type e (fun c => hasb s (fn c "cl"))) ->
  exists s', simulate Gam e ins a o s = (Ok tt, s').
Proof. exact sim_radar_empirical. Qed.
Print Assumptions C46_radar_empirical.
Theorem C46_lidar_empirical : forall Gam e ins a o hs s,
  own_inputs e -> m_only o = false -> lower (i_class ins) = "lidar"%string -> m_emp o = true ->
  classes_of e (m_hyds o) hs -> (exists h0 rest, hyds e = h0 :: rest /\ In h0 hs) ->
  optical_tables e hs -> (forall h, In h hs -> exists w, assoc (ldr_hyd e) h = Some w) ->
  air_fields e s -> each_type e (fun c => mass_fields c hs s /\ radius_fields e c hs s) ->
  (m_classify o = true -> i_str ins = "HSRL"%string /\ numbered (ia_thresh a)) ->
  exists s', simulate Gam e ins a o s = (Ok tt, s').
Proof. exact sim_lidar_empirical. Qed.
Print Assumptions C46_lidar_empirical.
Example C46_witness : forall Gam,
  (exists s', simulate Gam w_e w_kazr w_iattr (w_sopts true None None) w_ds = (Ok tt, s')) /\
  (exists s', simulate Gam w_e w_ins w_iattr (w_sopts true None None) w_ds = (Ok tt, s')).
Proof. exact (fun Gam => conj (w_radar_sim Gam) (w_lidar_sim Gam)). Qed.
Theorem C46_unsupported_class : forall Gam e ins a o s,
  m_only o = false -> lower (i_class ins) <> "radar"%string -> lower (i_class ins) <> "lidar"%string ->
  simulate Gam e ins a o s = (Raise ValueError, s).
Proof. exact sim_unsupported. Qed.
Print Assumptions C46_unsupported_class.
Theorem C46_generation_only : forall Gam e ins a o s, m_only o = true -> simulate Gam e ins a o s = (Ok tt, s).
Proof. exact sim_only. Qed.
Print Assumptions C46_generation_only.

(** C61: a classified simulation of a lidar other than the HSRL never
    completes. *)
Theorem C61_other_lidars_not_classified : forall Gam e ins a o s r s',
  m_only o = false -> lower (i_class ins) = "lidar"%string -> m_classify o = true ->
  i_str ins <> "HSRL"%string -> simulate Gam e ins a o s = (r, s') -> r <> Ok tt.
Proof. exact sim_not_hsrl. Qed.
Print Assumptions C61_other_lidars_not_classified.
Example C61_witness : forall Gam,
  (exists s', simulate Gam w_e w_ceil w_iattr (w_sopts false None None) w_ds = (Ok tt, s')) /\
  fst (simulate Gam w_e w_ceil w_iattr (w_sopts true None None) w_ds) = Raise ValueError.
Proof. exact w_other_lidar. Qed.

(** C32: the reference range of a simulation is 1 km, unless a keyword
    [reg_rng] is passed as well. *)
Theorem C32_driver_reference : forall Gam e ins a o s s' ref Z,
  own_inputs e -> m_only o = false -> lower (i_class ins) = "radar"%string ->
  (if m_reg o then m_ref o = Some ref else ref = 1000) -> 0 < ref ->
  real2 e s (z_name e) Z -> (forall t k, point e t k -> 0 < Z t k) ->
  simulate Gam e ins a o s = (Ok tt, s') ->
  real2 e s' "Ze_min" (fun t k => min_detectable (z_min_1km ins) ref (Z t k)).
Proof. exact sim_ref_law. Qed.
Print Assumptions C32_driver_reference.
Theorem C32_driver_reference_refuted : forall Gam, exists s' f,
  simulate Gam w_e w_kazr w_iattr (w_sopts false (Some 2000) None) w_ds = (Ok tt, s') /\
  real2 w_e s' "Ze_min" f /\ exists Z, real2 w_e w_ds (z_name w_e) Z /\ (forall t k, point w_e t k -> 0 < Z t k) /\
  f 0%nat 0%nat <> min_detectable (z_min_1km w_kazr) 2000 (Z 0%nat 0%nat).
Proof. exact w_ref_ignored. Qed.
Print Assumptions C32_driver_reference_refuted.
Theorem C32_driver_keyword_alone : forall Gam e ins a o s,
  m_only o = false -> lower (i_class ins) = "radar"%string -> m_reg o = true -> m_ref o = None ->
  simulate Gam e ins a o s = (Raise KeyError, s).
Proof. exact sim_reg_alone. Qed.
Print Assumptions C32_driver_keyword_alone.

(** C140: an option passed to the driver replaces the instrument's default:
    the call gives what it would give without the option on the same
    instrument with that default.  Missing from C140: the limit of optical
    depth of a lidar when the result is classified (the classification always
    takes the instrument's limit, see C26). *)
Theorem C140_direction : forall Gam e ins a o b mie ext eta s,
  simulate Gam e ins a (passing o (Some b) mie ext eta) s = simulate Gam e ins (looking a b) (passing o None mie ext eta) s.
Proof. exact option_direction. Qed.
Print Assumptions C140_direction.
Theorem C140_eta : forall Gam e ins a o sfc mie ext x s,
  simulate Gam e ins a (passing o sfc mie ext (Some x)) s = simulate Gam e ins (scattering_eta a x) (passing o sfc mie ext None) s.
Proof. exact option_eta. Qed.
Print Assumptions C140_eta.
Theorem C140_limit_partial : forall Gam e ins a o sfc mie x eta s,
  m_classify o = false \/ lower (i_class ins) = "radar"%string ->
  simulate Gam e ins a (passing o sfc mie (Some x) eta) s = simulate Gam e (limited ins x) a (passing o sfc mie None eta) s.
Proof. exact option_ext. Qed.
Print Assumptions C140_limit_partial.
(** Without [mie_for_ice], the bulk method and P3 take bulk ice; the
    microphysics method takes Mie spheres for stratiform ice. *)
Theorem C140_ice_default : forall Gam e ins a o sfc ext eta b s,
  (b = false /\ (m_rad o = true \/ lower (mcphys e) = "p3"%string)) \/
  (b = true /\ m_rad o = false /\ lower (mcphys e) <> "p3"%string /\ p_conv e = false) ->
  simulate Gam e ins a (passing o sfc None ext eta) s = simulate Gam e ins a (passing o sfc (Some b) ext eta) s.
Proof. exact option_mie. Qed.
Print Assumptions C140_ice_default.
(** With convection, the microphysics method takes Mie spheres for stratiform
    and bulk ice for convective columns ([sim_lopts], [sim_ropts]: the options
    the driver hands to the lidar and radar moments of one cloud type). *)
Theorem C140_ice_by_cloud_type : forall e a o sfc ext eta,
  m_rad o = false -> lower (mcphys e) <> "p3"%string ->
  (sim_lopts e a (passing o sfc None ext eta) false = sim_lopts e a (passing o sfc (Some true) ext eta) false /\
   sim_lopts e a (passing o sfc None ext eta) true = sim_lopts e a (passing o sfc (Some false) ext eta) true) /\
  (sim_ropts e a (passing o sfc None ext eta) false = sim_ropts e a (passing o sfc (Some true) ext eta) false /\
   sim_ropts e a (passing o sfc None ext eta) true = sim_ropts e a (passing o sfc (Some false) ext eta) true).
Proof. exact ice_by_type. Qed.
Print Assumptions C140_ice_by_cloud_type.
(** The remaining options reach the moments and the classification as they
    are; the COSP emulation runs with its published defaults. *)
Theorem C140_radar_options : forall Gam e ins a o s s', m_only o = false -> lower (i_class ins) = "radar"%string ->
  simulate Gam e ins a o s = (Ok tt, s') ->
  exists s1, calc_radar_moments Gam e ins {|
    r_sfc := match m_sfc o with Some b => b | None => ia_sfc a end; r_hyds := m_hyds o; r_sched := m_sched o;
    r_mie := sim_mie e o false; r_rad := m_rad o; r_emp := m_emp o; r_width := m_width o; r_kw := m_kw o |} false s = (Ok tt, s1).
Proof. exact radar_options. Qed.
Print Assumptions C140_radar_options.
Theorem C140_lidar_options : forall Gam e ins a o s s', m_only o = false -> lower (i_class ins) = "lidar"%string ->
  simulate Gam e ins a o s = (Ok tt, s') ->
  (exists s1, calc_lidar_moments Gam e ins {|
    o_sfc := match m_sfc o with Some b => b | None => ia_sfc a end; o_hyds := m_hyds o; o_sched := m_sched o;
    o_eta := match m_eta o with Some x => x | None => ia_eta a end;
    o_mie := sim_mie e o false; o_rad := m_rad o; o_emp := m_emp o; o_kw := m_kw o |} false s = (Ok tt, s1)) /\
  (m_classify o = true -> exists s2, lidar_emulate_cosp_phase e ins {|
    c_eta := match m_eta o with Some x => x | None => ia_eta a end; c_sfc := match m_sfc o with Some b => b | None => ia_sfc a end;
    c_curve := [9032; -2136; 173394/1000; -3951/1000; 256/1000; -9478/10000000]; c_liq := [4099/10000; 9/1000; 0]; c_ice := [2904/10000; 0];
    c_cloud := 5; c_undef := 30; c_precip := true; c_conv0 := m_conv0 o; c_atb := false; c_hyds := m_hyds o |} s2 = (Ok tt, s')).
Proof. exact lidar_options. Qed.
Print Assumptions C140_lidar_options.
Example C140_witness : forall Gam, exists s', simulate Gam w_e w_ins w_iattr (passing (w_sopts true None None) None None None None) w_ds = (Ok tt, s').
Proof. exact w_lidar_sim. Qed.

(** C144: without [hyd_types] a simulation is made for the model's own
    classes; a model that lists none is refused and nothing is written. *)
Theorem C144_default_classes : forall Gam e ins a o s, hyds e <> [] ->
  simulate Gam e ins a (asking o None) s = simulate Gam e ins a (asking o (Some (hyds e))) s.
Proof. exact default_classes. Qed.
Print Assumptions C144_default_classes.
Theorem C144_no_classes : forall Gam e ins a o s, hyds e = [] -> m_only o = false -> m_reg o = false ->
  In (lower (i_class ins)) ["radar"; "lidar"]%string ->
  simulate Gam e ins a (asking o None) s = (Raise ValueError, s).
Proof. exact no_classes. Qed.
Print Assumptions C144_no_classes.
Example C144_witness : hyds w_e <> [] /\ lower (i_class w_ins) = "lidar"%string /\ m_only (w_sopts true None None) = false /\ m_reg (w_sopts true None None) = false /\
  forall Gam, exists s', simulate Gam w_e w_ins w_iattr (asking (w_sopts true None None) None) w_ds = (Ok tt, s').
Proof. split; [discriminate|]. do 3 (split; [reflexivity|]). exact w_lidar_sim. Qed.

(** C145: whatever instruments are simulated on a model object, one after the
    other and whether they succeed or fail, its fields stay as they were:
    every field that is not a moment or a mask, and all subcolumn mixing
    ratios, number concentrations and flags. *)
Theorem C145_fields_kept : forall Gam e calls s x, ~ result_name x ->
  assoc (dvars (simulate_all Gam e calls s)) x = assoc (dvars s) x.
Proof. exact all_spare. Qed.
Print Assumptions C145_fields_kept.
Theorem C145_subcolumns_kept : forall Gam e calls s c h k,
  In k ["_q_subcolumns_"; "_n_subcolumns_"; "_frac_subcolumns_"]%string ->
  let x := ((if c : bool then "conv" else "strat") ++ k ++ h)%string in
  assoc (dvars (simulate_all Gam e calls s)) x = assoc (dvars s) x.
Proof. exact subcolumns_spared. Qed.
Print Assumptions C145_subcolumns_kept.
Example C145_witness : ~ result_name "re_cl" /\ has2 w_ds "re_cl" /\ has3 w_ds "strat_q_subcolumns_cl" /\
  forall Gam, exists s', simulate Gam w_e w_ins w_iattr (w_sopts true None None) w_ds = (Ok tt, s').
Proof.
  split. { intros [[H|[y H]]|[y H]]; [unfold moment_names in H; simpl in H; intuition discriminate|discriminate|simpl in H; intuition discriminate]. }
  split; [eexists; reflexivity|]. split; [eexists; reflexivity|]. exact w_lidar_sim.
Qed.

(** C146: with the empirical and the bulk method, a radar and a lidar can be
    simulated on one model object in either order.  Whether the radar was
    simulated before (successfully or not) changes neither the outcome nor
    the results of the lidar, and the lidar leaves the radar's results alone. *)
Theorem C146_lidar_after_radar : forall Gam e radar lidar ar al o_r o_l,
  separate_inputs e -> i_str lidar <> (i_str radar ++ "_sounding")%string ->
  lower (i_class radar) = "radar"%string -> lower (i_class lidar) = "lidar"%string ->
  m_emp o_r || m_rad o_r = true -> m_emp o_l || m_rad o_l = true -> forall s,
  let s1 := snd (simulate Gam e radar ar o_r s) in let s2 := snd (simulate Gam e lidar al o_l s1) in
  fst (simulate Gam e lidar al o_l s1) = fst (simulate Gam e lidar al o_l s) /\
  (fst (simulate Gam e lidar al o_l s) = Ok tt -> forall x, lidar_result lidar x ->
     assoc (dvars s2) x = assoc (dvars (snd (simulate Gam e lidar al o_l s))) x) /\
  (forall x, ~ lidar_result lidar x -> assoc (dvars s2) x = assoc (dvars s1) x).
Proof. exact lidar_after_radar. Qed.
Print Assumptions C146_lidar_after_radar.
Theorem C146_radar_after_lidar : forall Gam e radar lidar ar al o_r o_l,
  separate_inputs e -> i_str lidar <> (i_str radar ++ "_sounding")%string ->
  lower (i_class radar) = "radar"%string -> lower (i_class lidar) = "lidar"%string ->
  m_emp o_r || m_rad o_r = true -> m_emp o_l || m_rad o_l = true -> forall s,
  let s1 := snd (simulate Gam e lidar al o_l s) in let s2 := snd (simulate Gam e radar ar o_r s1) in
  fst (simulate Gam e radar ar o_r s1) = fst (simulate Gam e radar ar o_r s) /\
  (fst (simulate Gam e radar ar o_r s) = Ok tt -> forall x, radar_result radar x ->
     assoc (dvars s2) x = assoc (dvars (snd (simulate Gam e radar ar o_r s))) x) /\
  (forall x, ~ radar_result radar x -> assoc (dvars s2) x = assoc (dvars s1) x).
Proof. exact radar_after_lidar. Qed.
Print Assumptions C146_radar_after_lidar.
(** When both succeed, both orders leave the same dataset. *)
Theorem C146_either_order : forall Gam e radar lidar ar al o_r o_l,
  separate_inputs e -> i_str lidar <> (i_str radar ++ "_sounding")%string ->
  lower (i_class radar) = "radar"%string -> lower (i_class lidar) = "lidar"%string ->
  m_emp o_r || m_rad o_r = true -> m_emp o_l || m_rad o_l = true -> forall s,
  fst (simulate Gam e radar ar o_r s) = Ok tt -> fst (simulate Gam e lidar al o_l s) = Ok tt ->
  let s1 := snd (simulate Gam e radar ar o_r s) in let s2 := snd (simulate Gam e lidar al o_l s) in
  fst (simulate Gam e lidar al o_l s1) = Ok tt /\ fst (simulate Gam e radar ar o_r s2) = Ok tt /\
  forall x, assoc (dvars (snd (simulate Gam e lidar al o_l s1))) x = assoc (dvars (snd (simulate Gam e radar ar o_r s2))) x.
Proof. exact either_order. Qed.
Print Assumptions C146_either_order.
Example C146_witness : separate_inputs w_e /\ i_str w_ins <> (i_str w_kazr ++ "_sounding")%string /\
  lower (i_class w_kazr) = "radar"%string /\ lower (i_class w_ins) = "lidar"%string /\ m_emp (w_sopts true None None) = true /\
  forall Gam, (exists s', simulate Gam w_e w_kazr w_iattr (w_sopts true None None) w_ds = (Ok tt, s')) /\
              (exists s', simulate Gam w_e w_ins w_iattr (w_sopts true None None) w_ds = (Ok tt, s')).
Proof.
  split; [exact w_separate|]. split; [discriminate|]. do 3 (split; [reflexivity|]).
  intro Gam. split; [exact (w_radar_sim Gam)|exact (w_lidar_sim Gam)].
Qed.

(** C147: with the empirical and the bulk method, making a successful
    simulation again succeeds and leaves the dataset as it is (the
    microphysics method does not: C35_microphysics_refuted). *)
Theorem C147_simulate_again : forall Gam e ins, separate_inputs e -> forall a o s s1, m_emp o || m_rad o = true ->
  simulate Gam e ins a o s = (Ok tt, s1) ->
  exists s2, simulate Gam e ins a o s1 = (Ok tt, s2) /\ forall x, assoc (dvars s2) x = assoc (dvars s1) x.
Proof. exact simulate_again. Qed.
Print Assumptions C147_simulate_again.
Example C147_witness : separate_inputs w_e /\ m_emp (w_sopts true None None) = true /\
  forall Gam, exists s', simulate Gam w_e w_ins w_iattr (w_sopts true None None) w_ds = (Ok tt, s').
Proof. split; [exact w_separate|]. split; [reflexivity|exact w_lidar_sim]. Qed.

(** C148: a radar and a lidar that can each be simulated on a dataset leave
    the same dataset however often and in whatever order they are simulated. *)
Theorem C148_any_schedule : forall Gam e radar lidar ar al o_r o_l,
  separate_inputs e -> i_str lidar <> (i_str radar ++ "_sounding")%string ->
  lower (i_class radar) = "radar"%string -> lower (i_class lidar) = "lidar"%string ->
  m_emp o_r || m_rad o_r = true -> m_emp o_l || m_rad o_l = true -> forall s,
  fst (simulate Gam e radar ar o_r s) = Ok tt -> fst (simulate Gam e lidar al o_l s) = Ok tt ->
  forall calls, (forall c, In c calls -> c = (radar, ar, o_r) \/ c = (lidar, al, o_l)) ->
  In (radar, ar, o_r) calls -> In (lidar, al, o_l) calls ->
  forall x, assoc (dvars (simulate_all Gam e calls s)) x = assoc (dvars (simulate_all Gam e [(radar, ar, o_r); (lidar, al, o_l)] s)) x.
Proof. exact any_schedule. Qed.
Print Assumptions C148_any_schedule.
Example C148_witness : separate_inputs w_e /\ i_str w_ins <> (i_str w_kazr ++ "_sounding")%string /\
  lower (i_class w_kazr) = "radar"%string /\ lower (i_class w_ins) = "lidar"%string /\ m_emp (w_sopts true None None) = true /\
  forall Gam, (exists s', simulate Gam w_e w_kazr w_iattr (w_sopts true None None) w_ds = (Ok tt, s')) /\
              (exists s', simulate Gam w_e w_ins w_iattr (w_sopts true None None) w_ds = (Ok tt, s')).
Proof.
  split; [exact w_separate|]. split; [discriminate|]. do 3 (split; [reflexivity|]).
  intro Gam. split; [exact (w_radar_sim Gam)|exact (w_lidar_sim Gam)].
Qed.
