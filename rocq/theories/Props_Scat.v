(** Scattering tables, refractive indices, fall velocities, shipped instruments. *)
From Coq Require Import Reals Lra ZArith.
From Verif Require Import Inst_Spec Inst_Facts Xds_Spec Scat_Spec Scat_Facts Scat_Load Scat_Vel Scat_Air Scat_Fill Scat_Drop.
Local Open Scope string_scope.
Local Open Scope list_scope.
Local Open Scope R_scope.

(** C93: the refractive index of liquid water is the root, with both parts
    positive, of the Debye permittivity; its dielectric factor |K|^2 is between 0
    and 1. *)
Theorem C93_water_index : forall w t, 0 < w -> -40 <= t <= 40 ->
  cmul (water_index w t) (water_index w t) = debye (gigahertz w) t /\
  0 < snd (water_index w t) < fst (water_index w t) /\ 0 < dielectric_factor (water_index w t) < 1.
Proof. exact water_index_ok. Qed.
Print Assumptions C93_water_index.
Theorem C93_ice_index : forall w t rho, 0 < rho ->
  cmul (ice_index w t rho) (ice_index w t rho) = (1 + 2 * rho, 8 / 10000 * (52 / 100 * rho + 62 / 100 * rho ^ 2)) /\
  1 < fst (ice_index w t rho) /\ 0 < snd (ice_index w t rho) /\ 0 < dielectric_factor (ice_index w t rho) < 1.
Proof. exact ice_index_ok. Qed.
Print Assumptions C93_ice_index.
Example C93_witness : 0 < 86 / 100 /\ -40 <= -10 <= 40 /\ 0 < 917 / 1000.
Proof. lra. Qed.

(** C94: in a computed table every cross-section is the efficiency of the same name
    times the cross-section of the particle. *)
Theorem C94_ice_sections_partial : forall mie diams w t p rho rows r,
  scat_ice mie diams w t p rho = Ok rows -> In r rows ->
  s_alpha r = s_ext r * disc (s_diam r) /\ s_scat r = s_sca r * disc (s_diam r) /\ s_beta r = s_back r * disc (s_diam r).
Proof. exact ice_sections. Qed.
Print Assumptions C94_ice_sections_partial.
(** Missing: scattering and backscattering of water. *)
Theorem C94_water_extinction_partial : forall mie diams w t p rows r,
  scat_water mie diams w t p = Ok rows -> In r rows -> s_alpha r = s_ext r * disc (s_diam r).
Proof. intros mie diams w t p rows r H I. exact (proj1 (water_sections mie diams w t p rows r H I)). Qed.
Print Assumptions C94_water_extinction_partial.
(** A Mie code that returns one particle of 1000 nm with efficiencies 2 and 1. *)
Definition one_row (d : R) : mie_row :=
  {| m_d := d; m_ext := 2; m_sca := 2; m_abs := 0; m_g := 0; m_pr := 0; m_back := 1; m_ratio := 1 |}.
Definition demo_mie (m : cx) (w n : R) (nd : nat) (lo hi : R) : list mie_row := repeat (one_row lo) nd.
Theorem C94_water_backscatter_refuted : exists mie diams w t p rows r,
  scat_water mie diams w t p = Ok rows /\ In r rows /\
  s_beta r <> s_back r * disc (s_diam r) /\ s_scat r <> s_sca r * disc (s_diam r).
Proof.
  exists demo_mie, [1], 1, 0, 1000. eexists. eexists. split; [reflexivity|]. split; [left; reflexivity|].
  pose proof PI_RGT_0. unfold disc. cbn. split; lra.
Qed.
Print Assumptions C94_water_backscatter_refuted.
Example C94_witness : exists rows, scat_ice demo_mie [1; 3] 1 0 1000 (917 / 1000) = Ok rows /\ length rows = 2%nat.
Proof. eexists. split; reflexivity. Qed.

(** C95: what the tables of water hold: the two cross-sections are exchanged, and the
    size parameter (water and ice) is a thousand times pi D / wavelength. *)
Theorem C95_water_exchanged : forall mie diams w t p rows r,
  scat_water mie diams w t p = Ok rows -> In r rows ->
  s_scat r = s_back r * disc (s_diam r) /\ s_beta r = s_sca r * disc (s_diam r).
Proof. intros mie diams w t p rows r H I. exact (proj2 (water_sections mie diams w t p rows r H I)). Qed.
Print Assumptions C95_water_exchanged.
Theorem C95_water_size_parameter : forall mie diams w t p rows r, 0 < w ->
  scat_water mie diams w t p = Ok rows -> In r rows ->
  s_wave r = w * 10 ^ 4 /\ s_size r = 1000 * (PI * s_diam r / (s_wave r * / 10 ^ 6)).
Proof. exact size_water. Qed.
Print Assumptions C95_water_size_parameter.
Theorem C95_ice_size_parameter : forall mie diams w t p rho rows r, 0 < w ->
  scat_ice mie diams w t p rho = Ok rows -> In r rows ->
  s_wave r = w * 10 ^ 4 /\ s_size r = 1000 * (PI * s_diam r / (s_wave r * / 10 ^ 6)).
Proof. exact size_ice. Qed.
Print Assumptions C95_ice_size_parameter.
(** The diameters asked for are in micrometres, those of the table in metres. *)
Theorem C95_diameters : forall mie, mie_contract mie -> forall diams w t p rho rows r,
  scat_water mie diams w t p = Ok rows \/ scat_ice mie diams w t p rho = Ok rows -> In r rows ->
  length rows = length diams /\
  exists a b, In a diams /\ In b diams /\ (forall d, In d diams -> a <= d <= b) /\ a * / 10 ^ 6 <= s_diam r <= b * / 10 ^ 6.
Proof.
  intros mie MC diams w t p rho rows r [H|H] I; [exact (water_diams mie MC diams w t p rows r H I)|exact (ice_diams mie MC diams w t p rho rows r H I)].
Qed.
Print Assumptions C95_diameters.
Example C95_witness : exists rows, scat_water demo_mie [1; 3] 1 0 1000 = Ok rows /\ length rows = 2%nat.
Proof. eexists. split; reflexivity. Qed.

(** C141: the Mie solver is asked about the particle's index and the
    wavelength in nm, in air (refractivity 77.6e-6 p/T, p in hPa): solvers that
    agree there give the same table. *)
Theorem C141_in_air : forall t p, -73 <= t -> 0 <= p <= 1100 ->
  exists n, Rabs (n - (1 + 776 / 10 * / 10 ^ 6 * (p / (t + 27315 / 100)))) <= / 10 ^ 10 /\
  forall (mie mie' : cx -> R -> R -> nat -> R -> R -> list mie_row) diams w,
    ((forall lo hi, mie (water_index w t) (w * 10 ^ 7) n (length diams) lo hi = mie' (water_index w t) (w * 10 ^ 7) n (length diams) lo hi) ->
     scat_water mie diams w t p = scat_water mie' diams w t p) /\
    (forall rho, (forall lo hi, mie (ice_index w t rho) (w * 10 ^ 7) n (length diams) lo hi = mie' (ice_index w t rho) (w * 10 ^ 7) n (length diams) lo hi) ->
     scat_ice mie diams w t p rho = scat_ice mie' diams w t p rho).
Proof. exact in_air. Qed.
Print Assumptions C141_in_air.
Example C141_witness : -73 <= -10 /\ 0 <= 1013 <= 1100 /\ scat_water demo_mie [1; 3] 1 (-10) 1013 <> Raise ValueError.
Proof. split; [lra|]. split; [lra|discriminate]. Qed.

(** C96: a Mie table read from a file (micrometres) is in metres; if in a row of the
    file cross-section = efficiency x particle cross-section, then in the table too. *)
Theorem C96_mie_table : forall rows, exists t, load_mie rows = Ok t /\
  forall i w r x mr mi sc al be qs qe qb,
  nth_error rows i = Some (map XF [w; r; x; mr; mi; sc; al; be; qs; qe; qb]) ->
  entry t "wavelength" i = XF w /\ entry t "p_diam" i = XF (2 * r / 10 ^ 6) /\ entry t "size_parameter" i = XF x /\
  entry t "compre_real" i = XF mr /\ entry t "compre_im" i = XF mi /\
  entry t "scat_p" i = XF (sc / 10 ^ 12) /\ entry t "alpha_p" i = XF (al / 10 ^ 12) /\
  entry t "beta_p" i = XF (be / 10 ^ 12 / (4 * PI)) /\
  entry t "scat_eff" i = XF qs /\ entry t "ext_eff" i = XF qe /\ entry t "backscat_eff" i = XF (qb / (4 * PI)).
Proof. exact mie_values. Qed.
Print Assumptions C96_mie_table.
Theorem C96_mie_sections : forall rows t i w r x mr mi sc al be qs qe qb, load_mie rows = Ok t ->
  nth_error rows i = Some (map XF [w; r; x; mr; mi; sc; al; be; qs; qe; qb]) ->
  sc = qs * disc (2 * r) -> al = qe * disc (2 * r) -> be = qb * disc (2 * r) ->
  exists d s a b es ee eb, entry t "p_diam" i = XF d /\ entry t "scat_p" i = XF s /\ entry t "alpha_p" i = XF a /\
    entry t "beta_p" i = XF b /\ entry t "scat_eff" i = XF es /\ entry t "ext_eff" i = XF ee /\ entry t "backscat_eff" i = XF eb /\
    s = es * disc d /\ a = ee * disc d /\ b = eb * disc d.
Proof.
  intros rows t i w r x mr mi sc al be qs qe qb L N S A B. destruct (mie_values rows) as (t' & L' & V).
  rewrite L in L'. injection L' as <-. destruct (V i w r x mr mi sc al be qs qe qb N) as (_ & V1 & _ & _ & _ & V2 & V3 & V4 & V5 & V6 & V7).
  do 7 eexists. repeat (split; [eassumption|]). pose proof PI_RGT_0. subst. unfold disc. repeat split; field; lra.
Qed.
Print Assumptions C96_mie_sections.
Theorem C96_scattering_table_c6 : forall rows radar, exists t, load_scat rows radar "C6" = Ok t /\
  forall i f d da dv v a be sc al bc,
  nth_error rows i = Some (map XF [f; d; da; dv; v; a; be; sc; al; bc]) ->
  entry t (if radar then "frequency" else "wavelength") i = XF f /\
  entry t "p_diam" i = XF (d / 10 ^ 6) /\ entry t "p_diam_eq_A" i = XF (da / 10 ^ 6) /\ entry t "p_diam_eq_V" i = XF (dv / 10 ^ 6) /\
  entry t "V" i = XF (v / 10 ^ 18) /\ entry t "A" i = XF (a / 10 ^ 12) /\ entry t "beta_p" i = XF (be / 10 ^ 12) /\
  entry t "scat_p" i = XF (sc / 10 ^ 12) /\ entry t "alpha_p" i = XF (al / 10 ^ 12) /\ entry t "beta_p_cross" i = XF (bc / 10 ^ 12).
Proof. exact scat_c6_values. Qed.
Print Assumptions C96_scattering_table_c6.
Theorem C96_scattering_table_mdad : forall rows radar, exists t, load_scat rows radar "mDAD" = Ok t /\
  forall i f d da dv dva v a be sc al,
  nth_error rows i = Some (map XF [f; d; da; dv; dva; v; a; be; sc; al]) ->
  entry t (if radar then "frequency" else "wavelength") i = XF f /\
  entry t "p_diam" i = XF (d / 10 ^ 6) /\ entry t "p_diam_eq_A" i = XF (da / 10 ^ 6) /\ entry t "p_diam_eq_V" i = XF (dv / 10 ^ 6) /\
  entry t "p_diam_eq_VdivA" i = XF (dva / 10 ^ 6) /\
  entry t "V" i = XF (v / 10 ^ 18) /\ entry t "A" i = XF (a / 10 ^ 12) /\ entry t "beta_p" i = XF (be / 10 ^ 12) /\
  entry t "scat_p" i = XF (sc / 10 ^ 12) /\ entry t "alpha_p" i = XF (al / 10 ^ 12).
Proof. exact scat_mdad_values. Qed.
Print Assumptions C96_scattering_table_mdad.
Theorem C96_bulk_table_c6 : forall rows, exists t, load_bulk rows "C6" = Ok t /\
  forall i r qs qe qb qc ldr lr, nth_error rows i = Some [r; qs; qe; qb; qc; ldr; lr] ->
  entry t "r_e" i = r /\ entry t "Q_scat" i = qs /\ entry t "Q_ext" i = qe /\ entry t "Q_back" i = qb /\
  entry t "Q_back_cross" i = qc /\ entry t "LDR" i = ldr /\ entry t "lidar_ratio" i = lr.
Proof. exact bulk_c6_values. Qed.
Print Assumptions C96_bulk_table_c6.
Theorem C96_bulk_table_mdad : forall rows, exists t, load_bulk rows "mDAD" = Ok t /\
  forall i d qs qe qb lr, nth_error rows i = Some (map XF [d; qs; qe; qb; lr]) ->
  entry t "r_e" i = XF (d / 2) /\ entry t "D_e" i = XF d /\ entry t "Q_scat" i = XF qs /\ entry t "Q_ext" i = XF qe /\
  entry t "Q_back" i = XF qb /\ entry t "lidar_ratio" i = XF lr.
Proof. exact bulk_mdad_values. Qed.
Print Assumptions C96_bulk_table_mdad.
Theorem C96_unknown_format : forall rows radar p, p <> "C6" -> p <> "mDAD" ->
  load_scat rows radar p = Raise UnboundLocalError /\ load_bulk rows p = Raise UnboundLocalError.
Proof. exact unknown_format. Qed.
Print Assumptions C96_unknown_format.
Example C96_witness : nth_error [map XF [532 / 1000; 1; 12; 133 / 100; 0; 2 * disc (2 * 1); 2 * disc (2 * 1); 1 * disc (2 * 1); 2; 2; 1]] 0 =
  Some (map XF [532 / 1000; 1; 12; 133 / 100; 0; 2 * disc (2 * 1); 2 * disc (2 * 1); 1 * disc (2 * 1); 2; 2; 1]) /\
  nth_error [map XF [5; 2; 2; 1 / 2; 10]] 0 = Some (map XF [5; 2; 2; 1 / 2; 10]).
Proof. split; reflexivity. Qed.

(** C97: a P3 table is converted to metres column by column, nothing else is changed,
    and a missing fall velocity becomes the smallest known one. *)
Theorem C97_p3_table : forall t, (forall n, In n ("vt" :: "V" :: "d" :: p3_scaled_areas ++ p3_scaled_lengths) -> assoc t n <> None) ->
  exists t', load_p3 t = Ok t' /\
  (forall n c, In n p3_scaled_areas ->
     assoc t n = Some c -> assoc t' n = Some (map (fun v => xmul v (XF (/ 10 ^ 12))) c)) /\
  (forall n c, In n p3_scaled_lengths -> assoc t n = Some c ->
     assoc t' n = Some (map (fun v => xmul v (XF (/ 10 ^ 6))) c)) /\
  (forall c, assoc t "V" = Some c -> assoc t' "V" = Some (map (fun v => xmul v (XF (/ 10 ^ 18))) c)) /\
  (forall c, assoc t "d" = Some c -> assoc t' "p_diam" = Some (map (fun v => xmul v (XF (/ 10 ^ 6))) c)) /\
  (forall c, assoc t "vt" = Some c -> assoc t' "vt" = Some (fill_vt c)) /\
  (forall n, ~ In n ("vt" :: "V" :: "p_diam" :: p3_scaled_areas ++ p3_scaled_lengths) -> assoc t' n = assoc t n).
Proof. exact p3_values. Qed.
Print Assumptions C97_p3_table.
Theorem C97_velocities : forall c lo, In (XF lo) c -> (forall g, In g c -> g = XNaN \/ g = XP \/ exists r, g = XF r /\ lo <= r) ->
  length (fill_vt c) = length c /\
  (forall i r, nth_error c i = Some (XF r) -> nth_error (fill_vt c) i = Some (XF r)) /\
  (forall i, nth_error c i = Some XNaN \/ nth_error c i = Some XP -> nth_error (fill_vt c) i = Some (XF lo)).
Proof. exact fill_any. Qed.
Print Assumptions C97_velocities.
Example C97_velocities_case : In (XF 1) [XF 3; XNaN; XF 1; XP] /\
  forall g, In g [XF 3; XNaN; XF 1; XP] -> g = XNaN \/ g = XP \/ exists r, g = XF r /\ 1 <= r.
Proof.
  split; [simpl; tauto|]. intros g [<-|[<-|[<-|[<-|[]]]]]; auto; right; right; eexists; split; try reflexivity; lra.
Qed.
Example C97_witness : (forall n, In n ("vt" :: "V" :: "d" :: p3_scaled_areas ++ p3_scaled_lengths) ->
    assoc (map (fun n => (n, [XF 1; XNaN; XF 3])) ("vt" :: "V" :: "d" :: p3_scaled_areas ++ p3_scaled_lengths)) n <> None) /\
  axis_range [XF 1; XNaN; XF 3] 1 3.
Proof.
  split.
  - intros n I. simpl in I. repeat (destruct I as [<-|I]; [simpl; discriminate|]). destruct I.
  - split; [simpl; tauto|]. split; [simpl; tauto|]. intros g [<-|[<-|[<-|[]]]]; [right; exists 1; split; [reflexivity|lra]|left; reflexivity|].
    right. exists 3. split; [reflexivity|lra].
Qed.

(** C98: NSSL fall velocities. *)
Theorem C98_nssl_velocity : forall h d d' rho rho', 0 <= d <= d' -> 0 <= rho <= rho' ->
  exists v v', nssl_velocity h (XF d) (XF rho) = XF v /\ nssl_velocity h (XF d') (XF rho') = XF v' /\ 0 <= v <= v' /\
    (lower h = "pl" -> v' < 10).
Proof. exact velocity_ok. Qed.
Print Assumptions C98_nssl_velocity.
Theorem C98_graupel_drag : forall d rho, 0 <= d -> 0 <= rho ->
  (rho <= 798 -> nssl_velocity "gr" (XF d) (XF rho) = XF (sqrt (4 * rho * (981 / 100) / (3 * (12 / 10) * (1007 / 1000))) * sqrt d)) /\
  (800 <= rho -> nssl_velocity "gr" (XF d) (XF rho) = XF (sqrt (4 * rho * (981 / 100) / (3 * (45 / 100) * (1007 / 1000))) * sqrt d)).
Proof. exact graupel_speed. Qed.
Print Assumptions C98_graupel_drag.
Theorem C98_any_capitalisation : forall h h' d rho, lower h = lower h' -> nssl_velocity h d rho = nssl_velocity h' d rho.
Proof. exact velocity_case. Qed.
Print Assumptions C98_any_capitalisation.
Theorem C98_other_classes_do_not_fall : forall h d rho, ~ In (lower h) ["pl"; "gr"; "ha"; "sn"; "cl"] -> nssl_velocity h d rho = XF 0.
Proof. exact velocity_other. Qed.
Print Assumptions C98_other_classes_do_not_fall.
Theorem C98_missing : forall h d rho, In (lower h) ["pl"; "gr"; "ha"; "sn"; "cl"] ->
  nssl_velocity h XNaN (XF rho) = XNaN /\ (In (lower h) ["gr"; "ha"] -> nssl_velocity h d XNaN = XNaN).
Proof. exact velocity_missing. Qed.
Print Assumptions C98_missing.
Example C98_witness : 0 <= 1 / 1000 <= 2 / 1000 /\ 0 <= 300 <= 500 /\ lower "PL" = "pl" /\ ~ In (lower "ci") ["pl"; "gr"; "ha"; "sn"; "cl"].
Proof. repeat split; try lra; try reflexivity. simpl. intuition discriminate. Qed.

(** C99: the phase thresholds of the depolarisation lidars are arranged as the
    classification needs them, and a stronger signal never gets a weaker class. *)
Theorem C99_thresholds_ordered : forall d i j th th' x y y', (i < j)%nat ->
  nth_error (thresholds d) i = Some th -> nth_error (thresholds d) j = Some th' ->
  on_curve (th_ldr th) (map log10 (th_beta th)) x y -> on_curve (th_ldr th') (map log10 (th_beta th')) x y' -> y <= y'.
Proof. exact thresholds_ordered. Qed.
Print Assumptions C99_thresholds_ordered.
Theorem C99_stronger_signal : forall d x r r', ultraviolet_visible d -> r <= r' ->
  exists v v', phase_cell (thresholds d) (XF x) (XF r) = XF (INR v) /\ phase_cell (thresholds d) (XF x) (XF r') = XF (INR v') /\
    In v [0; 1; 2; 3; 4]%nat /\ (strength v <= strength v')%nat.
Proof. exact class_strength. Qed.
Print Assumptions C99_stronger_signal.
Theorem C99_class_boundaries : forall d x r, ultraviolet_visible d ->
  (phase_cell (thresholds d) (XF x) (XF r) <> XF 0 <-> reaches th_ice (XF x) (XF r)) /\
  (phase_cell (thresholds d) (XF x) (XF r) = XF 1 <-> reaches th_liquid (XF x) (XF r)).
Proof. exact class_seen. Qed.
Print Assumptions C99_class_boundaries.
Example C99_witness : ultraviolet_visible CALIOP /\ nth_error (thresholds RL) 0 = Some th_ice /\
  nth_error (thresholds RL) 3 = Some th_liquid /\
  on_curve (th_ldr th_ice) (map log10 (th_beta th_ice)) 1 (log10 (5 / 10 ^ 7)).
Proof. repeat split; try reflexivity; [do 2 right; left; reflexivity|]. right. left. cbn. split; [lra|reflexivity]. Qed.

(** C100: which table files an instrument reads. *)
Theorem C100_instrument_tables : forall d site cold extra, known_site d site ->
  exists t, construct d (lead d site cold ++ extra) = Ok t /\
  map fst (t_mie t) = ["cl"; "pl"; "ci"; "pi"] /\ map fst (t_scat t) = ["E3_ice"; "CESM_ice"; "p3_ice"] /\
  map fst (t_bulk t) = ["E3_ice"; "E3_liq"; "mie_ice_E3_PSD"; "CESM_ice"; "CESM_liq"; "mie_ice_CESM_PSD"; "p3_ice"; "p3_liq"; "mie_ice_P3_PSD"] /\
  (forall n f, In (n, f) (t_mie t ++ t_scat t ++ t_bulk t) -> In f shipped_files).
Proof. exact tables_shipped. Qed.
Print Assumptions C100_instrument_tables.
(** "_c" files (supercooled water) only for the switch and outside the ultraviolet and visible. *)
Theorem C100_temperature_and_model : forall d s site cold extra t, In (d, s) table_names -> known_site d site ->
  construct d (lead d site cold ++ extra) = Ok t ->
  exists c pi, (c = true <-> cold = true /\ ~ ultraviolet_visible d) /\ (pi = true <-> In (PS "DHARMA") extra) /\
  (forall n, In n ["cl"; "pl"] -> assoc (t_mie t) n =
     Some ("mie_tables/Mie" ++ s ++ (if c then "_liq_c.dat" else "_liq.dat"))%string) /\
  assoc (t_bulk t) "E3_liq" =
     Some ("bulk_c6_tables/bulk_" ++ s ++ (if c then "_C6PSD_mie_liq_c.dat" else "_C6PSD_mie_liq.dat"))%string /\
  (forall n, In n ["CESM_liq"; "p3_liq"] -> assoc (t_bulk t) n =
     Some ("bulk_mDAD_tables/bulk_" ++ s ++ (if c then "_mDAD_mie_liq_c.nc" else "_mDAD_mie_liq.nc"))%string) /\
  assoc (t_mie t) "pi" = Some ("mie_tables/Mie" ++ s ++ (if pi then "_pi1.dat" else "_pi.dat"))%string.
Proof. exact tables_choice_named. Qed.
Print Assumptions C100_temperature_and_model.
Theorem C100_defaults : forall d site, known_site d site ->
  construct d (match d with KAZR | WACR => [PS site] | _ => [] end) = construct d (lead d site true).
Proof. exact tables_default. Qed.
Print Assumptions C100_defaults.
Theorem C100_unknown_site : forall d site args, In d [KAZR; WACR] -> ~ known_site d site ->
  construct d (PS site :: args) = Raise ValueError.
Proof. exact site_unknown. Qed.
Print Assumptions C100_unknown_site.
(** A string as first argument ('DHARMA' alone) is taken for the temperature switch. *)
Theorem C100_string_first_fails : forall d s args, ~ In d [KAZR; WACR] -> construct d (PS s :: args) = Raise TypeError.
Proof. exact string_first. Qed.
Print Assumptions C100_string_first_fails.
Example C100_witness : known_site KAZR "NSA" /\ known_site RL "" /\ In (PS "DHARMA") [PR 1; PS "DHARMA"] /\ ~ known_site WACR "nsa".
Proof. repeat split; simpl; intuition discriminate. Qed.

(** C143: the axis ratio of rain drops (diameters in mm). *)
Theorem C143_drop_ratio : forall d, 0 <= d <= 10 -> 2 / 5 < brandes d < 1.
Proof. exact drop_ratio. Qed.
Print Assumptions C143_drop_ratio.
Theorem C143_larger_is_flatter : forall a b, 2 / 5 <= a < b -> brandes b < brandes a.
Proof. exact drop_flatter. Qed.
Print Assumptions C143_larger_is_flatter.
Example C143_witness : 0 <= 2 <= 10 /\ 2 / 5 <= 1 < 2 /\ Rabs (brandes 2 - 938 / 1000) < / 1000.
Proof. split; [lra|]. split; [lra|]. unfold brandes. apply Rabs_def1; lra. Qed.
