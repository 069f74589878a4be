(** Vocabulary for the simulation driver. *)
From Verif Require Import Mom_Base Mom_Spec Lidar_Model Lidar_Spec Class_Model Sim_Model.
Local Open Scope R_scope.

(** Names the moment calculations may write. *)
Definition moment_names : list string :=
  ["kappa_o2"; "kappa_wv"; "kappa_att"; "atm_ext"; "hyd_ext_conv"; "hyd_ext_strat"; "tau"; "u_atm"; "beta";
   "sigma_180_vol"; "sigma_180"; "sigma"; "kappa"; "N_s"; "n_s"; "N_0"; "lambda"; "mu"; "Ze_min"; "detect_mask";
   "ext_mask"]%string.
Definition moment_name (x : string) : Prop := In x moment_names \/ exists y, x = ("sub_col_" ++ y)%string.

(** Pressure, temperature, height and humidity have their own variables. *)
Definition own_names (e : menv) : Prop :=
  forall x, In x [p_name e; t_name e; z_name e; qv_name e] -> ~ moment_name x.

(** A dataset variable over (time, height), over (subcolumn, time, height),
    or a flag field over the latter. *)
Definition has2 (s : dset) (x : string) : Prop := exists a, var2 s x a.
Definition has3 (s : dset) (x : string) : Prop := exists a, var3 s x a.
Definition hasb (s : dset) (x : string) : Prop := exists a, varb s x a.

(** Names of the masks the classification stores. *)
Definition is_mask (x : string) : Prop :=
  exists y, In x ["strat_phase_mask_" ++ y; "conv_phase_mask_" ++ y; "phase_mask_" ++ y;
                  "strat_COSP_phase_mask" ++ y; "conv_COSP_phase_mask" ++ y; "COSP_phase_mask_" ++ y]%string.
(** No input variable has the name of an output. *)
Definition own_inputs (e : menv) : Prop :=
  own_names e /\ forall x, In x [p_name e; t_name e; z_name e; qv_name e] -> ~ is_mask x.

(** What a dataset must hold before the moments: pressure, temperature,
    height and humidity; the masses of the classes (and of cloud liquid) of
    one cloud type; the effective radii the model object points to. *)
Definition air_fields (e : menv) (s : dset) : Prop :=
  has2 s (p_name e) /\ has2 s (t_name e) /\ has2 s (z_name e) /\ has2 s (qv_name e).
Definition mass_fields (c : bool) (hs : list string) (s : dset) : Prop :=
  forall h, In h ("cl"%string :: hs) -> has3 s (qn c h).
Definition radius_fields (e : menv) (c : bool) (hs : list string) (s : dset) : Prop := forall h, In h hs ->
  exists rn, assoc (if c then re_conv e else re_strat e) h = Some rn /\ ~ moment_name rn /\ has2 s rn.
(** The model object's tables cover the classes. *)
Definition optical_tables (e : menv) (hs : list string) : Prop := forall h, In h hs ->
  (exists r, assoc (lidar_ratio e) h = Some r) /\
  (h = "cl"%string \/ h = "pl"%string -> exists r, assoc (rho_hyd e) h = Some (RConst r)).
(** For the stratiform and, when processed, the convective type. *)
Definition each_type (e : menv) (P : bool -> Prop) : Prop := P false /\ (p_conv e = true -> P true).
(** Thresholds whose class numbers the instrument's legend covers. *)
Definition numbered (ths : list thr) : Prop := ths <> [] /\ forall th, In th ths -> (th_ind th <= length ths)%nat.

(** The same instrument with another default, and the same call with or
    without an explicit option. *)
Definition looking (a : iattr) (b : bool) : iattr := {| ia_sfc := b; ia_eta := ia_eta a; ia_thresh := ia_thresh a |}.
Definition scattering_eta (a : iattr) (x : R) : iattr := {| ia_sfc := ia_sfc a; ia_eta := x; ia_thresh := ia_thresh a |}.
Definition limited (ins : inst) (x : R) : inst := {|
  i_str := i_str ins; i_class := i_class ins; freq := freq ins; wavelen := wavelen ins; k_w := k_w ins; eps_im := eps_im ins;
  z_min_1km := z_min_1km ins; ext_OD := x; r_d := r_d ins; grav := grav ins; rho_ice := rho_ice ins;
  bulk_table := bulk_table ins; mie_table := mie_table ins; scat_table := scat_table ins;
  p3_bulk := p3_bulk ins; p3_single := p3_single ins |}.
Definition passing (o : sopts) (sfc mie : option bool) (ext eta : option R) : sopts := {|
  m_rad := m_rad o; m_sfc := sfc; m_sched := m_sched o; m_conv0 := m_conv0 o; m_rng := m_rng o; m_hyds := m_hyds o;
  m_mie := mie; m_emp := m_emp o; m_classify := m_classify o; m_width := m_width o; m_only := m_only o; m_ref := m_ref o;
  m_reg := m_reg o; m_ext := ext; m_eta := eta; m_kw := m_kw o |}.

(** The same call with or without a list of hydrometeor classes. *)
Definition asking (o : sopts) (hs : option (list string)) : sopts := {|
  m_rad := m_rad o; m_sfc := m_sfc o; m_sched := m_sched o; m_conv0 := m_conv0 o; m_rng := m_rng o; m_hyds := hs;
  m_mie := m_mie o; m_emp := m_emp o; m_classify := m_classify o; m_width := m_width o; m_only := m_only o; m_ref := m_ref o;
  m_reg := m_reg o; m_ext := m_ext o; m_eta := m_eta o; m_kw := m_kw o |}.

(** The names a simulation may write: moments and masks. *)
Definition result_name (x : string) : Prop := moment_name x \/ is_mask x.
(** Several simulations on one model object, each with its own instrument and
    options; a failed one is left behind and the next is made. *)
Definition simulate_all (Gam : R -> R) (e : menv) (calls : list (inst * iattr * sopts)) (s : dset) : dset :=
  fold_left (fun s c => snd (simulate Gam e (fst (fst c)) (snd (fst c)) (snd c) s)) calls s.

(** The names simulations of a radar and of a lidar write (empirical and bulk methods). *)
Definition radar_result (ins : inst) (x : string) : Prop :=
  In x ["kappa_o2"; "kappa_wv"; "kappa_att"; "atm_ext"; "hyd_ext_conv"; "hyd_ext_strat"; "Ze_min"; "detect_mask"]%string \/
  (exists y, x = ("sub_col_Ze_" ++ y)%string) \/
  In x ["strat_phase_mask_" ++ i_str ins ++ "_sounding"; "conv_phase_mask_" ++ i_str ins ++ "_sounding";
        "phase_mask_" ++ i_str ins ++ "_sounding_all_hyd"]%string.
Definition lidar_result (ins : inst) (x : string) : Prop :=
  In x ["tau"; "u_atm"; "beta"; "sigma_180_vol"; "sigma_180"; "sigma"; "kappa"; "N_s"; "n_s"; "ext_mask"]%string \/
  (exists f y, In f ["beta_p_"; "beta_att_"; "alpha_p_"; "OD_"; "LDR_"]%string /\ x = ("sub_col_" ++ f ++ y)%string) \/
  In x ["strat_phase_mask_" ++ i_str ins; "conv_phase_mask_" ++ i_str ins; "phase_mask_" ++ i_str ins ++ "_all_hyd";
        "strat_COSP_phase_mask"; "conv_COSP_phase_mask"; "COSP_phase_mask_all_hyd"]%string.
(** No input of the model has the name of a result. *)
Definition separate_inputs (e : menv) : Prop := forall c x, In x (table_names e c) -> ~ result_name x.
