(** A concrete model object, instrument and dataset: two subcolumns, one
    time, three levels, liquid and ice cloud with convection. *)
From Verif Require Import Mom_Base Mom_Spec Mom_Facts Sched_Model Psd_Model Lidar_Model Lidar_Spec.
Local Open Scope R_scope.

Definition w_env (fam : string) (lam : list (string * option string)) : menv := {|
  nsub := 2; ntm := 1; nht := 3; p_conv := true;
  hyds := ["cl"; "ci"]%string; model_name := "Toy"%string; mcphys := "MG2"%string; rad_family := fam;
  p_name := "p"%string; t_name := "t"%string; z_name := "z"%string; qv_name := "qv"%string;
  p_pa := fun x => xmul x (XF 100); p_hpa := fun x => x;
  t_cel := fun x => xsub x (XF (27315/100)); t_kel := fun x => x; z_met := fun x => x;
  rho_hyd := [("cl", RConst 1000); ("pl", RConst 1000); ("ci", RConst 500)]%string;
  var_density := []; fluffy := None;
  lidar_ratio := [("cl", 18); ("pl", 5); ("ci", 24)]%string;
  ldr_hyd := [("cl", 3/100); ("ci", 35/100)]%string;
  re_conv := [("cl", "re_cl"); ("pl", "re_cl"); ("ci", "re_ci")]%string;
  re_strat := [("cl", "re_cl"); ("pl", "re_cl"); ("ci", "re_ci")]%string;
  lam_field := Some lam; mu_field := Some [("cl", Some "mu_cl")]%string;
  vel_a := []; vel_b := []; vd_ref := []; hybrid := 0; p3_ni := "ni"%string; p3_n0 := "n0"%string |}.
Definition w_tab : btab := {|
  b_re := [XF 1; XF 100]; b_back := [XF (1/10); XF (1/10)]; b_ext := [XF 2; XF 2];
  b_back2 := fun _ _ => XF (1/10); b_ext2 := fun _ _ => XF 2 |}.
Definition w_ins : inst := {|
  i_str := "HSRL"%string; i_class := "lidar"%string; freq := 560000; wavelen := 532/1000; k_w := 1;
  eps_im := 0; z_min_1km := 0; ext_OD := 4; r_d := 287; grav := 98/10; rho_ice := 917;
  bulk_table := [("CESM_ice", w_tab); ("CESM_liq", w_tab); ("E3_ice", w_tab); ("E3_liq", w_tab);
                 ("mie_ice_CESM_PSD", w_tab); ("mie_ice_E3_PSD", w_tab)]%string;
  mie_table := []; scat_table := [];
  p3_bulk := fun _ _ _ _ => XF 1; p3_single := fun _ _ _ _ => XF 1 |}.

Definition c3 (r : R) : mv := V3 (fun _ _ _ => XF r).
Definition c2 (r : R) : mv := V2 (fun _ _ => XF r).
(** heights 100, 200, 300 m *)
Definition w_z : arr2 := fun _ k => XF (100 * INR (S k)).
Definition w_fields : list (string * mv) :=
  [("p", c2 900); ("t", c2 280); ("z", V2 w_z); ("qv", c2 (1/1000)); ("re_cl", c2 10); ("re_ci", c2 40);
   ("mu_cl", c2 2); ("lam_cl", c2 1000);
   ("strat_q_subcolumns_cl", c3 (1/10000)); ("strat_q_subcolumns_ci", c3 (1/100000)); ("strat_q_subcolumns_pl", c3 (1/100000));
   ("conv_q_subcolumns_cl", c3 (1/10000)); ("conv_q_subcolumns_ci", c3 (1/100000)); ("conv_q_subcolumns_pl", c3 (1/100000));
   ("strat_frac_subcolumns_cl", VB (fun _ _ _ => true)); ("strat_frac_subcolumns_ci", VB (fun _ _ _ => true));
   ("strat_frac_subcolumns_pl", VB (fun _ _ _ => true));
   ("conv_frac_subcolumns_cl", VB (fun _ _ _ => true)); ("conv_frac_subcolumns_ci", VB (fun _ _ _ => true));
   ("conv_frac_subcolumns_pl", VB (fun _ _ _ => true))]%string.
(** Lidar results as left by earlier calls. *)
Definition w_results : list (string * mv) :=
  [("sub_col_alpha_p_cl_strat", c3 (1/1000)); ("sub_col_beta_p_cl_strat", c3 (1/10000));
   ("sub_col_beta_p_ci_strat", c3 (3/10000)); ("sub_col_beta_p_cl_conv", V3 (fun _ _ _ => XNaN));
   ("sub_col_beta_p_ci_conv", c3 (0));
   ("sub_col_beta_p_tot_strat", c3 (4/10000)); ("sub_col_beta_p_tot_conv", V3 (fun _ _ _ => XNaN));
   ("sub_col_alpha_p_tot_strat", c3 (2/1000)); ("sub_col_alpha_p_tot_conv", V3 (fun _ _ _ => XNaN));
   ("sub_col_OD_tot_strat", V3 (fun _ _ k => XF (3 * INR k))); ("sub_col_OD_tot_conv", V3 (fun _ _ _ => XNaN));
   ("sub_col_OD_tot", V3 (fun _ _ k => XF (3 * INR k)));
   ("sigma_180_vol", c2 (1/1000000)); ("tau", c2 (9/10))]%string.
Definition w_ds : dset := mkds w_fields [].
Definition w_res : dset := mkds (w_results ++ w_fields) [].
Definition w_lam : list (string * option string) := [("cl", Some "lam_cl"); ("pl", None)]%string.
Definition w_opts (emp : bool) : lopts := {|
  o_sfc := true; o_hyds := Some ["cl"; "ci"]%string; o_sched := Serial; o_eta := 1; o_mie := false;
  o_rad := true; o_emp := emp; o_kw := {| k_disp := None; k_lo := 2; k_hi := 15 |} |}.

Lemma w_num3 e name r : assoc (w_results ++ w_fields) name = Some (c3 r) ->
  num3 e w_res name (fun _ _ _ => r).
Proof. intro H. exists (fun _ _ _ => XF r). split; [exact H|]. intros; reflexivity. Qed.
Lemma w_nan3 e name : assoc (w_results ++ w_fields) name = Some (V3 (fun _ _ _ => XNaN)) ->
  num3 e w_res name (fun _ _ _ => 0).
Proof. intro H. exists (fun _ _ _ => XNaN). split; [exact H|]. intros; reflexivity. Qed.

Lemma w_tables fam c : tables_ok (w_env fam w_lam) c.
Proof.
  intros x Hx [H|[y H]].
  - unfold atm_fields in H. simpl in Hx, H. destruct c; simpl in Hx; intuition (subst; discriminate).
  - destruct c; simpl in Hx; intuition (subst; discriminate).
Qed.
