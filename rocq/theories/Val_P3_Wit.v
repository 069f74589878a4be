(** Ice of the P3 scheme on the example dataset. *)
From Verif Require Import Mom_Base Mom_Spec Mom_Facts Xr_Facts Sched_Model Atm_Model Psd_Model Lidar_Model
  Lidar_Spec Lidar_Od Lidar_Api Lidar_Perm Lidar_Corol Lidar_Witness Class_Spec Radar_Model Radar_Spec Radar_Total
  Radar_Witness Val_Spec Val_Lidar Val_Bulk Val_Radar Val_Witness Val_P3_Spec Val_P3.
Local Open Scope R_scope.

Definition x_env (hyb : nat) (fl : option (list (string * R))) : menv := {|
  nsub := 2; ntm := 1; nht := 3; p_conv := true;
  hyds := ["cl"; "ci"]%string; model_name := "Toy"%string; mcphys := "P3"%string; rad_family := "P3"%string;
  p_name := "p"%string; t_name := "t"%string; z_name := "z"%string; qv_name := "qv"%string;
  p_pa := fun x => xmul x (XF 100); p_hpa := fun x => x;
  t_cel := fun x => xsub x (XF (27315/100)); t_kel := fun x => x; z_met := fun x => x;
  rho_hyd := [("cl", RConst 1000); ("pl", RConst 1000); ("ci", RVar)]%string;
  var_density := []; fluffy := fl;
  lidar_ratio := [("cl", 18); ("pl", 5); ("ci", 24)]%string;
  ldr_hyd := [("cl", 3/100); ("ci", 35/100)]%string;
  re_conv := [("cl", "re_cl"); ("pl", "re_cl"); ("ci", "re_ci")]%string;
  re_strat := [("cl", "re_cl"); ("pl", "re_cl"); ("ci", "re_ci")]%string;
  lam_field := Some w_lam; mu_field := Some [("cl", Some "mu_cl")]%string;
  vel_a := []; vel_b := []; vd_ref := []; hybrid := hyb; p3_ni := "ni"%string; p3_n0 := "n0"%string |}.
(** Per particle: 2e-9 m2, 3e-9 m2 at equal volume, 1e-9 m2 solid; effective
    radius 50 microns, density 400 kg m-3; efficiencies growing with rime
    fraction. *)
Definition x_bulk (key : string) (fr rr q : xr) : xr :=
  if String.eqb key "A_tot_norm" then XF (2 / 10 ^ 9)
  else if String.eqb key "A_tot_eq_V_norm" then XF (3 / 10 ^ 9)
  else if String.eqb key "A_tot_Mie_norm" then XF (1 / 10 ^ 9)
  else if String.eqb key "ri_eff" then XF (50 / 10 ^ 6)
  else if String.eqb key "rho_m_weight" then XF 400
  else if String.eqb key "Q_ext_bulk" then xadd (XF 2) fr
  else if String.eqb key "Q_back_bulk" then xmul (XF (1/10)) fr
  else if String.eqb key "Q_ext_Mie_bulk" then XF 1
  else if String.eqb key "Q_back_Mie_bulk" then XF (1/100) else XNaN.
Definition x_of (i : inst) : inst := {|
  i_str := i_str i; i_class := i_class i; freq := freq i; wavelen := wavelen i; k_w := k_w i;
  eps_im := eps_im i; z_min_1km := z_min_1km i; ext_OD := ext_OD i; r_d := r_d i; grav := grav i; rho_ice := rho_ice i;
  bulk_table := bulk_table i; mie_table := mie_table i; scat_table := scat_table i;
  p3_bulk := x_bulk; p3_single := p3_single i |}.
Definition x_flag : nat -> nat -> nat -> bool := fun i _ _ => Nat.eqb i 0.
Definition x_ds : dset :=
  mkds ([("Fr", c2 (1/2)); ("rho_r", c2 300); ("qi_norm", c2 (1/10 ^ 9)); ("ni", c2 10000)]%string ++
        put (put w_fields "p" (V2 v_p)) "strat_frac_subcolumns_ci" (VB x_flag)) [].
Definition x_state : p3_state := {| ps_fr := fun _ _ => 1/2; ps_rr := fun _ _ => 300;
  ps_q1 := fun _ _ => 1/10 ^ 9; ps_n := fun _ _ => 10000 |}.
Definition x_lopts (mie : bool) : lopts := {|
  o_sfc := true; o_hyds := Some ["cl"; "ci"]%string; o_sched := Serial; o_eta := 1; o_mie := mie;
  o_rad := true; o_emp := false; o_kw := {| k_disp := None; k_lo := 2; k_hi := 15 |} |}.
Definition x_ropts (mie : bool) : ropts := {|
  r_sfc := true; r_hyds := Some ["cl"; "ci"]%string; r_sched := Serial; r_mie := mie; r_rad := true; r_emp := false;
  r_width := true; r_kw := {| k_disp := None; k_lo := 2; k_hi := 15 |} |}.

Lemma x_fields hyb fl : p3_fields (x_env hyb fl) x_ds x_state.
Proof. repeat split; [exists (fun _ _ => XF (1/2))|exists (fun _ _ => XF 300)|exists (fun _ _ => XF (1/10 ^ 9))
  |exists (fun _ _ => XF 10000)]; split; reflexivity. Qed.
Lemma x_pres hyb fl : pressures (x_env hyb fl) x_ds (fun _ k => 100 * (900 - 10 * INR k)).
Proof. exists v_p. split; [reflexivity|]. intros t k _. unfold v_p. cbn [x_env p_pa xmul]. f_equal. ring. Qed.
Lemma x_heights hyb fl : heights (x_env hyb fl) x_ds (fun _ k => 100 * INR (S k)).
Proof. exists w_z. split; reflexivity. Qed.
Lemma x_tables hyb fl c : tables_ok (x_env hyb fl) c.
Proof.
  intros x Hx [H|[y H]].
  - unfold atm_fields in H. simpl in Hx, H. destruct c; simpl in Hx; intuition (subst; discriminate).
  - destruct c; simpl in Hx; intuition (subst; discriminate).
Qed.
Lemma x_rtables hyb fl c : radar_tables_ok (x_env hyb fl) c.
Proof.
  intros x Hx [H|[y H]].
  - unfold radar_fields in H. simpl in Hx, H. destruct c; simpl in Hx; intuition (subst; discriminate).
  - destruct c; simpl in Hx; intuition (subst; discriminate).
Qed.
Lemma x_sc hyb fl h : In h ["cl"; "ci"]%string -> self_contained (x_env hyb fl) h.
Proof.
  intros [<-|[<-|[]]].
  - right; right. split; [simpl; tauto|]. exists w_lam, "lam_cl"%string. split; reflexivity.
  - right; left. simpl. tauto.
Qed.
Lemma x_cell hyb fl i k : (i < 2)%nat -> (k < 3)%nat -> cell (x_env hyb fl) i 0 k.
Proof. intros. repeat split; simpl; lia. Qed.
Lemma x_gives e i key v : x_bulk key (XF (1/2)) (XF 300) (XF (1/10 ^ 9)) = XF v ->
  p3_gives e (x_of i) x_state key (fun _ _ => v).
Proof. intros H t k _. exact H. Qed.
Lemma x_notot : ~ In "tot"%string ["cl"; "ci"]%string.
Proof. simpl; intuition discriminate. Qed.

Lemma x_lidar Gam : exists s1,
  calc_lidar_moments Gam (x_env 0 None) (x_of w_ins) (x_lopts false) false x_ds = (Ok tt, s1) /\
  value s1 "sub_col_alpha_p_ci_strat" 0 0 2 = XF ((2 + 1/2) * (2 / 10 ^ 9 * 10000)) /\
  value s1 "sub_col_beta_p_ci_strat" 0 0 2 = XF (1/10 * (1/2) * (2 / 10 ^ 9 * 10000)) /\
  value s1 "sub_col_alpha_p_ci_strat" 1 0 2 = XF 0.
Proof.
  destruct (ran (calc_lidar_moments Gam (x_env 0 None) (x_of w_ins) (x_lopts false) false x_ds) eq_refl) as (s1 & E).
  exists s1. split; [exact E|].
  assert (AR : p3_area (x_env 0 None) (x_of w_ins) false false x_ds x_state (fun _ k => 100 * (900 - 10 * INR k))
                 (fun _ k => 100 * INR (S k)) (fun _ _ _ => 2 / 10 ^ 9 * 10000)).
  { left. split; [left; reflexivity|]. exists (fun _ _ => 2 / 10 ^ 9). split; [apply x_gives; reflexivity|reflexivity]. }
  pose proof (p3_bulk_lidar Gam (x_env 0 None) (x_of w_ins) (x_lopts false) false ["cl"; "ci"]%string x_ds s1 x_state
    _ (fun _ _ => 2 + 1/2) (fun _ _ => 1/10 * (1/2)) x_flag _ _ (x_tables _ _ _) eq_refl eq_refl eq_refl x_notot (x_sc _ _) E
    (or_intror (or_introl eq_refl)) eq_refl ltac:(simpl; lra) ltac:(simpl; lra) (x_pres _ _) (x_heights _ _) eq_refl
    (x_fields _ _) AR (x_gives _ _ "Q_ext_bulk" _ eq_refl) (x_gives _ _ "Q_back_bulk" _ eq_refl)) as V.
  assert (N1 : forall P, hybrid (x_env 0 None) = 1%nat -> P) by (intros P H; discriminate H).
  destruct (V 0%nat 0%nat 2%nat (x_cell _ _ 0 2 ltac:(lia) ltac:(lia)) (N1 _)) as [A1 A2].
  destruct (V 1%nat 0%nat 2%nat (x_cell _ _ 1 2 ltac:(lia) ltac:(lia)) (N1 _)) as [A3 _].
  split; [exact A1|]. split; [exact A2|exact A3].
Qed.

(** Hybrid scattering 1 with a fluffiness factor: 1000 Pa over 100 m. *)
Lemma x_radar Gam : exists s1,
  calc_radar_moments Gam (x_env 1 (Some [("ci", 1)]%string)) (x_of w_radar) (x_ropts true) false x_ds = (Ok tt, s1) /\
  value s1 "sub_col_Ze_ci_strat" 0 0 1
  = dBZ (backscatter_Z 8600 (88/100)
      (1/100 * projected_area 917 (50 / 10 ^ 6 * 10 ^ 6 * (400 / 917)) (1/100000 * 1000 / (98/10) / 100))) /\
  value s1 "sub_col_Ze_ci_strat" 1 0 1 = XNaN.
Proof.
  set (e := x_env 1 (Some [("ci", 1)]%string)).
  destruct (ran (calc_radar_moments Gam e (x_of w_radar) (x_ropts true) false x_ds) eq_refl) as (s1 & E).
  exists s1. split; [exact E|].
  assert (AR : p3_area e (x_of w_radar) false true x_ds x_state (fun _ k => 100 * (900 - 10 * INR k))
                 (fun _ k => 100 * INR (S k)) (fun i t k => projected_area 917 (50 / 10 ^ 6 * 10 ^ 6 * (400 / 917))
                   (layer_water (98/10) (1/100000) (fun k => 100 * (900 - 10 * INR k)) (fun k => 100 * INR (S k)) k))).
  { right. split; [reflexivity|]. exists (fun _ _ => 50 / 10 ^ 6), (fun _ _ _ => 1/100000).
    split; [apply x_gives; reflexivity|]. split; [exists (fun _ _ _ => XF (1/100000)); split; reflexivity|].
    exists (fun _ _ => 50 / 10 ^ 6 * 10 ^ 6 * (400 / 917)). split; [intros; lra|]. split; [|reflexivity].
    exists (fun _ _ => 400). split; [apply x_gives; reflexivity|reflexivity]. }
  pose proof (p3_bulk_radar Gam e (x_of w_radar) (x_ropts true) false ["cl"; "ci"]%string x_ds s1 x_state
    _ (fun _ _ => 1) (fun _ _ => 1/100) x_flag _ _ (x_rtables _ _ _) eq_refl eq_refl v_plain eq_refl (x_sc _ _) E
    (or_intror (or_introl eq_refl)) eq_refl ltac:(simpl; lra) ltac:(simpl; lra) ltac:(simpl; lra) (x_pres _ _) (x_heights _ _) eq_refl
    (x_fields _ _) AR (x_gives _ _ "Q_ext_Mie_bulk" _ eq_refl) (x_gives _ _ "Q_back_Mie_bulk" _ eq_refl)) as V.
  assert (N1 : hybrid e = 1%nat -> (2 < nht e)%nat /\ 100 * INR 2 < 100 * INR 3) by (intros _; split; simpl; [lia|lra]).
  assert (LW : layer_water (98/10) (1/100000) (fun k => 100 * (900 - 10 * INR k)) (fun k => 100 * INR (S k)) 1
               = 1/100000 * 1000 / (98/10) / 100).
  { unfold layer_water. cbn [INR].
    match goal with |- context [Rabs ?x] => replace x with (- (1000)) by ring end.
    rewrite Rabs_Ropp, Rabs_pos_eq by lra. field. }
  split.
  - change "sub_col_Ze_ci_strat"%string with (out "Ze" "ci" false).
    rewrite (V 0%nat 0%nat 1%nat (x_cell _ _ 0 1 ltac:(lia) ltac:(lia)) N1). cbn [x_flag Nat.eqb]. rewrite LW. reflexivity.
  - exact (V 1%nat 0%nat 1%nat (x_cell _ _ 1 1 ltac:(lia) ltac:(lia)) N1).
Qed.
