(** Ice of the P3 scheme in the microphysics methods, on an example. *)
From Verif Require Import Mom_Base Mom_Spec Mom_Facts Xr_Facts Sched_Model Atm_Model Psd_Model Lidar_Model Lidar_Spec
  Lidar_Corol Lidar_Witness Psd_Spec Psd_Int Psd_Witness Radar_Model Radar_Spec Radar_Total Radar_Witness
  Micro_Spec Micro_Cell Micro_Lidar Micro_Rcell Micro_Radar Micro_Witness Micro_P3_Spec Micro_P3 Micro_Width_Spec Micro_Width Micro_Width2.
Local Open Scope R_scope.

Definition y_env : menv := {|
  nsub := 2; ntm := 1; nht := 3; p_conv := true;
  hyds := ["cl"; "ci"]%string; model_name := "Toy"%string; mcphys := "P3"%string; rad_family := "P3"%string;
  p_name := "p"%string; t_name := "t"%string; z_name := "z"%string; qv_name := "qv"%string;
  p_pa := fun x => xmul x (XF 100); p_hpa := fun x => x;
  t_cel := fun x => xsub x (XF (27315/100)); t_kel := fun x => x; z_met := fun x => x;
  rho_hyd := [("cl", RConst 1000); ("pl", RConst 1000); ("ci", RVar)]%string;
  var_density := []; fluffy := None; lidar_ratio := []; ldr_hyd := []; re_conv := []; re_strat := [];
  lam_field := Some [("cl", Some "lam_cl"); ("ci", Some "lam_ci")]%string;
  mu_field := Some [("cl", Some "mu_cl"); ("ci", Some "mu_ci")]%string;
  vel_a := [("cl", 1/100); ("pl", 8)]%string; vel_b := [("cl", 0); ("pl", 0)]%string;
  vd_ref := []; hybrid := 0; p3_ni := "ni"%string; p3_n0 := "n0"%string |}.
(** Cross-sections depend on the rime fraction, velocity on the size. *)
Definition y_single (key : string) (fr rr d : xr) : xr :=
  if String.eqb key "beta_p" then xadd (XF 1) fr
  else if String.eqb key "alpha_p" then xmul (XF 3) fr
  else if String.eqb key "vt" then xmul (XF 10000) d else XNaN.
Definition y_with (ins : inst) : inst := {|
  i_str := i_str ins; i_class := i_class ins; freq := freq ins; wavelen := wavelen ins; k_w := k_w ins;
  eps_im := eps_im ins; z_min_1km := z_min_1km ins; ext_OD := ext_OD ins; r_d := r_d ins; grav := grav ins;
  rho_ice := rho_ice ins; bulk_table := bulk_table ins;
  mie_table := [("cl", m_tab); ("pl", m_tab); ("ci", m_tab)]%string; scat_table := [("p3_ice", m_tab)]%string;
  p3_bulk := p3_bulk ins; p3_single := y_single |}.
Definition y_ds : dset :=
  mkds ([("Fr", c2 (1/2)); ("rho_r", c2 300); ("ni", c2 10000); ("n0", c2 5); ("lam_ci", c2 1000); ("mu_ci", c2 2)]%string ++
        put m_fields "strat_frac_subcolumns_ci" (VB (fun i _ _ => Nat.eqb i 0))) [].
Definition y_B (mie : bool) : list R := if mie then m_B else [1 + 1/2; 1 + 1/2; 1 + 1/2; 1 + 1/2].
Definition y_A (mie : bool) : list R := if mie then m_A else [3 * (1/2); 3 * (1/2); 3 * (1/2); 3 * (1/2)].
Definition y_lopts (mie : bool) (hs : list string) : lopts := {|
  o_sfc := true; o_hyds := Some hs; o_sched := Serial; o_eta := 1; o_mie := mie;
  o_rad := false; o_emp := false; o_kw := w_kw |}.
Definition y_ropts (mie : bool) (hs : list string) : ropts := {|
  r_sfc := true; r_hyds := Some hs; r_sched := Serial; r_mie := mie; r_rad := false; r_emp := false;
  r_width := true; r_kw := w_kw |}.

Lemma y_dist t k : p3_distribution y_env y_ds t k (10000 * 5) 1000 2.
Proof.
  exists 10000, 5, [("cl", Some "lam_cl"); ("ci", Some "lam_ci")]%string, "lam_ci"%string,
    [("cl", Some "mu_cl"); ("ci", Some "mu_ci")]%string, "mu_ci"%string.
  repeat split; [exists (fun _ _ => XF 10000)|exists (fun _ _ => XF 5)|exists (fun _ _ => XF 1000)|exists (fun _ _ => XF 2)];
    split; reflexivity.
Qed.
Lemma y_tab ins t k key X : Forall2 (fun d x => y_single key (XF (1/2)) (XF 300) (XF d) = XF x) m_D X ->
  p3_tabulated (y_with ins) y_ds t k key m_D X.
Proof.
  intro H. exists (1/2), 300. split; [exists (fun _ _ => XF (1/2)); split; reflexivity|].
  split; [exists (fun _ _ => XF 300); split; reflexivity|exact H].
Qed.
Lemma y_inc : increasing_from 0 m_D.
Proof. exact (proj2 (proj2 (proj2 m_ptable))). Qed.
Lemma y_sections ins mie t k : p3_sections y_env (y_with ins) mie y_ds t k m_D (y_B mie) (y_A mie).
Proof.
  exists (map XF m_D, map XF m_B, map XF m_A). split.
  - exists m_tab. destruct mie; split; reflexivity.
  - destruct mie; [exact m_ptable|]. split; [reflexivity|]. split; [exact y_inc|].
    split; apply y_tab; repeat constructor.
Qed.
Lemma y_present t k : p3_present y_ds 0 t k.
Proof. exists (1/100), (fun i _ _ => Nat.eqb i 0). repeat split; lra. Qed.
Lemma y_absent t k : p3_absent y_ds 1 t k.
Proof. exists (fun i _ _ => Nat.eqb i 0). split; reflexivity. Qed.
Lemma y_cell i k : (i < 2)%nat -> (k < 3)%nat -> cell y_env i 0 k.
Proof. intros. repeat split; simpl; lia. Qed.
Lemma y_tables : micro_tables_ok y_env /\ rmicro_tables_ok y_env.
Proof.
  split; (split; [|intros x Hx Hn; simpl in Hx, Hn; intuition (subst; discriminate)]).
  - intros x Hx [H|[y H]].
    + simpl in Hx, H. intuition (subst; discriminate).
    + simpl in Hx; intuition (subst; discriminate).
  - intros x Hx [H|[y H]].
    + unfold radar_fields in H. simpl in Hx, H. intuition (subst; discriminate).
    + simpl in Hx; intuition (subst; discriminate).
Qed.
Lemma y_notot : ~ In "tot"%string ["cl"; "ci"]%string.
Proof. simpl; intuition discriminate. Qed.
Lemma y_plain : plain ["cl"; "ci"]%string.
Proof. plain_list. Qed.

Lemma y_lidar Gam mie : exists s1,
  calc_lidar_moments Gam y_env (y_with w_ins) (y_lopts mie ["cl"; "ci"]%string) false y_ds = (Ok tt, s1) /\
  value s1 "sub_col_alpha_p_ci_strat" 0 0 1 = XF (population m_D (y_A mie) (gamma_psd (10000 * 5) 1000 2)) /\
  value s1 "sub_col_beta_p_ci_strat" 0 0 1 = XF (population m_D (y_B mie) (gamma_psd (10000 * 5) 1000 2)) /\
  value s1 "sub_col_alpha_p_ci_strat" 1 0 1 = XF 0.
Proof.
  destruct (ran (calc_lidar_moments Gam y_env (y_with w_ins) (y_lopts mie ["cl"; "ci"]%string) false y_ds)) as (s1 & E);
    [destruct mie; reflexivity|].
  exists s1. split; [exact E|].
  assert (TS : totals_stored y_ds) by (intro H; discriminate H).
  pose proof (fun i n0 lam mu D B A => p3_micro_lidar Gam y_env (y_with w_ins) (y_lopts mie ["cl"; "ci"]%string) _ y_ds s1 (proj1 y_tables)
    eq_refl eq_refl eq_refl y_notot TS E i 0%nat 1%nat n0 lam mu D B A eq_refl (or_intror (or_introl eq_refl))) as V.
  destruct (proj1 (V 0%nat _ _ _ _ _ _ (y_cell 0 1 ltac:(lia) ltac:(lia)) (y_dist 0 1) (y_sections _ _ 0 1)) (y_present _ _)) as [A1 A2].
  destruct (proj2 (V 1%nat _ _ _ _ _ _ (y_cell 1 1 ltac:(lia) ltac:(lia)) (y_dist 0 1) (y_sections _ _ 0 1)) (y_absent _ _)) as [A3 _].
  split; [exact A1|]. split; [exact A2|exact A3].
Qed.
Lemma y_lidar_again Gam : exists s1,
  calc_lidar_moments Gam y_env (y_with w_ins) (y_lopts false ["cl"; "ci"]%string) false y_ds = (Ok tt, s1) /\
  forall s2, calc_lidar_moments Gam y_env (y_with w_ins) (y_lopts false ["cl"; "ci"]%string) false s1 <> (Ok tt, s2).
Proof.
  destruct (y_lidar Gam false) as (s1 & E & _). exists s1. split; [exact E|]. intro s2.
  assert (TS : totals_stored y_ds) by (intro H; discriminate H).
  exact (p3_again_fails Gam y_env (y_with w_ins) (y_lopts false ["cl"; "ci"]%string) _ y_ds s1 (proj1 y_tables)
    eq_refl eq_refl eq_refl y_notot TS E (y_lopts false ["cl"; "ci"]%string) ["cl"; "ci"]%string s2 eq_refl (or_intror (or_introl eq_refl))
    eq_refl eq_refl eq_refl y_notot (or_intror (or_introl eq_refl))).
Qed.

(** *** Radar *)
Definition y_W : list R := [10000 * (1/10000); 10000 * (2/10000); 10000 * (3/10000); 10000 * (4/10000)].
Definition y_p (mie : bool) : particles := {| pa_D := m_D; pa_B := y_B mie; pa_A := y_A mie;
  pa_V := map (fun w => - w * 1) y_W; pa_n := gamma_psd (10000 * 5) 1000 2 |}.
Lemma y_air h t k : air_factor y_env y_ds h t k 1.
Proof. right. split; [left; reflexivity|reflexivity]. Qed.
Lemma y_seen mie t k : p3_seen y_env (y_with w_radar) (y_ropts mie ["cl"; "ci"]%string) y_ds 0 t k (y_p mie).
Proof.
  exists (10000 * 5), 1000, 2, y_W, 1. split; [apply y_present|]. split; [apply y_sections|]. split; [apply y_dist|].
  split; [lra|]. split; [apply y_tab; repeat constructor|]. split; [apply y_air|]. split; reflexivity.
Qed.
Lemma y_posB mie : forall b, In b (pa_B (y_p mie)) -> 0 < b.
Proof. destruct mie; intros b H; simpl in H; intuition lra. Qed.
Lemma y_none i t k : holds_none y_ds "cl" i t k.
Proof. apply xltb_fin_f. simpl. lra. Qed.
Lemma y_known Gam mie h t k : In h ["cl"; "ci"]%string ->
  class_known Gam y_env (y_with w_radar) (y_ropts mie ["cl"; "ci"]%string) y_ds h 0 t k.
Proof.
  intros [<-|[<-|[]]]; unfold class_known; cbn.
  - split; [left; simpl; tauto|]. left. apply y_none.
  - right. exists (y_p mie). split; [apply y_seen|]. split; [apply y_posB|cbn; lia].
Qed.
Lemma y_radar Gam mie : exists s1,
  calc_radar_moments Gam y_env (y_with w_radar) (y_ropts mie ["cl"; "ci"]%string) false y_ds = (Ok tt, s1) /\
  value s1 "sub_col_Ze_ci_strat" 0 0 1 = dBZ (reflectivity (y_with w_radar) (population m_D (y_B mie) (gamma_psd (10000 * 5) 1000 2))) /\
  value s1 "sub_col_Vd_ci_strat" 0 0 1 = XF (mean_of m_D (map (fun w => - w * 1) y_W) (y_B mie) (gamma_psd (10000 * 5) 1000 2)) /\
  value s1 "sub_col_Ze_ci_strat" 1 0 1 = XNaN /\
  exists P, (forall h, In h ["cl"; "ci"]%string -> class_seen Gam y_env (y_with w_radar) (y_ropts mie ["cl"; "ci"]%string) y_ds h 0 0 1 (P h)) /\
    value s1 "sub_col_sigma_d_tot_strat" 0 0 1 = XF (all_spread ["cl"; "ci"]%string P).
Proof.
  destruct (ran (calc_radar_moments Gam y_env (y_with w_radar) (y_ropts mie ["cl"; "ci"]%string) false y_ds)) as (s1 & E);
    [destruct mie; reflexivity|].
  exists s1. split; [exact E|].
  assert (Hk : 0 < k_w (y_with w_radar)) by (simpl; lra).
  pose proof (fun i => p3_micro_radar Gam y_env (y_with w_radar) (y_ropts mie ["cl"; "ci"]%string) _ y_ds s1 (proj2 y_tables)
    eq_refl eq_refl eq_refl y_plain E i 0%nat 1%nat Hk eq_refl (or_intror (or_introl eq_refl))) as V.
  destruct (proj1 (V 0%nat (y_cell 0 1 ltac:(lia) ltac:(lia))) (y_p mie) (y_seen _ _ _) (y_posB mie) ltac:(simpl; lia)) as (A1 & A2 & _).
  pose proof (proj2 (V 1%nat (y_cell 1 1 ltac:(lia) ltac:(lia))) (y_absent _ _)) as A3.
  split; [exact A1|]. split; [exact A2|]. split; [exact A3|].
  destruct (any_width Gam y_env (y_with w_radar) (y_ropts mie ["cl"; "ci"]%string) _ y_ds s1 (proj2 y_tables)
    eq_refl eq_refl eq_refl y_plain E 0%nat 0%nat 1%nat Hk (y_cell 0 1 ltac:(lia) ltac:(lia))) as (P & H1 & _ & _ & H2).
  - intros h Hh. apply y_known. exact Hh.
  - exists "ci"%string. split; [simpl; tauto|]. unfold class_seen. cbn. intros (fl & Vf & Ff). injection Vf as <-. discriminate Ff.
  - exists P. split; [exact H1|]. apply H2; [reflexivity|discriminate|]. exists 1. intros; apply y_air.
Qed.
Lemma y_radar_again Gam : exists s1,
  calc_radar_moments Gam y_env (y_with w_radar) (y_ropts false ["cl"; "ci"]%string) false y_ds = (Ok tt, s1) /\
  forall s2, calc_radar_moments Gam y_env (y_with w_radar) (y_ropts false ["cl"; "ci"]%string) false s1 <> (Ok tt, s2).
Proof.
  destruct (y_radar Gam false) as (s1 & E & _). exists s1. split; [exact E|]. intro s2.
  exact (p3_radar_again_fails Gam y_env (y_with w_radar) (y_ropts false ["cl"; "ci"]%string) _ y_ds s1 (proj2 y_tables)
    eq_refl eq_refl eq_refl y_plain E (y_ropts false ["cl"; "ci"]%string) ["cl"; "ci"]%string s2 eq_refl (or_intror (or_introl eq_refl))
    eq_refl eq_refl eq_refl y_plain (or_intror (or_introl eq_refl))).
Qed.
Lemma y_alone Gam : (exists s1, calc_radar_moments Gam y_env (y_with w_radar) (y_ropts false ["cl"; "ci"]%string) false y_ds = (Ok tt, s1)) /\
  forall s1, calc_radar_moments Gam y_env (y_with w_radar) (y_ropts false ["ci"]%string) false y_ds <> (Ok tt, s1).
Proof.
  destruct (y_radar Gam false) as (s1 & E & _). split; [eauto|]. intro s2.
  apply (p3_alone_fails Gam y_env (y_with w_radar) eq_refl (y_ropts false ["ci"]%string) y_ds s2 eq_refl eq_refl eq_refl eq_refl).
Qed.
