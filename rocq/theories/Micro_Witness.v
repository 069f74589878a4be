(** A concrete case for the microphysics methods: rain and ice with
    particles, cloud liquid without condensate, four-point tables. *)
From Verif Require Import Mom_Base Mom_Spec Mom_Facts Xr_Facts Sched_Model Atm_Model Psd_Model Lidar_Model Lidar_Spec
  Lidar_Corol Lidar_Witness Psd_Spec Psd_Int Psd_Witness Radar_Model Radar_Spec Radar_Total Radar_Witness
  Micro_Spec Micro_Cell Micro_Lidar Micro_Rcell Micro_Radar.
Local Open Scope R_scope.

Definition m_env (mc : string) : menv := {|
  nsub := 2; ntm := 1; nht := 3; p_conv := true;
  hyds := ["cl"; "ci"]%string; model_name := "Toy"%string; mcphys := mc; rad_family := "CESM"%string;
  p_name := "p"%string; t_name := "t"%string; z_name := "z"%string; qv_name := "qv"%string;
  p_pa := fun x => xmul x (XF 100); p_hpa := fun x => x;
  t_cel := fun x => xsub x (XF (27315/100)); t_kel := fun x => x; z_met := fun x => x;
  rho_hyd := [("cl", RConst 1000); ("pl", RConst 1000); ("ci", RConst 500)]%string;
  var_density := []; fluffy := None;
  lidar_ratio := [("cl", 18); ("pl", 5); ("ci", 24)]%string;
  ldr_hyd := [("cl", 3/100); ("ci", 35/100)]%string;
  re_conv := [("cl", "re_cl"); ("pl", "re_cl"); ("ci", "re_ci")]%string;
  re_strat := [("cl", "re_cl"); ("pl", "re_cl"); ("ci", "re_ci")]%string;
  lam_field := None; mu_field := None;
  vel_a := [("cl", 1/100); ("pl", 8); ("ci", 1)]%string; vel_b := [("cl", 0); ("pl", 0); ("ci", 0)]%string;
  vd_ref := [("pl", Some 1); ("ci", None)]%string; hybrid := 0; p3_ni := "ni"%string; p3_n0 := "n0"%string |}.
Notation w_mg2 := (m_env "MG2"%string).
Definition m_D : list R := [1/10000; 2/10000; 3/10000; 4/10000].
Definition m_B : list R := [1; 2; 3; 4].
Definition m_A : list R := [4; 3; 2; 1].
Definition m_tab : stab := {| s_diam := map XF m_D; s_diam_eqv := map XF m_D; s_beta := map XF m_B; s_alpha := map XF m_A |}.
Definition m_with (ins : inst) : inst := {|
  i_str := i_str ins; i_class := i_class ins; freq := freq ins; wavelen := wavelen ins; k_w := k_w ins;
  eps_im := eps_im ins; z_min_1km := z_min_1km ins; ext_OD := ext_OD ins; r_d := r_d ins; grav := grav ins;
  rho_ice := rho_ice ins; bulk_table := bulk_table ins;
  mie_table := [("cl", m_tab); ("pl", m_tab); ("ci", m_tab)]%string; scat_table := [("CESM_ice", m_tab)]%string;
  p3_bulk := p3_bulk ins; p3_single := p3_single ins |}.
Definition m_fields : list (string * mv) :=
  [("p", c2 900); ("t", c2 280); ("z", V2 w_z); ("qv", c2 (1/1000)); ("rho_a", c2 1);
   ("strat_q_subcolumns_cl", c3 0); ("strat_q_subcolumns_ci", c3 (1/100000)); ("strat_q_subcolumns_pl", c3 (1/10000));
   ("strat_n_subcolumns_cl", c3 0); ("strat_n_subcolumns_ci", c3 (1/100)); ("strat_n_subcolumns_pl", c3 (1/100));
   ("strat_frac_subcolumns_cl", VB (fun _ _ _ => false)); ("strat_frac_subcolumns_ci", VB (fun _ _ _ => true));
   ("strat_frac_subcolumns_pl", VB (fun _ _ _ => true))]%string.
Definition m_ds : dset := mkds m_fields [].
Definition m_lopts (hs : list string) : lopts := {|
  o_sfc := true; o_hyds := Some hs; o_sched := Serial; o_eta := 1; o_mie := false;
  o_rad := false; o_emp := false; o_kw := w_kw |}.
Definition m_ropts (hs : list string) : ropts := {|
  r_sfc := true; r_hyds := Some hs; r_sched := Serial; r_mie := false; r_rad := false; r_emp := false;
  r_width := true; r_kw := w_kw |}.

Lemma m_lidar_runs Gam hs : In hs [["pl"; "ci"]; ["pl"; "cl"; "ci"]; ["ci"; "pl"]]%string ->
  exists s1, calc_lidar_moments Gam w_mg2 (m_with w_ins) (m_lopts hs) false m_ds = (Ok tt, s1).
Proof. intros H. apply ran. simpl in H. destruct H as [<-|[<-|[<-|[]]]]; reflexivity. Qed.
Lemma m_radar_runs Gam hs : In hs [["pl"; "ci"]; ["pl"; "cl"; "ci"]; ["cl"; "pl"; "ci"]]%string ->
  exists s1, calc_radar_moments Gam w_mg2 (m_with w_radar) (m_ropts hs) false m_ds = (Ok tt, s1).
Proof. intros H. apply ran. simpl in H. destruct H as [<-|[<-|[<-|[]]]]; reflexivity. Qed.

Lemma m_tables mc : micro_tables_ok (m_env mc) /\ rmicro_tables_ok (m_env mc).
Proof.
  split; (split; [|intros x Hx Hn; simpl in Hx, Hn; intuition (subst; discriminate)]).
  - intros x Hx [H|[y H]].
    + simpl in Hx, H. intuition (subst; discriminate).
    + simpl in Hx; intuition (subst; discriminate).
  - intros x Hx [H|[y H]].
    + unfold radar_fields in H. simpl in Hx, H. intuition (subst; discriminate).
    + simpl in Hx; intuition (subst; discriminate).
Qed.
Lemma m_gamma h : gamma_class w_mg2 h.
Proof. right. discriminate. Qed.
Lemma m_ptable : particle_table (map XF m_D, map XF m_B, map XF m_A) m_D m_B m_A.
Proof. split; [reflexivity|]. split; [reflexivity|]. split; [reflexivity|]. simpl. lra. Qed.
Lemma m_ctable ins mie h : In h ["cl"; "pl"; "ci"]%string ->
  class_table w_mg2 (m_with ins) mie h (map XF m_D, map XF m_B, map XF m_A).
Proof. intros H. exists m_tab. simpl in H. destruct H as [<-|[<-|[<-|[]]]]; destruct mie; split; reflexivity. Qed.
Lemma m_pos : (forall b, In b m_B -> 0 < b) /\ (forall x, In x m_A \/ In x m_B -> 0 <= x) /\ (2 <= length m_D)%nat.
Proof.
  split; [|split]; [| |simpl; lia].
  - intros b H. simpl in H. intuition lra.
  - intros x H. simpl in H. intuition lra.
Qed.
Definition m_q (h : string) : R := if String.eqb h "pl" then 1/10000 else 1/100000.
Definition m_r (h : string) : R := if String.eqb h "pl" then 1000 else 500.
Lemma m_holds h i t k : In h ["pl"; "ci"]%string -> holds_particles w_mg2 m_ds h i t k (m_q h) (1/100) (m_r h).
Proof.
  intros H. simpl in H. destruct H as [<-|[<-|[]]]; unfold m_q, m_r; cbn [String.eqb Ascii.eqb Bool.eqb];
    (split; [reflexivity|]; split; [reflexivity|]; split; [left; reflexivity|]; split; [lra|]; split; [lra|]; split; [lra|];
     eexists; split; reflexivity).
Qed.
Lemma m_none i t k : holds_none m_ds "cl" i t k.
Proof. apply xltb_fin_f. simpl. lra. Qed.
Lemma m_known h n : In h ["pl"; "ci"]%string -> gamma_known w_gam (class_shape w_mg2 w_kw h n).
Proof.
  intros H. assert (class_shape w_mg2 w_kw h n = 0) as -> by (simpl in H; destruct H as [<-|[<-|[]]]; reflexivity).
  split; unfold w_gam.
  - destruct (Req_EM_T (0 + 1) 1); [|lra]. replace (0 + 1) with 1 by ring. apply gamma_one.
  - destruct (Req_EM_T (0 + 4) 1); [lra|]. replace (0 + 4) with 4 by ring. apply gamma_four.
Qed.
Definition m_a (h : string) : R := if String.eqb h "pl" then 8 else 1.
Lemma m_speed h : In h ["pl"; "ci"]%string -> class_speed w_mg2 h (fun d => - (m_a h * Rpower d 0)).
Proof.
  intros H. right. split; [discriminate|]. exists (m_a h), 0.
  simpl in H; destruct H as [<-|[<-|[]]]; split; try reflexivity; split; reflexivity.
Qed.
Lemma m_air h t k : In h ["pl"; "ci"]%string -> air_factor w_mg2 m_ds h t k 1.
Proof.
  intros H. simpl in H. destruct H as [<-|[<-|[]]].
  - left. exists 1, 1, (fun _ _ => XF 1). do 3 (split; [reflexivity|]). split; [lra|]. split; [lra|].
    unfold Rpower. replace (1 / 1) with 1 by lra. rewrite ln_1, Rmult_0_r, exp_0. reflexivity.
  - right. split; [right; reflexivity|reflexivity].
Qed.
Lemma m_det hs h i t k : In h ["pl"; "cl"; "ci"]%string -> determined w_gam w_mg2 (m_with w_radar) (m_ropts hs) m_ds h i t k.
Proof.
  intros H. assert (D : h = "cl"%string \/ In h ["pl"; "ci"]%string) by (simpl in *; intuition congruence).
  destruct D as [->|H']; [left; apply m_none|]. right.
  exists (m_q h), (1/100), (m_r h), (map XF m_D, map XF m_B, map XF m_A), m_D, m_B, m_A, (fun d => - (m_a h * Rpower d 0)), 1.
  split; [apply m_holds; exact H'|]. split; [apply m_ctable; simpl in *; tauto|]. split; [apply m_ptable|].
  split; [apply m_pos|]. split; [apply m_pos|]. split; [apply m_known; exact H'|]. split; [apply m_speed; exact H'|apply m_air; exact H'].
Qed.
Lemma m_cell i k : (i < 2)%nat -> (k < 3)%nat -> cell w_mg2 i 0 k.
Proof. intros. repeat split; simpl; lia. Qed.
Lemma m_plain hs : In hs [["pl"; "ci"]; ["pl"; "cl"; "ci"]; ["cl"; "pl"; "ci"]]%string -> plain hs.
Proof. intros H. simpl in H. destruct H as [<-|[<-|[<-|[]]]]; plain_list. Qed.

(** Lidar: extinction of rain is that of an exponential distribution with
    10^4 particles and 10^-4 kg of water per cubic metre. *)
Lemma m_lidar : exists s1, calc_lidar_moments w_gam w_mg2 (m_with w_ins) (m_lopts ["pl"; "cl"; "ci"]%string) false m_ds = (Ok tt, s1) /\
  micro_tables_ok w_mg2 /\ totals_stored m_ds /\
  (exists lam n0, carries 1000 (1/10000) (1/100) 0 lam n0 /\
     value s1 "sub_col_alpha_p_pl_strat" 0 0 1 = XF (population m_D m_A (gamma_psd n0 lam 0)) /\
     value s1 "sub_col_beta_p_pl_strat" 0 0 1 = XF (population m_D m_B (gamma_psd n0 lam 0))) /\
  value s1 "sub_col_alpha_p_cl_strat" 0 0 1 = XF 0.
Proof.
  destruct (m_lidar_runs w_gam ["pl"; "cl"; "ci"]%string) as (s1 & E); [simpl; tauto|].
  exists s1. split; [exact E|]. split; [apply m_tables|].
  assert (TS : totals_stored m_ds) by (intro H; discriminate H). split; [exact TS|].
  assert (NT : ~ In "tot"%string ["pl"; "cl"; "ci"]%string) by (simpl; intuition discriminate).
  split.
  - apply (fun G1 G2 G3 G4 G5 => micro_value w_gam w_mg2 (m_with w_ins) (m_lopts ["pl"; "cl"; "ci"]%string) ["pl"; "cl"; "ci"]%string m_ds s1
      (proj1 (m_tables _)) eq_refl eq_refl eq_refl NT (fun h _ => m_gamma h) TS E "pl"%string
      (map XF m_D, map XF m_B, map XF m_A) m_D m_B m_A 0 0 1 (1/10000) (1/100) 1000 G1 G2 m_ptable G3 G4 G5)%nat.
    + simpl; tauto.
    + apply m_ctable. simpl; tauto.
    + apply m_cell; lia.
    + apply (m_holds "pl"). simpl; tauto.
    + apply (m_known "pl"). simpl; tauto.
  - apply (micro_empty w_gam w_mg2 (m_with w_ins) (m_lopts ["pl"; "cl"; "ci"]%string) ["pl"; "cl"; "ci"]%string m_ds s1
      (proj1 (m_tables _)) eq_refl eq_refl eq_refl NT (fun h _ => m_gamma h) TS E "cl"%string 0 0 1)%nat.
    + simpl; tauto.
    + apply m_cell; lia.
    + apply m_none.
Qed.

Section Radar.
Variables (hs : list string) (s1 : dset).
Hypotheses (Hin : In hs [["pl"; "ci"]; ["pl"; "cl"; "ci"]; ["cl"; "pl"; "ci"]]%string)
  (E : calc_radar_moments w_gam w_mg2 (m_with w_radar) (m_ropts hs) false m_ds = (Ok tt, s1)).
Let TO := proj2 (m_tables "MG2"%string).
Lemma m_mem h : In h ["pl"; "ci"]%string -> In h hs.
Proof. clear E s1. simpl in *. destruct Hin as [<-|[<-|[<-|[]]]]; simpl; tauto. Qed.
Lemma m_class h i k : In h ["pl"; "ci"]%string -> (i < 2)%nat -> (k < 3)%nat ->
  0 < linear (value s1 (out "Ze" h false) i 0 k) /\ value s1 (out "Vd" h false) i 0 k = XF (- m_a h).
Proof.
  intros Hh Hi Hk. pose proof (m_cell i k Hi Hk) as C. pose proof (m_holds h i 0%nat k Hh) as HP.
  assert (Hk0 : 0 < k_w (m_with w_radar)) by (simpl; lra). assert (Hw : 0 < wavelen (m_with w_radar)) by (simpl; lra).
  assert (CT : class_table w_mg2 (m_with w_radar) (r_mie (m_ropts hs)) h (map XF m_D, map XF m_B, map XF m_A)).
  { apply m_ctable. simpl in *; tauto. }
  split.
  - destruct (rm_value w_gam w_mg2 (m_with w_radar) (m_ropts hs) hs m_ds s1 TO eq_refl eq_refl eq_refl (m_plain hs Hin)
      (fun h _ => m_gamma h) Hk0 E h _ _ _ _ _ _ i 0%nat k _ _ _ (m_mem h Hh) CT m_ptable (proj1 m_pos) (proj2 (proj2 m_pos)) C HP
      (m_known h _ Hh) (m_speed h Hh) (m_air h 0 k Hh)) as (lam & n0 & _ & P & V & _).
    rewrite V. pose proof (reflectivity_1 (m_with w_radar) Hk0 Hw) as P1.
    assert (P2 : 0 < reflectivity (m_with w_radar) (population m_D m_B (gamma_psd n0 lam (class_shape w_mg2 (r_kw (m_ropts hs)) h (1/100))))).
    { rewrite reflectivity_lin. apply Rmult_lt_0_compat; assumption. }
    rewrite linear_dBZ by lra. exact P2.
  - destruct (rm_speed w_gam w_mg2 (m_with w_radar) (m_ropts hs) hs m_ds s1 TO eq_refl eq_refl eq_refl (m_plain hs Hin)
      (fun h _ => m_gamma h) Hk0 E h _ _ _ _ _ _ i 0%nat k _ _ _ (- m_a h) (- m_a h) (m_mem h Hh) CT m_ptable (proj1 m_pos) (proj2 (proj2 m_pos)) C HP
      (m_known h _ Hh) (m_speed h Hh) (m_air h 0 k Hh)) as (v & V & B & _).
    { intros d Hd. assert (0 < d) by (simpl in Hd; intuition lra). rewrite Rpower_O by assumption. lra. }
    rewrite V. apply (f_equal XF). lra.
Qed.
Lemma m_cl i k : In "cl"%string hs -> (i < 2)%nat -> (k < 3)%nat -> value s1 (out "Ze" "cl" false) i 0 k = XNaN.
Proof.
  intros Hh Hi Hk. assert (Hk0 : 0 < k_w (m_with w_radar)) by (simpl; lra).
  apply (rm_missing w_gam w_mg2 (m_with w_radar) (m_ropts hs) hs m_ds s1 TO eq_refl eq_refl eq_refl (m_plain hs Hin)
      (fun h _ => m_gamma h) Hk0 E "cl"%string i 0%nat k Hh (m_cell i k Hi Hk)). apply m_none.
Qed.
Lemma m_total i k : (i < 2)%nat -> (k < 3)%nat ->
  value s1 (out "Vd" "tot" false) i 0 k
  = XF (sum_over (from_cl hs) (fun h => linear (value s1 (out "Ze" h false) i 0 k) * speed_of (value s1 (out "Vd" h false) i 0 k))
        / sum_over (from_cl hs) (fun h => linear (value s1 (out "Ze" h false) i 0 k))).
Proof.
  intros Hi Hk. assert (Hk0 : 0 < k_w (m_with w_radar)) by (simpl; lra). assert (Hw : 0 < wavelen (m_with w_radar)) by (simpl; lra).
  apply (rm_total_velocity w_gam w_mg2 (m_with w_radar) (m_ropts hs) hs m_ds s1 TO eq_refl eq_refl eq_refl (m_plain hs Hin)
      (fun h _ => m_gamma h) Hk0 E i 0%nat k (m_cell i k Hi Hk) Hw).
  - intros h Hh. apply m_det. apply from_cl_in in Hh. clear E. simpl in Hin. destruct Hin as [<-|[<-|[<-|[]]]]; simpl in *; tauto.
  - exists "ci"%string, (m_q "ci"), (1/100), (m_r "ci"). split; [|apply m_holds; simpl; tauto].
    clear E. simpl in Hin. destruct Hin as [<-|[<-|[<-|[]]]]; vm_compute; tauto.
Qed.
End Radar.

(** Rain falls at 8 m/s, ice at 1 m/s; listing the (empty) cloud liquid
    between them removes the rain from the total velocity. *)
Lemma m_velocity : exists s1 s2,
  calc_radar_moments w_gam w_mg2 (m_with w_radar) (m_ropts ["pl"; "cl"; "ci"]%string) false m_ds = (Ok tt, s1) /\
  calc_radar_moments w_gam w_mg2 (m_with w_radar) (m_ropts ["cl"; "pl"; "ci"]%string) false m_ds = (Ok tt, s2) /\
  value s1 "sub_col_Ze_cl_strat" 0 0 1 = XNaN /\
  value s1 "sub_col_Vd_pl_strat" 0 0 1 = XF (-8) /\ value s1 "sub_col_Vd_ci_strat" 0 0 1 = XF (-1) /\
  value s1 "sub_col_Vd_tot_strat" 0 0 1 = XF (-1) /\
  exists v, value s2 "sub_col_Vd_tot_strat" 0 0 1 = XF v /\ v < -1.
Proof.
  destruct (m_radar_runs w_gam ["pl"; "cl"; "ci"]%string) as (s1 & E1); [simpl; tauto|].
  destruct (m_radar_runs w_gam ["cl"; "pl"; "ci"]%string) as (s2 & E2); [simpl; tauto|].
  assert (I1 : In ["pl"; "cl"; "ci"]%string [["pl"; "ci"]; ["pl"; "cl"; "ci"]; ["cl"; "pl"; "ci"]]%string) by (simpl; tauto).
  assert (I2 : In ["cl"; "pl"; "ci"]%string [["pl"; "ci"]; ["pl"; "cl"; "ci"]; ["cl"; "pl"; "ci"]]%string) by (simpl; tauto).
  destruct (m_class _ _ I1 E1 "pl"%string 0%nat 1%nat) as [P1 V1]; [simpl; tauto|lia|lia|].
  destruct (m_class _ _ I1 E1 "ci"%string 0%nat 1%nat) as [P2 V2]; [simpl; tauto|lia|lia|].
  destruct (m_class _ _ I2 E2 "pl"%string 0%nat 1%nat) as [P3 V3]; [simpl; tauto|lia|lia|].
  destruct (m_class _ _ I2 E2 "ci"%string 0%nat 1%nat) as [P4 V4]; [simpl; tauto|lia|lia|].
  pose proof (m_cl _ _ I1 E1 0%nat 1%nat) as N1. pose proof (m_cl _ _ I2 E2 0%nat 1%nat) as N2.
  specialize (N1 ltac:(simpl; tauto) ltac:(lia) ltac:(lia)). specialize (N2 ltac:(simpl; tauto) ltac:(lia) ltac:(lia)).
  pose proof (m_total _ _ I1 E1 0%nat 1%nat ltac:(lia) ltac:(lia)) as T1.
  pose proof (m_total _ _ I2 E2 0%nat 1%nat ltac:(lia) ltac:(lia)) as T2.
  change (from_cl ["pl"; "cl"; "ci"]%string) with ["cl"; "ci"]%string in T1.
  change (from_cl ["cl"; "pl"; "ci"]%string) with ["cl"; "pl"; "ci"]%string in T2.
  unfold sum_over in T1, T2. cbn [fold_right] in T1, T2. rewrite V2, N1 in T1. rewrite V3, V4, N2 in T2.
  change (linear XNaN) with 0 in T1, T2. cbn [speed_of] in T1, T2.
  set (a := linear (value s1 (out "Ze" "ci" false) 0 0 1)) in *.
  set (b := linear (value s2 (out "Ze" "pl" false) 0 0 1)) in *.
  set (c := linear (value s2 (out "Ze" "ci" false) 0 0 1)) in *.
  change (m_a "pl") with 8 in *. change (m_a "ci") with 1 in *.
  exists s1, s2. split; [exact E1|]. split; [exact E2|]. split; [exact N1|]. split; [exact V1|]. split; [exact V2|].
  split.
  - change "sub_col_Vd_tot_strat"%string with (out "Vd" "tot" false). rewrite T1. apply (f_equal XF). field. lra.
  - eexists. split; [exact T2|].
    apply (Rmult_lt_reg_r (b + c)); [lra|].
    match goal with |- ?l * _ < _ => replace (l * (b + c)) with (- 8 * b - c) end; [lra|field; lra].
Qed.

Lemma m_mean_refuted : exists e ins hs s s1 i t k,
  calc_radar_moments w_gam e ins (m_ropts hs) false s = (Ok tt, s1) /\ cell e i t k /\
  rmicro_tables_ok e /\ plain hs /\ (forall h, In h hs -> gamma_class e h) /\ 0 < k_w ins /\ 0 < wavelen ins /\
  (forall h, In h hs -> determined w_gam e ins (m_ropts hs) s h i t k) /\
  (exists h q n r, In h hs /\ holds_particles e s h i t k q n r) /\
  value s1 (out "Vd" "tot" false) i t k
  <> XF (sum_over hs (fun h => linear (value s1 (out "Ze" h false) i t k) * speed_of (value s1 (out "Vd" h false) i t k))
        / sum_over hs (fun h => linear (value s1 (out "Ze" h false) i t k))).
Proof.
  destruct m_velocity as (s1 & _ & E1 & _ & N & V1 & V2 & T & _).
  assert (I1 : In ["pl"; "cl"; "ci"]%string [["pl"; "ci"]; ["pl"; "cl"; "ci"]; ["cl"; "pl"; "ci"]]%string) by (simpl; tauto).
  destruct (m_class _ _ I1 E1 "pl"%string 0%nat 1%nat) as [P1 _]; [simpl; tauto|lia|lia|].
  destruct (m_class _ _ I1 E1 "ci"%string 0%nat 1%nat) as [P2 _]; [simpl; tauto|lia|lia|].
  exists w_mg2, (m_with w_radar), ["pl"; "cl"; "ci"]%string, m_ds, s1, 0%nat, 0%nat, 1%nat.
  split; [exact E1|]. split; [apply m_cell; lia|]. split; [apply m_tables|]. split; [apply m_plain; exact I1|].
  split; [intros; apply m_gamma|]. split; [simpl; lra|]. split; [simpl; lra|].
  split; [intros h Hh; apply m_det; exact Hh|].
  split; [exists "pl"%string, (m_q "pl"), (1/100), (m_r "pl"); split; [simpl; tauto|apply m_holds; simpl; tauto]|].
  change (out "Vd" "tot" false) with "sub_col_Vd_tot_strat"%string. rewrite T. unfold sum_over. cbn [fold_right].
  change (out "Vd" "pl" false) with "sub_col_Vd_pl_strat"%string. change (out "Vd" "ci" false) with "sub_col_Vd_ci_strat"%string.
  rewrite V1, V2. change (out "Ze" "cl" false) with "sub_col_Ze_cl_strat"%string. rewrite N. change (linear XNaN) with 0.
  cbn [speed_of]. set (a := linear (value s1 (out "Ze" "pl" false) 0 0 1)) in *.
  set (b := linear (value s1 (out "Ze" "ci" false) 0 0 1)) in *. intro Q. injection Q as Q.
  apply (f_equal (fun x => x * (a + b))) in Q.
  match type of Q with _ = ?r => replace r with (- 8 * a - b) in Q end; [lra|field; lra].
Qed.

Lemma m_order_refuted : exists e ins o s hs1 hs2 s1 s2 i t k,
  Permutation.Permutation hs1 hs2 /\
  calc_radar_moments w_gam e ins (radar_hyds o hs1) false s = (Ok tt, s1) /\
  calc_radar_moments w_gam e ins (radar_hyds o hs2) false s = (Ok tt, s2) /\ cell e i t k /\
  value s2 (out "Vd" "tot" false) i t k <> value s1 (out "Vd" "tot" false) i t k.
Proof.
  destruct m_velocity as (s1 & s2 & E1 & E2 & _ & _ & _ & T1 & v & T2 & Hv).
  exists w_mg2, (m_with w_radar), (m_ropts []), m_ds, ["pl"; "cl"; "ci"]%string, ["cl"; "pl"; "ci"]%string, s1, s2, 0%nat, 0%nat, 1%nat.
  split; [apply Permutation.perm_swap|]. split; [exact E1|]. split; [exact E2|]. split; [apply m_cell; lia|].
  change (out "Vd" "tot" false) with "sub_col_Vd_tot_strat"%string. rewrite T1, T2. intro Q. injection Q as Q. lra.
Qed.

(** The attenuation with rain and ice is that with ice alone. *)
Lemma m_extinction : exists s1 s2,
  calc_radar_moments w_gam w_mg2 (m_with w_radar) (m_ropts ["pl"; "ci"]%string) false m_ds = (Ok tt, s1) /\
  calc_radar_moments w_gam w_mg2 (m_with w_radar) (m_ropts ["ci"]%string) false m_ds = (Ok tt, s2) /\
  (exists lam n0, carries 1000 (1/10000) (1/100) 0 lam n0 /\ 0 < population m_D m_A (gamma_psd n0 lam 0)) /\
  forall i t k, value s1 (hyd_ext_name false) i t k = value s2 (hyd_ext_name false) i t k.
Proof.
  destruct (m_radar_runs w_gam ["pl"; "ci"]%string) as (s1 & E1); [simpl; tauto|].
  destruct (ran (calc_radar_moments w_gam w_mg2 (m_with w_radar) (m_ropts ["ci"]%string) false m_ds) eq_refl) as (s2 & E2).
  exists s1, s2. split; [exact E1|]. split; [exact E2|]. split.
  - destruct (m_lidar) as (_ & _ & _ & _ & (lam & n0 & Hc & _) & _). exists lam, n0. split; [exact Hc|].
    apply population_pos; [reflexivity|simpl; lia|simpl; lra| |].
    + intros b H. simpl in H. intuition lra.
    + intros d _. apply gamma_psd_pos. apply Hc.
  - apply (rm_ext_last_only w_gam w_mg2 (m_with w_radar) (m_ropts []) ["pl"%string] "ci"%string m_ds s1 s2
      (proj2 (m_tables _)) eq_refl eq_refl (m_plain _ (or_introl eq_refl)) (fun h _ => m_gamma h) E1 E2).
Qed.

Lemma m_again : exists s1 s2,
  calc_radar_moments w_gam w_mg2 (m_with w_radar) (m_ropts ["pl"; "ci"]%string) false m_ds = (Ok tt, s1) /\
  calc_radar_moments w_gam w_mg2 (m_with w_radar) (m_ropts ["pl"; "ci"]%string) false s1 = (Ok tt, s2).
Proof.
  set (c := calc_radar_moments w_gam w_mg2 (m_with w_radar) (m_ropts ["pl"; "ci"]%string) false).
  exists (snd (c m_ds)), (snd (c (snd (c m_ds)))). split.
  - transitivity (fst (c m_ds), snd (c m_ds)); [apply surjective_pairing|reflexivity].
  - transitivity (fst (c (snd (c m_ds))), snd (c (snd (c m_ds)))); [apply surjective_pairing|reflexivity].
Qed.

(** NSSL: rain is enough to make the call fail. *)
Lemma m_nssl : (exists s1, calc_radar_moments w_gam (m_env "nssl") (m_with w_radar) (m_ropts ["cl"]%string) false m_ds = (Ok tt, s1)) /\
  fst (calc_radar_moments w_gam (m_env "nssl") (m_with w_radar) (m_ropts ["cl"; "pl"]%string) false m_ds) <> Ok tt.
Proof.
  split; [apply ran; reflexivity|]. intro H. destruct (ran _ H) as (s1 & E).
  assert (Hk0 : 0 < k_w (m_with w_radar)) by (simpl; lra).
  assert (PL : plain ["cl"; "pl"]%string) by plain_list.
  assert (G : forall h, In h ["cl"; "pl"]%string -> gamma_class (m_env "nssl") h) by (intros h Hh; left; exact Hh).
  pose proof (rm_nssl w_gam (m_env "nssl") (m_with w_radar) (m_ropts ["cl"; "pl"]%string) ["cl"; "pl"]%string m_ds s1
    (proj2 (m_tables _)) eq_refl eq_refl eq_refl PL G E eq_refl "pl"%string (or_intror (or_introl eq_refl))) as Q.
  discriminate Q.
Qed.

Lemma m_C79 : exists s1,
  calc_lidar_moments w_gam w_mg2 (m_with w_ins) (m_lopts ["pl"; "ci"]%string) false m_ds = (Ok tt, s1) /\
  micro_tables_ok w_mg2 /\ totals_stored m_ds /\ forall h, gamma_class w_mg2 h.
Proof.
  destruct (m_lidar_runs w_gam ["pl"; "ci"]%string (or_introl eq_refl)) as (s1 & E). exists s1.
  split; [exact E|]. split; [apply m_tables|]. split; [intro H; discriminate H|exact m_gamma].
Qed.
Lemma m_C80 : Permutation.Permutation ["pl"; "ci"]%string ["ci"; "pl"]%string /\ exists s1,
  calc_lidar_moments w_gam w_mg2 (m_with w_ins) (with_hyds (m_lopts []) ["pl"; "ci"]%string) false m_ds = (Ok tt, s1).
Proof. split; [apply Permutation.perm_swap|]. apply ran. reflexivity. Qed.
Lemma m_C82 : rmicro_tables_ok w_mg2 /\ plain ["pl"; "cl"; "ci"]%string /\ (forall h, gamma_class w_mg2 h) /\
  0 < k_w (m_with w_radar) /\ 0 < wavelen (m_with w_radar) /\
  (forall h i t k, In h ["pl"; "ci"]%string -> holds_particles w_mg2 m_ds h i t k (m_q h) (1/100) (m_r h)) /\
  (forall i t k, holds_none m_ds "cl" i t k) /\
  (forall h, In h ["pl"; "ci"]%string -> class_speed w_mg2 h (fun d => - (m_a h * Rpower d 0))) /\
  (forall h t k, In h ["pl"; "ci"]%string -> air_factor w_mg2 m_ds h t k 1) /\
  (forall h, In h ["cl"; "pl"; "ci"]%string -> class_table w_mg2 (m_with w_radar) false h (map XF m_D, map XF m_B, map XF m_A)) /\
  particle_table (map XF m_D, map XF m_B, map XF m_A) m_D m_B m_A.
Proof.
  split; [apply m_tables|]. split; [plain_list|]. split; [exact m_gamma|]. split; [simpl; lra|]. split; [simpl; lra|].
  split; [intros; apply m_holds; assumption|]. split; [exact m_none|]. split; [exact m_speed|]. split; [intros; apply m_air; assumption|].
  split; [intros; apply m_ctable; assumption|exact m_ptable].
Qed.
From Verif Require Gen_Spec.
Lemma m_C81 : Gen_Spec.good_sched (Parallel (Some 2%Z)) /\ Gen_Spec.good_sched Serial.
Proof. split; [simpl; lia|exact I]. Qed.
