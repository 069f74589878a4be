(** The total spectral width with different reference densities. *)
From Verif Require Import Mom_Base Mom_Spec Mom_Facts Xr_Facts Sched_Model Atm_Model Psd_Model Lidar_Model Lidar_Spec
  Lidar_Corol Lidar_Witness Psd_Spec Psd_Int Psd_Witness Radar_Model Radar_Spec Radar_Total Radar_Witness
  Micro_Spec Micro_Psd Micro_Loop Micro_Char Micro_Cell Micro_Lidar Micro_Rloop Micro_Rcell Micro_Radar Micro_Witness Micro_Rany Micro_Rany2 Micro_P3_Spec Micro_Width_Spec Micro_Width Micro_Width2.
Local Open Scope R_scope.

Lemma second_pass Gam e ins o lut s h S corr vd i t k q n r tab D B A w y m :
  radar_lut (r_mie o) (rad_family e) = Ok lut -> is_nssl e = false -> gamma_class e h ->
  gsig Gam e ins (r_mie o) (r_sched o) (r_kw o) lut corr vd h s = Ok S -> cell e i t k ->
  holds_particles e s h i t k q n r -> class_table e ins (r_mie o) h tab -> particle_table tab D B A ->
  gamma_known Gam (class_shape e (r_kw o) h n) -> class_speed e h w -> corr t k = XF y -> vd i t k = XF m ->
  exists lam n0, carries r q n (class_shape e (r_kw o) h n) lam n0 /\
    pts S i t k = XF (population D (products (map (fun v => (v - m) ^ 2) (map (fun d => w d * y) D)) B)
                        (gamma_psd n0 lam (class_shape e (r_kw o) h n))).
Proof.
  intros Hl Ns G E (Hi & Ht & Hk) HP CT (ET & LB & LA & Inc) HK HS Ey Em.
  destruct (cell_fit Gam e o s h i t k q n r HP HK) as (lam & n0 & Hcar & HF). exists lam, n0. split; [exact Hcar|].
  pose proof HP as (Vq & Vn & Dn & hq & hn & hr & fl0 & Hf0 & Hp).
  pose proof (inc_pos 0 D (Rle_refl 0) Inc) as Pd.
  destruct (gsig_cell Gam e ins _ _ _ lut corr vd h s S i t k G Ns E Ht)
    as (qa & na & rh & fl & diam & beta & alpha & vel & Eq & En & Ef & Er & Etab & Evel & EC).
  assert (fl = fl0) as -> by (unfold varb in *; congruence).
  pose proof (rtable_ok e ins (r_mie o) h lut _ tab Hl Etab CT) as Q. rewrite ET in Q. injection Q as -> -> ->.
  destruct (HF qa na rh Eq En Er) as (Nn & L1 & L3).
  assert (Z1 : all_zero_level e (weighted fl0 na) t k = false).
  { eapply (fun G => present_level G e); [exact Gam|exact Hi|exact Hp|]. exists n.
    unfold value in Vn. rewrite En in Vn. split; [exact Vn|lra]. }
  rewrite EC. clear EC. cbv zeta.
  rewrite Z1, L1, L3, Nn, Hp, orb_true_r. cbn [orb].
  rewrite (not_nan_level Gam e _ i t k n0 Hi L3), andb_false_r, (curve_real e o h n n0 lam D) by (lra || exact Pd).
  rewrite (speed_real e h _ vel w D ltac:(congruence) (gamma_not_p3 e h G) Evel eq_refl Pd HS), Ey, scale_real, Em.
  apply (width_real D B (map (fun d => w d * y) D)); [exact LB|rewrite map_length; reflexivity].
Qed.

(** Rain with a reference density that doubles its velocity, ice without one. *)
Definition z_r0 : R := Rpower 2 (100 / 54).
Definition z_env : menv := {|
  nsub := 2; ntm := 1; nht := 3; p_conv := true;
  hyds := ["cl"; "ci"]%string; model_name := "Toy"%string; mcphys := "MG2"%string; rad_family := "CESM"%string;
  p_name := "p"%string; t_name := "t"%string; z_name := "z"%string; qv_name := "qv"%string;
  p_pa := fun x => xmul x (XF 100); p_hpa := fun x => x;
  t_cel := fun x => xsub x (XF (27315/100)); t_kel := fun x => x; z_met := fun x => x;
  rho_hyd := [("cl", RConst 1000); ("pl", RConst 1000); ("ci", RConst 500)]%string;
  var_density := []; fluffy := None; lidar_ratio := []; ldr_hyd := []; re_conv := []; re_strat := [];
  lam_field := None; mu_field := None;
  vel_a := [("cl", 1/100); ("pl", 8); ("ci", 1)]%string; vel_b := [("cl", 0); ("pl", 0); ("ci", 0)]%string;
  vd_ref := [("pl", Some z_r0); ("ci", None)]%string; hybrid := 0; p3_ni := "ni"%string; p3_n0 := "n0"%string |}.
Definition z_ds : dset := mkds (put (put m_fields "strat_q_subcolumns_ci" (c3 0)) "strat_frac_subcolumns_ci" (VB (fun _ _ _ => false))) [].
Notation z_o := (m_ropts ["pl"; "ci"]%string).
Notation z_ins := (m_with w_radar).

Lemma z_tables : rmicro_tables_ok z_env.
Proof.
  split; [|intros x Hx Hn; simpl in Hx, Hn; intuition (subst; discriminate)].
  intros x Hx [H|[y H]].
  + unfold radar_fields in H. simpl in Hx, H. intuition (subst; discriminate).
  + simpl in Hx; intuition (subst; discriminate).
Qed.
Lemma z_gamma h : gamma_class z_env h.
Proof. right. discriminate. Qed.
Lemma z_plain : plain ["pl"; "ci"]%string.
Proof. plain_list. Qed.
Lemma z_holds t k i : holds_particles z_env z_ds "pl" i t k (1/10000) (1/100) 1000.
Proof.
  split; [reflexivity|]; split; [reflexivity|]; split; [left; reflexivity|]; split; [lra|]; split; [lra|]; split; [lra|].
  eexists; split; reflexivity.
Qed.
Lemma z_none i t k : holds_none z_ds "ci" i t k.
Proof. apply xltb_fin_f. simpl. lra. Qed.
Lemma z_speed : class_speed z_env "pl" (fun d => - (8 * Rpower d 0)).
Proof. right. split; [discriminate|]. exists 8, 0. repeat split. Qed.
Lemma z_two : Rpower (z_r0 / 1) (54 / 100) = 2.
Proof.
  replace (z_r0 / 1) with z_r0 by field. unfold z_r0. rewrite Rpower_mult. replace (100 / 54 * (54 / 100)) with 1 by field.
  apply Rpower_1. lra.
Qed.
Lemma z_air t k : air_factor z_env z_ds "pl" t k 2.
Proof.
  left. exists z_r0, 1, (fun _ _ => XF 1). do 3 (split; [reflexivity|]).
  split; [unfold z_r0, Rpower; apply exp_pos|]. split; [lra|]. symmetry. exact z_two.
Qed.
Lemma z_air_ci t k : air_factor z_env z_ds "ci" t k 1.
Proof. right. split; [right; reflexivity|reflexivity]. Qed.
Lemma z_ctable h : In h ["cl"; "pl"; "ci"]%string -> class_table z_env z_ins false h (map XF m_D, map XF m_B, map XF m_A).
Proof. intros H. exists m_tab. simpl in H. destruct H as [<-|[<-|[<-|[]]]]; split; reflexivity. Qed.
Lemma z_gk n : gamma_known w_gam (class_shape z_env w_kw "pl" n).
Proof. exact (m_known "pl"%string n (or_introl eq_refl)). Qed.
Lemma z_known h i t k : In h ["pl"; "ci"]%string -> class_known w_gam z_env z_ins z_o z_ds h i t k.
Proof.
  intros [<-|[<-|[]]]; unfold class_known; cbn; (split; [apply z_gamma|]); [|left; apply z_none]. right.
  exists (1/10000), (1/100), 1000, (map XF m_D, map XF m_B, map XF m_A), m_D, m_B, m_A, (fun d => - (8 * Rpower d 0)), 2.
  split; [apply z_holds|]. split; [apply z_ctable; simpl; tauto|]. split; [apply m_ptable|]. split; [apply m_pos|].
  split; [apply m_pos|]. split; [apply z_gk|]. split; [apply z_speed|apply z_air].
Qed.
Lemma table_fun D D' B B' A A' t : particle_table t D B A -> particle_table t D' B' A' -> D' = D /\ B' = B /\ A' = A.
Proof.
  assert (I : forall l l', map XF l = map XF l' -> l' = l).
  { induction l as [|a l IH]; intros [|b l'] H; try discriminate H; [reflexivity|]. injection H as -> H. f_equal. auto. }
  intros (-> & _) (Q & _). injection Q as Q1 Q2 Q3. auto.
Qed.
Lemma class_table_fun e ins mie h t t' : class_table e ins mie h t -> class_table e ins mie h t' -> t' = t.
Proof.
  intros (st & H1 & ->) (st' & H2 & ->). assert (st' = st) as ->; [|reflexivity].
  destruct (memb h ice_classes); [destruct mie|]; congruence.
Qed.
(** The particles of the rain: all fall at 16 m/s. *)
Lemma z_seen i t k p : gamma_seen w_gam z_env z_ins z_o z_ds "pl" i t k p ->
  pa_D p = m_D /\ pa_B p = m_B /\ pa_V p = [-16; -16; -16; -16] /\ 0 < population m_D m_B (pa_n p).
Proof.
  intros (q & n & r & tab & w & x & lam & n0 & HP & CT & PT & HS & HA & Hc & EV & En).
  pose proof (class_table_fun _ _ _ _ _ _ (z_ctable "pl"%string (or_intror (or_introl eq_refl))) CT) as ->.
  destruct (table_fun _ _ _ _ _ _ _ m_ptable PT) as (D1 & B1 & _). split; [exact D1|]. split; [exact B1|].
  rewrite (air_factor_unique _ _ _ _ _ _ _ HA (z_air t k)) in EV.
  split.
  - rewrite EV, D1. destruct HS as [[Q _]|[_ (a & b & Ha & Hb & Hw)]]; [discriminate Q|].
    injection Ha as <-. injection Hb as <-. cbn [map m_D]. rewrite !Hw. rewrite !Rpower_O by lra.
    repeat (f_equal; try lra).
  - rewrite En. apply population_pos; [reflexivity|simpl; lia|simpl; lra|apply m_pos|].
    intros d _. apply gamma_psd_pos. apply Hc.
Qed.
Lemma z_products m n : population m_D (products (map (fun v => (v - m) ^ 2) [-16; -16; -16; -16]) m_B) n
  = (-16 - m) ^ 2 * population m_D m_B n.
Proof. unfold population. cbn. field. Qed.
Lemma z_mean n : population m_D (products [-16; -16; -16; -16] m_B) n = -16 * population m_D m_B n.
Proof. unfold population. cbn. field. Qed.
Lemma z_eight n : population m_D (products (map (fun v => (v - -16) ^ 2) [-8; -8; -8; -8]) m_B) n = 64 * population m_D m_B n.
Proof. unfold population. cbn. field. Qed.

Lemma z_width : exists e ins o hs s s1 i t k,
  calc_radar_moments w_gam e ins o false s = (Ok tt, s1) /\ r_emp o = false /\ r_rad o = false /\ r_width o = true /\
  classes_of e (r_hyds o) hs /\ plain hs /\ from_cl hs = hs /\ rmicro_tables_ok e /\ 0 < k_w ins /\ cell e i t k /\
  mcphys e = "MG2"%string /\ (forall h, In h hs -> class_known w_gam e ins o s h i t k) /\
  forall P, (forall h, In h hs -> class_seen w_gam e ins o s h i t k (P h)) ->
    all_spread hs P = 0 /\ exists v, value s1 (out "sigma_d" "tot" false) i t k = XF v /\ 0 < v.
Proof.
  destruct (ran (calc_radar_moments w_gam z_env z_ins z_o false z_ds) eq_refl) as (s1 & E).
  assert (Hk : 0 < k_w z_ins) by (simpl; lra).
  assert (C : cell z_env 0 0 1) by (repeat split; simpl; lia).
  exists z_env, z_ins, z_o, ["pl"; "ci"]%string, z_ds, s1, 0%nat, 0%nat, 1%nat.
  split; [exact E|]. do 4 (split; [reflexivity|]). split; [exact z_plain|]. split; [reflexivity|]. split; [exact z_tables|].
  split; [exact Hk|]. split; [exact C|]. split; [reflexivity|]. split; [intros; apply z_known; assumption|].
  assert (SP : forall P, (forall h, In h ["pl"; "ci"]%string -> class_seen w_gam z_env z_ins z_o z_ds h 0 0 1 (P h)) ->
    exists p, P "pl"%string = Some p /\ P "ci"%string = None /\ gamma_seen w_gam z_env z_ins z_o z_ds "pl" 0 0 1 p).
  { intros P HP. pose proof (HP "pl"%string (or_introl eq_refl)) as H1. pose proof (HP "ci"%string (or_intror (or_introl eq_refl))) as H2.
    unfold class_seen in H1, H2. cbn in H1, H2. destruct (P "pl"%string) as [p|].
    2:{ exfalso. destruct H1 as [_ H1]. apply xltb_fin_f in H1. lra. }
    destruct (P "ci"%string) as [p'|].
    { exfalso. destruct H2 as [_ (q & n & r & _ & _ & _ & _ & _ & (Vq & _ & _ & hq & _) & _)]. injection Vq as Vq. lra. }
    exists p. split; [reflexivity|]. split; [reflexivity|apply H1]. }
  assert (MS : forall P, (forall h, In h ["pl"; "ci"]%string -> class_seen w_gam z_env z_ins z_o z_ds h 0 0 1 (P h)) ->
    all_mean ["pl"; "ci"]%string P = -16 /\ all_spread ["pl"; "ci"]%string P = 0).
  { intros P HP. destruct (SP P HP) as (p & E1 & E2 & HS). destruct (z_seen _ _ _ p HS) as (D1 & B1 & V1 & Pp).
    assert (M : all_mean ["pl"; "ci"]%string P = -16).
    { unfold all_mean, all_backscatter, over_classes, sum_over. cbn [fold_right]. rewrite E1, E2, D1, B1, V1.
      rewrite z_mean. set (b := population m_D m_B (pa_n p)) in *. field. lra. }
    split; [exact M|]. unfold all_spread. rewrite M. unfold all_backscatter, over_classes, sum_over. cbn [fold_right].
    rewrite E1, E2, D1, B1, V1, z_products. set (b := population m_D m_B (pa_n p)) in *.
    match goal with |- sqrt ?x = 0 => replace x with 0; [apply sqrt_0|] end. field. lra. }
  intros P HP. split; [apply MS; exact HP|].
  destruct (any_width w_gam z_env z_ins z_o ["pl"; "ci"]%string z_ds s1 z_tables eq_refl eq_refl eq_refl z_plain E 0%nat 0%nat 1%nat Hk C)
    as (P1 & H1 & _ & HV & _).
  { intros h Hh. apply z_known. exact Hh. }
  { exists "pl"%string. split; [simpl; tauto|]. unfold class_seen. cbn. intros [_ Q]. apply xltb_fin_f in Q. lra. }
  change (from_cl ["pl"; "ci"]%string) with ["pl"; "ci"]%string in *.
  rewrite (proj1 (MS P1 H1)) in HV.
  destruct (gany_leaves w_gam z_env z_ins z_o ["pl"; "ci"]%string z_tables eq_refl eq_refl eq_refl z_plain z_ds s1 E)
    as (_ & zr & lut & Cs & _ & Hl & (L1 & _ & _ & _ & L5) & _).
  destruct (L5 eq_refl ["pl"]%string "ci"%string eq_refl) as (ra & vd & Sg & Hra & Hvd & HS & ->).
  change (from_cl ["pl"; "ci"]%string) with ["pl"; "ci"]%string. cbn [map].
  rewrite (value_var _ _ _ _ _ _ Hvd) in HV.
  destruct (second_pass w_gam z_env z_ins z_o lut z_ds "pl" (Sg "pl"%string) _ vd 0%nat 0%nat 1%nat _ _ _ _ m_D m_B m_A
    (fun d => - (8 * Rpower d 0)) 1 (-16) Hl eq_refl (z_gamma _) (HS _ (or_introl eq_refl)) C (z_holds 0 1 0)
    (z_ctable _ (or_intror (or_introl eq_refl))) m_ptable (z_gk _) z_speed (corr_real z_env "ci" z_ds ra 0 1 1 Hra (z_air_ci 0 1)) HV)
    as (lam & n0 & Hc & EP).
  destruct (one_class w_gam z_env z_ins z_o lut z_ds Hk Hl "pl"%string (Cs "pl"%string) 0%nat 0%nat 1%nat C
    (z_known _ _ _ _ (or_introl eq_refl)) (proj1 (L1 _ (or_introl eq_refl)))) as (c1 & S1 & G1 & _).
  destruct (one_class w_gam z_env z_ins z_o lut z_ds Hk Hl "ci"%string (Cs "ci"%string) 0%nat 0%nat 1%nat C
    (z_known _ _ _ _ (or_intror (or_introl eq_refl))) (proj1 (L1 _ (or_intror (or_introl eq_refl))))) as (c2 & S2 & G2 & W2).
  unfold class_seen in S1, S2. cbn in S1, S2.
  destruct c1 as [p|]; [|exfalso; destruct S1 as [_ S1]; apply xltb_fin_f in S1; lra].
  destruct c2 as [p'|].
  { exfalso. destruct S2 as [_ (q & n & r & _ & _ & _ & _ & _ & (Vq & _ & _ & hq & _) & _)]. injection Vq as Vq. lra. }
  pose proof (W2 _ _ _ 1 (-16) eq_refl (HS _ (or_intror (or_introl eq_refl))) (z_air_ci 0 1)
    (corr_real z_env "ci" z_ds ra 0 1 1 Hra (z_air_ci 0 1)) HV) as W2'. unfold spreads in W2'.
  destruct G1 as (P0 & _ & GV). rewrite (GV ob_md), EP, W2'. destruct G2 as (_ & G2 & _). cbn [ob_md] in G2. rewrite G2.
  cbn [ob_md nan_to_num]. rewrite !xsum_cons, !xsum_nil. cbn [xadd]. rewrite !Rplus_0_r, xdiv_fin by lra.
  assert (EE : map (fun d => - (8 * Rpower d 0) * 1) m_D = [-8; -8; -8; -8]).
  { cbn [map m_D]. rewrite !Rpower_O by lra. repeat (f_equal; try lra). }
  rewrite EE. set (nd := gamma_psd n0 lam _).
  assert (PN : 0 < population m_D m_B nd).
  { apply population_pos; [reflexivity|simpl; lia|simpl; lra|apply m_pos|]. intros d _. apply gamma_psd_pos. apply Hc. }
  rewrite z_eight. set (b := population (pa_D p) (pa_B p) (pa_n p)) in *.
  assert (Q : 0 < 64 * population m_D m_B nd / b) by (apply Rdiv_lt_0_compat; lra).
  unfold xsqrt. destruct (Rlt_dec (64 * population m_D m_B nd / b) 0); [lra|].
  eexists. split; [reflexivity|]. apply sqrt_lt_R0. exact Q.
Qed.
