(** A concrete radar, model object and dataset (those of Lidar_Witness.v). *)
From Verif Require Import Mom_Base Mom_Spec Mom_Facts Xr_Facts Sched_Model Atm_Model Psd_Model Lidar_Model
  Lidar_Spec Lidar_Od Lidar_Api Lidar_Perm Lidar_Corol Lidar_Witness Radar_Model Radar_Spec Radar_Total Radar_Att
  Radar_Loop Radar_Api Radar_Corol Radar_Gas Radar_Nan Radar_Min.
Local Open Scope R_scope.

Definition w_radar : inst := {|
  i_str := "KAZR"%string; i_class := "radar"%string; freq := 35 * 10 ^ 9; wavelen := 8600; k_w := 88/100;
  eps_im := 2; z_min_1km := -50; ext_OD := 4; r_d := 287; grav := 98/10; rho_ice := 917;
  bulk_table := [("CESM_ice", w_tab); ("CESM_liq", w_tab); ("E3_ice", w_tab); ("E3_liq", w_tab);
                 ("mie_ice_CESM_PSD", w_tab); ("mie_ice_E3_PSD", w_tab); ("p3_liq", w_tab)]%string;
  mie_table := []; scat_table := [];
  p3_bulk := fun _ _ _ _ => XF 1; p3_single := fun _ _ _ _ => XF 1 |}.
Definition w_ropts (emp sfc : bool) (hs : list string) : ropts := {|
  r_sfc := sfc; r_hyds := Some hs; r_sched := Serial; r_mie := false; r_rad := true; r_emp := emp;
  r_width := true; r_kw := {| k_disp := None; k_lo := 2; k_hi := 15 |} |}.
Notation w_e := (w_env "CESM" w_lam).

Lemma w_radar_tables fam c : radar_tables_ok (w_env fam w_lam) c.
Proof.
  intros x Hx [H|[y H]].
  - unfold radar_fields in H. simpl in Hx, H. destruct c; simpl in Hx; intuition (subst; discriminate).
  - destruct c; simpl in Hx; intuition (subst; discriminate).
Qed.
Ltac plain_list := split; [repeat constructor; simpl; intuition discriminate
                          |split; simpl; intuition discriminate].

Lemma w_atmosphere : atmosphere w_e w_ds (fun _ _ => 900) (fun _ _ => 280) (fun _ _ => 1/1000)
  (fun _ k => 100 * INR (S k)).
Proof.
  exists (fun _ _ => XF 900), (fun _ _ => XF 280), (fun _ _ => XF (1/1000)), w_z.
  do 4 (split; [reflexivity|]). intros t k _. unfold xsub; simpl.
  repeat split; try (f_equal; lra); try lra; try reflexivity. exists 900. split; [reflexivity|lra].
Qed.

Lemma ran (p : res unit * dset) : fst p = Ok tt -> exists s1, p = (Ok tt, s1).
Proof. destruct p as [r s1]. simpl. intros ->. exists s1. reflexivity. Qed.

(** The empirical method on the example: the hypotheses of the theorems. *)
Lemma w_empirical : forall Gam hs, In hs [["cl"; "ci"]; ["ci"; "cl"]]%string ->
  plain hs /\ (forall h, In h hs -> exists q, real3 w_e w_ds (qn false h) q /\ forall i t k, cell w_e i t k -> 0 <= q i t k) /\
  rho_num w_e "cl" = Ok 1000 /\
  exists s1, calc_radar_moments Gam w_e w_radar (radar_hyds (w_ropts true true []) hs) false w_ds = (Ok tt, s1).
Proof.
  intros Gam hs Hh. assert (H : plain hs).
  { destruct Hh as [<-|[<-|[]]]; plain_list. }
  split; [exact H|]. split; [|split; [reflexivity|]].
  - intros h I. assert (I' : h = "cl"%string \/ h = "ci"%string).
    { destruct Hh as [<-|[<-|[]]]; destruct I as [<-|[<-|[]]]; auto. }
    destruct I' as [-> | ->].
    + exists (fun _ _ _ => 1/10000). split; [|intros; lra]. exists (fun _ _ _ => XF (1/10000)). split; reflexivity.
    + exists (fun _ _ _ => 1/100000). split; [|intros; lra]. exists (fun _ _ _ => XF (1/100000)). split; reflexivity.
  - destruct Hh as [<-|[<-|[]]]; apply ran; reflexivity.
Qed.
(** Not trivial: cloud water last attenuates, ice last does not. *)
Lemma w_last_matters : forall Gam, exists s1 s2,
  calc_radar_moments Gam w_e w_radar (radar_hyds (w_ropts true true []) ["cl"; "ci"]%string) false w_ds = (Ok tt, s1) /\
  calc_radar_moments Gam w_e w_radar (radar_hyds (w_ropts true true []) ["ci"; "cl"]%string) false w_ds = (Ok tt, s2) /\
  value s1 "hyd_ext_strat" 0 0 1 = XF 1 /\
  exists T, value s2 "hyd_ext_strat" 0 0 1 = XF T /\ T < 1.
Proof.
  intro Gam.
  destruct (w_empirical Gam ["cl"; "ci"]%string ltac:(left; reflexivity)) as (P1 & _ & _ & s1 & E1).
  destruct (w_empirical Gam ["ci"; "cl"]%string ltac:(right; left; reflexivity)) as (P2 & _ & _ & s2 & E2).
  exists s1, s2. split; [exact E1|]. split; [exact E2|].
  assert (HZ : heights w_e w_ds (fun _ k => 100 * INR (S k))).
  { exists w_z. split; [reflexivity|]. reflexivity. }
  assert (C1 : cell w_e 0 0 1) by (repeat split; simpl; lia).
  split.
  { apply (empirical_ice_last Gam w_e w_radar (w_ropts true true []) false ["cl"]%string "ci"%string w_ds s1 _
             (w_radar_tables _ _) eq_refl P1 ltac:(discriminate) ltac:(discriminate) HZ E1). exact C1. }
  destruct (radar_leaves Gam w_e w_radar (radar_hyds (w_ropts true true []) ["ci"; "cl"]%string) false ["ci"; "cl"]%string
      w_ds s2 (w_radar_tables _ _) eq_refl P2 (fun _ _ => or_introl eq_refl) eq_refl E2)
    as (q & pr & tr & zr & s0 & atm & F & El & Hq & Hp & Ht & Hz & Ea & Ha & RD & HC & L1).
  destruct L1 as (_ & _ & _ & _ & A5 & _). cbn [r_sfc r_emp radar_hyds] in A5.
  assert (Ep : pr = fun _ _ => XF 900) by (red in Hp; cbn in Hp; injection Hp as <-; reflexivity).
  assert (Et : tr = fun _ _ => XF 280) by (red in Ht; cbn in Ht; injection Ht as <-; reflexivity).
  assert (Ez : zr = w_z) by (red in Hz; cbn in Hz; injection Hz as <-; reflexivity). subst pr tr zr.
  assert (EF := HC "cl"%string ltac:(right; left; reflexivity)). unfold rcon in EF. cbn [r_emp radar_hyds w_ropts] in EF.
  unfold emp_con, empirical_class in EF. cbn [bind g3 w_ds assoc dvars w_fields qn] in EF.
  change (g3 w_ds (qn false "cl")) with (Ok (fun _ _ _ : nat => XF (1/10000))) in EF. cbn [bind] in EF.
  change (is_cl "cl") with true in EF. cbn [orb] in EF. cbv beta iota zeta in EF. injection EF as EF.
  set (W := 1/10000 * (900 * 100) / (287 * (280 + - (27315/100) + 27315/100)) * 1000).
  assert (HW : forall i t k, fst (F "cl"%string) i t k = XF (0 + W)).
  { intros. rewrite <- EF. cbn [fst]. unfold lift2, zeros3, wc_g, wc_cell, xsub. cbn [w_env p_pa t_cel xmul xadd xopp r_d w_radar].
    rewrite xdiv_fin by lra. cbn [xmul xadd]. reflexivity. }
  assert (HT : value s2 "hyd_ext_strat" 0 0 1
     = XF (two_way_dB (path true 3 (km (fun k => 100 * INR (S k))) (fun _ => (0 + W) * kappa_f w_radar 1000) 1))).
  { unfold value. rewrite A5.
    rewrite (hyd_T_real w_e true true _ _ (fun _ k => 100 * INR (S k)) (fun _ _ _ => (0 + W) * kappa_f w_radar 1000));
      [reflexivity| | |exact C1].
    - intros; reflexivity.
    - intros i t k _. unfold hyd_of. cbn [r_emp radar_hyds w_ropts last]. change (rho_num w_e "cl") with (Ok 1000 : res R).
      unfold map3. rewrite HW. reflexivity. }
  eexists. split; [exact HT|].
  assert (PW : 0 < 0 + W).
  { unfold W. replace (280 + - (27315 / 100) + 27315 / 100) with 280 by lra. lra. }
  assert (PK : 0 < kappa_f w_radar 1000).
  { unfold kappa_f. cbn [wavelen eps_im w_radar]. pose proof PI_RGT_0.
    assert (0 < 6 * PI / (8600 * 1000)) by lra. lra. }
  unfold path, od_up, km. cbn [sumR INR]. unfold two_way_dB, Rpower.
  match goal with |- ?a < 1 => apply Rlt_le_trans with (exp 0); [apply exp_increasing|rewrite exp_0; lra] end.
  pose proof ln10_pos.
  assert (0 < (0 + W) * kappa_f w_radar 1000) by (apply Rmult_lt_0_compat; assumption).
  set (x := (0 + W) * kappa_f w_radar 1000) in *. clearbody x.
  match goal with |- ?a < _ => replace a with (- (x * ln 10 / 50)) by field end.
  assert (0 < x * ln 10) by (apply Rmult_lt_0_compat; assumption). lra.
Qed.

(** The bulk method: cloud liquid absent at the middle level of the first
    subcolumn. *)
Definition w_gap : nat -> nat -> nat -> bool := fun i _ k => negb (Nat.eqb i 0 && Nat.eqb k 1).
Definition w_gap_ds : dset := mkds (("strat_frac_subcolumns_cl"%string, VB w_gap) :: w_fields) [].
Lemma w_bulk_gap : forall Gam, plain ["cl"; "ci"]%string /\
  (forall h, In h ["cl"; "ci"]%string -> self_contained w_e h) /\ size_table w_e "cl" /\
  varb w_gap_ds (fn false "cl") w_gap /\ w_gap 0 0 1 = false /\
  exists s1, calc_radar_moments Gam w_e w_radar (radar_hyds (w_ropts false true []) ["cl"; "ci"]%string) false w_gap_ds
    = (Ok tt, s1).
Proof.
  intro Gam. split; [plain_list|]. split.
  { intros h [<-|[<-|[]]].
    - right. right. split; [left; reflexivity|]. exists w_lam, "lam_cl"%string. split; reflexivity.
    - right. left. simpl. auto 10. }
  split; [left; split; [left; reflexivity|left; reflexivity]|].
  split; [reflexivity|]. split; [reflexivity|]. apply ran; reflexivity.
Qed.

(** An instrument above the model: the top layer amplifies. *)
Lemma w_top_amplifies : forall Gam, exists s1 T,
  calc_radar_moments Gam w_e w_radar (radar_hyds (w_ropts false false []) ["cl"]%string) false w_ds = (Ok tt, s1) /\
  value s1 "hyd_ext_strat" 0 0 1 = XF T /\ 1 < T.
Proof.
  intro Gam.
  assert (PL : plain ["cl"]%string) by plain_list.
  assert (SC : forall h, In h ["cl"]%string -> self_contained w_e h).
  { intros h [<-|[]]. right. right. split; [left; reflexivity|]. exists w_lam, "lam_cl"%string. split; reflexivity. }
  assert (E : exists s1, calc_radar_moments Gam w_e w_radar (radar_hyds (w_ropts false false []) ["cl"]%string) false w_ds
      = (Ok tt, s1)) by (apply ran; reflexivity). destruct E as (s1 & E).
  destruct (radar_leaves Gam w_e w_radar (radar_hyds (w_ropts false false []) ["cl"]%string) false ["cl"]%string
      w_ds s1 (w_radar_tables _ _) eq_refl PL (fun h H => or_intror (SC h H)) eq_refl E)
    as (q & pr & tr & zr & s0 & atm & F & El & Hq & Hp & Ht & Hz & Ea & Ha & RD & HC & L1).
  destruct L1 as (_ & _ & _ & _ & A5 & _). cbn [r_sfc r_emp radar_hyds] in A5.
  assert (Ep : pr = fun _ _ => XF 900) by (red in Hp; cbn in Hp; injection Hp as <-; reflexivity).
  assert (Et : tr = fun _ _ => XF 280) by (red in Ht; cbn in Ht; injection Ht as <-; reflexivity).
  assert (Ez : zr = w_z) by (red in Hz; cbn in Hz; injection Hz as <-; reflexivity). subst pr tr zr.
  assert (EF := HC "cl"%string ltac:(left; reflexivity)). unfold rcon in EF. cbn [r_emp radar_hyds w_ropts] in EF.
  set (A := fun i t k : nat => area_cell (tau_cell true (XF (1/10000)) (rhoa_dz w_e w_radar (fun _ _ => XF (900 * 100)) t k) 1000 (XF 10))
                            (dz_top0 w_e w_z t k) : xr).
  assert (HF : forall i t k, fst (F "cl"%string) i t k = xmul (XF 2) (A i t k)).
  { intros. enough (E1 : exists x, bulk_con w_e w_radar false false (fun _ _ => xmul (XF 900) (XF 100))
        (fun t k => w_z t k) "cl" w_ds = Ok x /\ fst x i t k = xmul (XF 2) (A i t k)).
    { destruct E1 as (x & E1 & <-).
      assert (EE : Ok x = Ok (F "cl"%string)) by (rewrite <- EF, <- E1; reflexivity). injection EE as ->. reflexivity. }
    eexists. split; [reflexivity|]. reflexivity. }
  assert (R900 : 900 * 100 = 90000) by ring.
  (* extinction at the three levels *)
  assert (V : forall k, (k < 3)%nat -> exists r, xmul (XF 2) (A 0%nat 0%nat k) = XF r /\ (k = 2%nat -> r < 0)).
  { intros k Hk. unfold A, rhoa_dz, dz_top0, of_prof2, prof2, tau_cell, area_cell. cbn [w_env nht seq map diff_append diff app].
    unfold diff_append, diff. cbn [app diff_from map nth]. unfold xsub. cbn [xopp xadd w_z].
    destruct k as [|[|[|k]]]; [| | |lia]; cbn [nth map xabs w_z INR].
    all: cbn [grav w_radar xadd xmul xabs xopp]; rewrite (xdiv_fin _ (98/10)) by lra; cbn [xmul];
      rewrite (xdiv_fin _ (2 * 1000 * 10 * / 10 ^ 6)) by lra; cbn [xmul].
    all: match goal with |- context [xdiv _ (XF ?d)] => rewrite (xdiv_fin _ d) by lra end; cbn [xmul].
    all: eexists; split; [reflexivity|]; intro N; try discriminate N.
    rewrite R900. rewrite Rabs_left by lra.
    replace (2 * 1000 * 10 * / 10 ^ 6) with (2 / 100) by field.
    replace (2 * (0 + - (100 * (1 + 1 + 1)))) with (- (600)) by ring.
    assert (N' : forall x, 0 < x -> 2 * (x / - (600)) < 0) by (intros x Hx; replace (x / - (600)) with (- (x / 600)) by field; lra).
    apply N'. apply div_pos; [|lra]. apply Rmult_lt_0_compat; [lra|]. apply div_pos; lra. }
  assert (EX : forall k, (k < 3)%nat -> xmul (XF 2) (A 0%nat 0%nat k)
      = XF (match xmul (XF 2) (A 0%nat 0%nat k) with XF r => r | _ => 0 end)).
  { intros k Hk. destruct (V k Hk) as (r & -> & _). reflexivity. }
  exists s1. eexists. split; [exact E|].
  assert (C1 : cell w_e 0 0 1) by (repeat split; simpl; lia).
  split.
  { unfold value. change "hyd_ext_strat"%string with (hyd_ext_name false). rewrite A5.
    apply (hyd_T_real w_e false false _ _ (fun _ k => 100 * INR (S k))
       (fun _ _ k => match xmul (XF 2) (A 0%nat 0%nat k) with XF r => r | _ => 0 end)); [reflexivity| |exact C1].
    intros i t k (_ & _ & Hk). unfold hyd_of. cbn [r_emp radar_hyds w_ropts map fold_left]. unfold lift2, zeros3.
    rewrite HF, xadd_0_l. change (A i t k) with (A 0%nat 0%nat k). apply EX. exact Hk. }
  destruct (V 2%nat ltac:(lia)) as (r & Er & Nr). specialize (Nr eq_refl).
  cbn [w_env nht]. unfold path, od_down. cbn [sumR Nat.sub Nat.add]. rewrite Er. cbn [INR].
  unfold two_way. rewrite <- exp_0 at 1. apply exp_increasing. lra.
Qed.

(** Totals: 10 dBZ in the first subcolumn, nothing in the second, half of the
    power transmitted, 8 dBZ detectable. *)
Definition w_tot_ds : dset := mkds
  [("sub_col_Ze_tot_strat", V3 (fun i _ _ => if Nat.eqb i 0 then XF 10 else XNaN));
   ("hyd_ext_strat", V3 (fun _ _ _ => XF (1/2))); ("atm_ext", V2 (fun _ _ => XF 1));
   ("Ze_min", V2 (fun _ _ => XF 8)); ("sub_col_Ze_tot_conv", V3 (fun _ _ _ => XNaN));
   ("hyd_ext_conv", V3 (fun _ _ _ => XNaN))]%string [].
Lemma w_total_inputs : total_inputs w_e w_tot_ds (fun _ _ => 8).
Proof.
  repeat split; try (eexists; reflexivity).
  exists (fun _ _ => XF 8). split; reflexivity.
Qed.
Lemma w_no_signal : exists s' b,
  calc_total_reflectivity w_e w_tot_ds = (Ok tt, s') /\ varb s' "detect_mask" b /\
  value s' "sub_col_Ze_tot" 1 0 0 = XNaN /\ value s' "sub_col_Ze_att_tot" 1 0 0 = XNaN /\ b 1%nat 0%nat 0%nat = false /\
  (exists d, value s' "sub_col_Ze_att_tot" 0 0 0 = XF d /\ d < 8 /\ b 0%nat 0%nat 0%nat = true) /\
  value s' "sub_col_Ze_tot" 0 0 0 = XF 10.
Proof.
  destruct (total_spec w_e w_tot_ds _ w_total_inputs) as (s' & b & E & U & V & Vb & Mb).
  destruct (no_signal w_e w_tot_ds _ s' w_total_inputs E 1 0 0) as (N1 & N2 & b' & Vb' & Fb).
  { unfold total_linear, value. simpl. destruct (p_conv w_e); ring. }
  exists s', b. red in Vb, Vb'. rewrite Vb in Vb'. injection Vb' as <-.
  assert (TL : total_linear w_e w_tot_ds 0 0 0 = Rpower 10 1).
  { unfold total_linear, value. simpl. replace (10 / 10) with 1 by field. destruct (p_conv w_e); ring. }
  assert (A : value s' "sub_col_Ze_att_tot" 0 0 0 = dBZ (total_linear w_e w_tot_ds 0 0 0 * 1 * (1/2) * 1)).
  { apply (total_attenuated w_e w_tot_ds _ s' (fun _ _ _ => XF (1/2)) (fun _ _ _ => XNaN) (fun _ _ => XF 1) 0 0 0 (1/2) 1 1
             w_total_inputs E); try reflexivity.
    - left; reflexivity.
    - destruct (p_conv w_e); [right; auto|reflexivity].
    - left; reflexivity. }
  rewrite TL in A. rewrite Rpower_1 in A by lra. rewrite dBZ_pos in A by lra.
  do 5 (split; [assumption|]). split.
  - eexists. split; [exact A|].
    assert (L : 10 * (ln (10 * 1 * (1 / 2) * 1) / ln 10) < 8).
    { pose proof ln10_pos.
      assert (H5 : 5 * ln 5 < 4 * ln 10).
      { replace (4 * ln 10) with (ln (10 ^ 4)) by (rewrite ln_pow by lra; simpl INR; ring).
        replace (5 * ln 5) with (ln (5 ^ 5)) by (rewrite ln_pow by lra; simpl INR; ring).
        apply ln_increasing; lra. }
      replace (10 * 1 * (1 / 2) * 1) with 5 by field.
      apply Rmult_lt_reg_r with (ln 10); [assumption|].
      replace (10 * (ln 5 / ln 10) * ln 10) with (10 * ln 5) by (field; lra). lra. }
    split; [exact L|]. apply Mb; [repeat split; simpl; lia|]. eexists. split; [exact A|]. lra.
  - rewrite V, TL, Rpower_1 by lra. rewrite dBZ_pos by lra. f_equal. field. pose proof ln10_pos; lra.
Qed.

Lemma w_ze_min : exists s', calc_radar_Ze_min w_e w_radar (XF 1000) w_ds = (Ok tt, s') /\
  value s' "Ze_min" 0 0 0 = XNaN /\ exists f, real2 w_e s' "Ze_min" f /\ f 0%nat 0%nat = -70.
Proof.
  destruct (ze_min_run w_e w_radar 1000 w_ds (fun _ k => 100 * INR (S k))) as (s' & E & _ & R).
  - lra.
  - exists w_z. split; reflexivity.
  - intros t k _. pose proof (lt_0_INR (S k) ltac:(lia)). lra.
  - exists s'. split; [exact E|]. destruct R as (a & Va & Ha). split; [unfold value; rewrite Va; reflexivity|].
    exists (fun t k => min_detectable (z_min_1km w_radar) 1000 (100 * INR (S k))).
    split; [exists a; split; assumption|]. cbn [z_min_1km w_radar]. unfold min_detectable. simpl INR.
    pose proof ln10_pos. replace (100 * 1) with (10 ^ 2) by ring. replace 1000 with (10 ^ 3) by ring.
    rewrite !ln_pow by lra. simpl INR. field. lra.
Qed.

(** *** In the form of the statements *)
Lemma total_nan e s i t k :
  dBZ (total_linear e s i t k) = XNaN <->
  isfin (value s "sub_col_Ze_tot_strat" i t k) = false
  /\ (p_conv e = true -> isfin (value s "sub_col_Ze_tot_conv" i t k) = false).
Proof. rewrite <- total_linear_0. apply dBZ_nan. apply total_linear_nonneg. Qed.
Lemma mask_spec e s M : total_inputs e s M ->
  exists s' b, calc_total_reflectivity e s = (Ok tt, s') /\ varb s' "detect_mask" b
  /\ forall i t k, cell e i t k ->
       b i t k = true <-> exists d, value s' "sub_col_Ze_att_tot" i t k = XF d /\ d <= M t k.
Proof. intro H. destruct (total_spec e s M H) as (s' & b & E & _ & _ & V & Mb). eauto 10. Qed.
Lemma no_signal_refuted : exists e s s' b,
  calc_total_reflectivity e s = (Ok tt, s') /\ varb s' "detect_mask" b /\
  cell e 1 0 0 /\ value s' "sub_col_Ze_tot" 1 0 0 = XNaN /\ value s' "sub_col_Ze_att_tot" 1 0 0 = XNaN /\
  b 1%nat 0%nat 0%nat = false.
Proof.
  destruct w_no_signal as (s' & b & E & V & N1 & N2 & F & _).
  exists w_e, w_tot_ds, s', b. repeat (split; [first [assumption|repeat split; simpl; lia]|]). exact F.
Qed.
Lemma w_total : total_inputs w_e w_tot_ds (fun _ _ => 8) /\ exists s' b,
  calc_total_reflectivity w_e w_tot_ds = (Ok tt, s') /\ varb s' "detect_mask" b /\
  value s' "sub_col_Ze_tot" 0 0 0 = XF 10 /\
  (exists d, value s' "sub_col_Ze_att_tot" 0 0 0 = XF d /\ d < 8 /\ b 0%nat 0%nat 0%nat = true).
Proof.
  split; [exact w_total_inputs|]. destruct w_no_signal as (s' & b & E & V & N1 & N2 & F & D & T). eauto 10.
Qed.
Lemma min_detectable_shape zmin ref :
  (forall z z', 0 < z -> z < z' -> min_detectable zmin ref z < min_detectable zmin ref z')
  /\ min_detectable zmin ref ref = zmin
  /\ forall z, 0 < z -> min_detectable zmin ref (2 * z) = min_detectable zmin ref z + 20 * (ln 2 / ln 10).
Proof. split; [apply min_detectable_mono|]. split; [apply min_detectable_ref|apply min_detectable_double]. Qed.
Lemma bulk_from_above : forall Gam, exists e ins o c s s1 T,
  calc_radar_moments Gam e ins o c s = (Ok tt, s1) /\ cell e 0 0 1 /\
  value s1 (hyd_ext_name c) 0 0 1 = XF T /\ 1 < T.
Proof.
  intro Gam. destruct (w_top_amplifies Gam) as (s1 & T & E & V & L).
  do 3 eexists. exists false. do 3 eexists. split; [exact E|]. split; [repeat split; simpl; lia|]. split; [exact V|exact L].
Qed.
Lemma w_C33 : atmosphere w_e w_ds (fun _ _ => 900) (fun _ _ => 280) (fun _ _ => 1/1000)
    (fun _ k => 100 * INR (S k))
  /\ (forall c, radar_tables_ok w_e c) /\ forall Gam hs, In hs [["cl"; "ci"]; ["ci"; "cl"]]%string ->
  plain hs /\ (forall h, In h hs -> exists q, real3 w_e w_ds (qn false h) q /\ forall i t k, cell w_e i t k -> 0 <= q i t k) /\
  rho_num w_e "cl" = Ok 1000 /\
  exists s1, calc_radar_moments Gam w_e w_radar (radar_hyds (w_ropts true true []) hs) false w_ds = (Ok tt, s1).
Proof. split; [exact w_atmosphere|]. split; [apply w_radar_tables|exact w_empirical]. Qed.
Lemma class_order_refuted : forall Gam, exists e ins o s s1 s2,
  calc_radar_moments Gam e ins (radar_hyds o ["cl"; "ci"]%string) false s = (Ok tt, s1) /\
  calc_radar_moments Gam e ins (radar_hyds o ["ci"; "cl"]%string) false s = (Ok tt, s2) /\
  value s1 "hyd_ext_strat" 0 0 1 = XF 1 /\
  exists T, value s2 "hyd_ext_strat" 0 0 1 = XF T /\ T < 1.
Proof. intro Gam. destruct (w_last_matters Gam) as (s1 & s2 & H). do 4 eexists. exists s1, s2. exact H. Qed.
Lemma w_C34 : forall Gam emp, (forall c, radar_tables_ok w_e c) /\ plain ["cl"; "ci"]%string /\
  (forall h, In h ["cl"; "ci"]%string -> rfree w_e (w_ropts emp true []) h) /\
  exists s1, calc_radar_moments Gam w_e w_radar (radar_hyds (w_ropts emp true []) ["cl"; "ci"]%string) false w_ds
    = (Ok tt, s1).
Proof.
  intros Gam emp. split; [apply w_radar_tables|]. destruct (w_bulk_gap Gam) as (PL & SC & _).
  split; [exact PL|]. split; [intros h H; right; apply SC; exact H|]. destruct emp; apply ran; reflexivity.
Qed.
Lemma w_C57 : forall Gam, heights w_e w_ds (fun _ k => 100 * INR (S k)) /\ exists s1 s2,
  calc_radar_moments Gam w_e w_radar (radar_hyds (w_ropts true true []) (["cl"%string] ++ ["ci"%string])) false w_ds = (Ok tt, s1) /\
  calc_radar_moments Gam w_e w_radar (radar_hyds (w_ropts true true []) (["ci"%string] ++ ["cl"%string])) false w_ds = (Ok tt, s2) /\
  value s1 "hyd_ext_strat" 0 0 1 = XF 1 /\
  exists T, value s2 "hyd_ext_strat" 0 0 1 = XF T /\ T < 1.
Proof. intro Gam. split; [exists w_z; split; reflexivity|exact (w_last_matters Gam)]. Qed.
Lemma w_C59 : 10 ^ 9 <= freq w_radar /\ 0 < 1013 <= 2000 /\ 1013 <= 1013 /\ 100 <= 300.
Proof. simpl. lra. Qed.
