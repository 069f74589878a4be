(** Values of the radar reflectivity of each class after a call. *)
From Verif Require Import Mom_Base Mom_Spec Mom_Facts Xr_Facts Sched_Model Atm_Model Psd_Model Lidar_Model
  Lidar_Spec Lidar_Od Lidar_Api Lidar_Perm Lidar_Corol Class_Spec Radar_Model Radar_Spec Radar_Total Radar_Att
  Radar_Loop Radar_Api Radar_Corol Val_Spec Val_Lidar Val_Bulk.
Local Open Scope R_scope.

Lemma within_band lo hi f : within (lo * 10 ^ 9) (hi * 10 ^ 9) f = in_band lo hi (f / 10 ^ 9).
Proof.
  unfold within, in_band.
  assert (D : f = f / 10 ^ 9 * 10 ^ 9) by field. remember (f / 10 ^ 9) as g. rewrite D. clear.
  destruct (Rle_dec lo g) as [H|H].
  - rewrite (proj2 (xleb_fin _ _)) by nra. destruct (Rlt_dec g hi) as [H'|H'].
    + rewrite (proj2 (xltb_fin _ _)) by nra. reflexivity.
    + rewrite (proj2 (xltb_fin_f _ _)) by nra. reflexivity.
  - rewrite (proj2 (xleb_fin_f _ _)) by nra. reflexivity.
Qed.

Lemma hogan_real a b den w t : 0 < w -> 0 < den ->
  to_dBZ (ze_hogan a b (XF den) (XF w) (XF t)) = XF ((ln w / ln 10 + a * t + b) / den).
Proof.
  intros Hw Hd. unfold ze_hogan. rewrite xlog10_fin by exact Hw. cbn [xmul xadd]. rewrite !xdiv_fin by lra.
  unfold xp10. rewrite xpow_fin by lra. cbn [to_dBZ]. unfold dBZ, log10.
  destruct (Rlt_dec 0 _) as [H|H]; [|exfalso; apply H; unfold Rpower; apply exp_pos].
  f_equal. unfold Rpower. rewrite ln_exp. pose proof ln10_pos. field. lra.
Qed.
Lemma hogan_zero a b den t : 0 < den -> to_dBZ (ze_hogan a b (XF den) (XF 0) (XF t)) = XNaN.
Proof.
  intro Hd. unfold ze_hogan. simpl xlog10. destruct (Rlt_dec 0 0); [lra|].
  cbn [xmul xadd xdiv]. destruct (Rlt_dec den 0); [lra|]. cbn [xdiv]. destruct (Rlt_dec 10 0); [lra|].
  unfold xp10, xpow. destruct (Rlt_dec 10 0); [lra|]. destruct (Rlt_dec 1 10); [|lra]. cbn [to_dBZ]. unfold dBZ.
  destruct (Rlt_dec 0 0); [lra|reflexivity].
Qed.
Lemma ice_real f w t : -150 < t -> 0 <= w ->
  to_dBZ (ze_ice f (XF w) (XF t)) = if Rlt_dec 0 w then XF (ice_dBZ (f / 10 ^ 9) w t) else XNaN.
Proof.
  intros Ht Hw. unfold ze_ice, ice_dBZ. rewrite !within_band. cbn [xmul xadd].
  destruct (Rlt_dec 0 w) as [P|P].
  - destruct (in_band 2 4 (f / 10 ^ 9)); [apply hogan_real; lra|].
    destruct (in_band 27 40 (f / 10 ^ 9)) eqn:E1.
    + assert (N : in_band 75 110 (f / 10 ^ 9) = false).
      { unfold in_band in *. destruct (Rle_dec 27 _); [|discriminate]. destruct (Rlt_dec _ 40); [|discriminate].
        destruct (Rle_dec 75 _); [lra|reflexivity]. }
      rewrite N. apply hogan_real; lra.
    + destruct (in_band 75 110 (f / 10 ^ 9)); apply hogan_real; lra.
  - assert (w = 0) as -> by lra.
    destruct (in_band 2 4 (f / 10 ^ 9)); [apply hogan_zero; lra|].
    destruct (in_band 27 40 (f / 10 ^ 9)); [apply hogan_zero; lra|].
    destruct (in_band 75 110 (f / 10 ^ 9)); apply hogan_zero; lra.
Qed.

Lemma xpow_real w b : 0 <= w -> 0 < b -> xpow (XF w) (XF b) = XF (if Rlt_dec 0 w then Rpower w b else 0).
Proof.
  intros Hw Hb. simpl. destruct (Rlt_dec 0 w); [reflexivity|].
  destruct (Req_EM_T b 0); [lra|]. destruct (Rlt_dec w 0); [lra|]. destruct (Rlt_dec 0 b); [reflexivity|lra].
Qed.
Lemma dBZ_0 : dBZ 0 = XNaN.
Proof. unfold dBZ. destruct (Rlt_dec 0 0); [lra|reflexivity]. Qed.

Section Call.
Variable Gam : R -> R.

Lemma empirical_radar_values e ins o c hs s s1 h Q P T :
  radar_tables_ok e c -> r_emp o = true -> plain hs -> classes_of e (r_hyds o) hs ->
  calc_radar_moments Gam e ins o c s = (Ok tt, s1) -> In h hs ->
  0 < r_d ins -> pressures e s P -> temperatures e s T -> real3 e s (qn c h) Q ->
  forall i t k, cell e i t k -> -150 < T t k ->
    let w := 1000 * water_content (r_d ins) (Q i t k) (P t k) (T t k) in
    0 <= w ->
    value s1 (out "Ze" h c) i t k =
      if Rlt_dec 0 w then
        if String.eqb (lower h) "cl" then dBZ (cloud_Z w)
        else if String.eqb (lower h) "pl" then dBZ (rain_Z w)
        else XF (ice_dBZ (freq ins / 10 ^ 9) w (T t k))
      else XNaN.
Proof.
  intros Tk Ee PL Hc E Hh Hr (pr' & Vp & HP) (tr' & Vt & HT) (qa & Vq & HQ) i t k Hcell HTk w Hw.
  assert (NM : not_micro_r o c = true) by (unfold not_micro_r; rewrite Ee; reflexivity).
  destruct (radar_leaves Gam e ins o c hs s s1 Tk NM PL (fun _ _ => or_introl Ee) Hc E)
    as (q & pr & tr & zr & s0 & atm & F & El & Hq & Hp & Ht & Hz & Ea & Ha & RD & HC & L1).
  red in Hp, Vp. rewrite Hp in Vp. injection Vp as <-.
  red in Ht, Vt. rewrite Ht in Vt. injection Vt as <-.
  destruct L1 as (_ & A2 & _). destruct (A2 h Hh) as (a & Va & Ea').
  specialize (HC h Hh). unfold rcon in HC. rewrite Ee in HC. unfold emp_con, empirical_class in HC.
  rewrite (g3_var _ _ _ Vq) in HC. cbn [bind] in HC. injection HC as HC.
  unfold value. rewrite Va, Ea', <- HC. cbn [snd].
  assert (Hpt : point e t k) by (destruct Hcell as (? & ? & ?); split; assumption).
  assert (EW : wc_g ins (qa i t k) (p_pa e (pr t k)) (t_cel e (tr t k)) = XF w).
  { rewrite HQ, HP, HT by assumption. unfold wc_g. rewrite wc_cell_real by (assumption || lra). cbn [xmul].
    f_equal. unfold w. ring. }
  unfold is_cl, is_pl. destruct (String.eqb (lower h) "cl"); [|destruct (String.eqb (lower h) "pl")];
    unfold map3; rewrite EW.
  - unfold ze_cl. rewrite xpow_real by lra. unfold cloud_Z.
    destruct (Rlt_dec 0 w); cbn [xmul to_dBZ]; [reflexivity|]. rewrite Rmult_0_r. apply dBZ_0.
  - unfold ze_pl. cbn [xmul]. rewrite xdiv_fin by lra. rewrite xpow_real by lra. unfold rain_Z.
    destruct (Rlt_dec 0 w) as [H|H].
    + destruct (Rlt_dec 0 (w * 1000 / (34 / 10))) as [H'|H']; [reflexivity|exfalso; apply H'; lra].
    + destruct (Rlt_dec 0 (w * 1000 / (34 / 10))) as [H'|H']; [exfalso; apply H; lra|]. apply dBZ_0.
  - rewrite HT by assumption. apply ice_real; assumption.
Qed.

Lemma bulk_radar_values e ins o c hs s s1 h rho Re Qe Qb Q F P Z :
  radar_tables_ok e c -> r_emp o = false -> r_rad o || c = true -> plain hs -> classes_of e (r_hyds o) hs ->
  (forall h, In h hs -> self_contained e h) ->
  calc_radar_moments Gam e ins o c s = (Ok tt, s1) -> In h hs ->
  0 < grav ins -> 0 < rho_ice ins -> 0 < rho -> 0 < k_w ins ->
  pressures e s P -> heights e s Z -> real3 e s (qn c h) Q -> varb s (fn c h) F ->
  class_radius e ins c s h rho Re -> class_efficiency e ins "p3_liq" (r_mie o) s h Re Qe Qb ->
  forall i t k, cell e i t k -> (S k < nht e)%nat -> Z t k < Z t (S k) -> 0 < Re t k ->
    let A := projected_area rho (Re t k) (layer_water (grav ins) (Q i t k) (P t) (Z t) k) in
    value s1 (out "Ze" h c) i t k
    = if F i t k then dBZ (backscatter_Z (wavelen ins) (k_w ins) (Qb t k * A)) else XNaN.
Proof.
  intros Tk Ee Er PL Hc SC E Hh Hg Hri Hrho Hk (pr' & Vp & HP) (zr' & Vz & HZ) HQ VF CR CE i t k Hcell Hs Hzz Hre A.
  assert (NM : not_micro_r o c = true) by (unfold not_micro_r; rewrite Ee; exact Er).
  destruct (radar_leaves Gam e ins o c hs s s1 Tk NM PL (fun h H => or_intror (SC h H)) Hc E)
    as (q & pr & tr & zr & s0 & atm & FF & El & Hq & Hp & Ht & Hz & Ea & Ha & RD & HC & L1).
  red in Hp, Vp. rewrite Hp in Vp. injection Vp as <-.
  red in Hz, Vz. rewrite Hz in Vz. injection Vz as <-.
  destruct L1 as (_ & A2 & _). destruct (A2 h Hh) as (a & Va & Ea').
  specialize (HC h Hh). unfold rcon in HC. rewrite Ee in HC. unfold bulk_con in HC.
  match type of HC with bind ?X _ = _ => destruct X as [[l1 [[ar re] fl]]|] eqn:EA; [|discriminate HC] end.
  cbn [bind] in HC.
  match type of HC with bind ?X _ = _ => destruct X as [[l2 [qe qb]]|] eqn:EE; [|discriminate HC] end.
  cbn [bind] in HC. destruct (g3 s (qn c (dims_of e h))); [|discriminate HC]. cbn [bind] in HC. injection HC as HC.
  destruct (bulk_cell_value _ _ _ _ _ _ _ _ _ _ _ _ _ _ _ _ _ _ _ _ _ _ _ _ CR Hri Hrho Hg CE HQ VF HP HZ EA EE
              i t k Hcell Hs Hzz Hre) as [HA HE]. fold A in HA.
  unfold value. rewrite Va, Ea', <- HC. cbn [snd]. unfold lift2, map3. rewrite HA.
  assert (KP : 0 < k_w ins * PI ^ 5).
  { apply Rmult_lt_0_compat; [exact Hk|]. apply pow_lt, PI_RGT_0. }
  destruct HE as [[_ ->]|(-> & _ & -> & _)]; [|reflexivity].
  unfold ze_scale. cbn [xmul]. rewrite xdiv_fin by lra. cbn [xmul to_dBZ].
  destruct (F i t k).
  - f_equal. unfold backscatter_Z. field. pose proof PI_RGT_0. split; lra.
  - rewrite Rmult_0_r. apply dBZ_0.
Qed.
End Call.
