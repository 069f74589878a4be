(** Minimum detectable reflectivity, the detectability mask, repeated calls. *)
From Verif Require Import Mom_Base Mom_Spec Mom_Facts Xr_Facts Sched_Model Atm_Model Psd_Model Lidar_Model
  Lidar_Spec Lidar_Od Lidar_Api Lidar_Perm Lidar_Corol Radar_Model Radar_Spec Radar_Total Radar_Att Radar_Loop Radar_Api.
Local Open Scope R_scope.

Lemma ze_min_run e ins ref s Z : 0 < ref -> real2 e s (z_name e) Z -> (forall t k, point e t k -> 0 < Z t k) ->
  exists s', calc_radar_Ze_min e ins (XF ref) s = (Ok tt, s')
    /\ unchanged_except ["Ze_min"]%string s s'
    /\ real2 e s' "Ze_min" (fun t k => min_detectable (z_min_1km ins) ref (Z t k)).
Proof.
  intros Hr (z & Vz & Ez) Pz. unfold calc_radar_Ze_min.
  rewrite (bind_rd _ _ _ z) by (apply g2_var; exact Vz). rewrite assign_eq.
  eexists. split; [reflexivity|]. split.
  - intros x Hx. apply upd_other. intros ->. apply Hx. left. reflexivity.
  - eexists. split; [apply upd_same|]. intros t k Hp. cbn beta. unfold ze_min_cell. rewrite Ez by exact Hp.
    rewrite !xlog10_fin by auto. reflexivity.
Qed.
Lemma min_detectable_mono zmin ref z z' : 0 < z -> z < z' -> min_detectable zmin ref z < min_detectable zmin ref z'.
Proof.
  intros H1 H2. unfold min_detectable. pose proof ln10_pos. pose proof (ln_increasing z z' H1 H2).
  assert (ln z / ln 10 < ln z' / ln 10); [|lra].
  apply Rmult_lt_compat_r; [apply Rinv_0_lt_compat; assumption|assumption].
Qed.
Lemma min_detectable_ref zmin ref : min_detectable zmin ref ref = zmin.
Proof. unfold min_detectable. ring. Qed.
Lemma min_detectable_double zmin ref z : 0 < z ->
  min_detectable zmin ref (2 * z) = min_detectable zmin ref z + 20 * (ln 2 / ln 10).
Proof. intro. unfold min_detectable. rewrite ln_mult by lra. field. pose proof ln10_pos. lra. Qed.


Lemma total_spec e s M : total_inputs e s M ->
  exists s' b, calc_total_reflectivity e s = (Ok tt, s')
  /\ unchanged_except ["sub_col_Ze_tot"; "sub_col_Ze_att_tot"; "detect_mask"]%string s s'
  /\ (forall i t k, value s' "sub_col_Ze_tot" i t k = dBZ (total_linear e s i t k))
  /\ varb s' "detect_mask" b
  /\ forall i t k, cell e i t k ->
       b i t k = true <-> exists d, value s' "sub_col_Ze_att_tot" i t k = XF d /\ d <= M t k.
Proof.
  intros ((zs & Hzs) & (hs & Hhs) & (ae & Hae) & (zm & Hzm & Em) & Hc).
  assert (HC : exists zc hc, p_conv e = true -> var3 s "sub_col_Ze_tot_conv" zc /\ var3 s "hyd_ext_conv" hc).
  { destruct (p_conv e); [|exists zeros3, zeros3; discriminate].
    destruct (Hc eq_refl) as ((zc & ?) & (hc & ?)). exists zc, hc. auto. }
  destruct HC as (zc & hc & HC).
  destruct (total_run e s zs zc hs hc ae zm Hzs Hhs Hae Hzm HC) as (s' & b & E & U & V1 & V2 & Vb & Eb).
  exists s', b. split; [exact E|]. split; [exact U|]. split; [exact V1|]. split; [exact Vb|].
  intros i t k (L1 & L2 & L3). rewrite Eb, V2, Em by (split; assumption).
  destruct (to_dBZ (att_lin e s hs hc ae i t k)) as [d| | |] eqn:ED.
  - rewrite xleb_fin. split; [intro; exists d; auto|]. intros (d' & [= <-] & ?). assumption.
  - split; [discriminate|]. intros (? & ? & _); discriminate.
  - exfalso. unfold to_dBZ, dBZ in ED. destruct (att_lin e s hs hc ae i t k); try discriminate.
    destruct (Rlt_dec 0 r); discriminate.
  - exfalso. unfold to_dBZ, dBZ in ED. destruct (att_lin e s hs hc ae i t k); try discriminate.
    destruct (Rlt_dec 0 r); discriminate.
Qed.

(** A cell without any signal has no attenuated reflectivity. *)
Lemma no_signal e s M s' : total_inputs e s M -> calc_total_reflectivity e s = (Ok tt, s') ->
  forall i t k, total_linear e s i t k = 0 -> value s' "sub_col_Ze_tot" i t k = XNaN /\
    value s' "sub_col_Ze_att_tot" i t k = XNaN /\ exists b, varb s' "detect_mask" b /\ b i t k = false.
Proof.
  intros ((zs & Hzs) & (hs & Hhs) & (ae & Hae) & (zm & Hzm & Em) & Hc) E0 i t k Z0.
  assert (HC : exists zc hc, p_conv e = true -> var3 s "sub_col_Ze_tot_conv" zc /\ var3 s "hyd_ext_conv" hc).
  { destruct (p_conv e); [|exists zeros3, zeros3; discriminate].
    destruct (Hc eq_refl) as ((zc & ?) & (hc & ?)). exists zc, hc. auto. }
  destruct HC as (zc & hc & HC).
  destruct (total_run e s zs zc hs hc ae zm Hzs Hhs Hae Hzm HC) as (s'' & b & E & U & V1 & V2 & Vb & Eb).
  rewrite E0 in E. injection E as <-.
  assert (AN : to_dBZ (att_lin e s hs hc ae i t k) = XNaN).
  { unfold att_lin. rewrite Z0.
    assert (S0 : forall x, to_dBZ x = XNaN -> (x = XF 0 \/ x = XNaN) -> forall y, xmul x y = XF 0 \/ xmul x y = XNaN).
    { intros x _ [-> | ->] y; destruct y as [r| | |]; cbn [xmul]; auto.
      - left. f_equal. ring.
      - right. unfold inf_of. destruct (Rlt_dec 0 0); [lra|]. destruct (Rlt_dec 0 0); [lra|]. reflexivity.
      - right. unfold inf_of. destruct (Rlt_dec 0 (- 0)); [lra|]. destruct (Rlt_dec (- 0) 0); [lra|]. reflexivity. }
    assert (D0 : forall x, x = XF 0 \/ x = XNaN -> to_dBZ x = XNaN).
    { intros x [-> | ->]; [|reflexivity]. simpl. unfold dBZ. destruct (Rlt_dec 0 0); [lra|reflexivity]. }
    assert (Q0 : (XF 0 : xr) = XF 0 \/ (XF 0 : xr) = XNaN) by (left; reflexivity).
    apply D0. apply S0; [apply D0|]; (apply S0; [apply D0|]); destruct (p_conv e);
      try exact Q0; (apply S0; [apply D0|]; exact Q0). }
  split; [rewrite V1, Z0; unfold dBZ; destruct (Rlt_dec 0 0); [lra|reflexivity]|].
  split; [rewrite V2; exact AN|]. exists b. split; [exact Vb|]. rewrite Eb, AN. reflexivity.
Qed.

(** Attenuated total against the transmittances. *)
Lemma total_attenuated e s M s' hs hc ae i t k Ts Tc Ta : total_inputs e s M ->
  calc_total_reflectivity e s = (Ok tt, s') ->
  var3 s "hyd_ext_strat" hs -> (p_conv e = true -> var3 s "hyd_ext_conv" hc) -> var2 s "atm_ext" ae ->
  transmits (hs i t k) Ts -> (if p_conv e then transmits (hc i t k) Tc else Tc = 1) -> transmits (ae t k) Ta ->
  value s' "sub_col_Ze_att_tot" i t k = dBZ (total_linear e s i t k * Tc * Ts * Ta).
Proof.
  intros ((zs & Hzs) & _ & _ & (zm & Hzm & Em) & Hc) E0 Hhs Hhc Hae H1 H2 H3.
  assert (HC : exists zc, p_conv e = true -> var3 s "sub_col_Ze_tot_conv" zc /\ var3 s "hyd_ext_conv" hc).
  { destruct (p_conv e); [|exists zeros3; discriminate].
    destruct (Hc eq_refl) as ((zc & ?) & _). exists zc. auto. }
  destruct HC as (zc & HC).
  destruct (total_run e s zs zc hs hc ae zm Hzs Hhs Hae Hzm HC) as (s'' & b & E & U & V1 & V2 & Vb & Eb).
  rewrite E0 in E. injection E as <-. rewrite V2.
  rewrite (att_lin_real e s hs hc ae Ts Tc Ta); auto.
  - destruct (p_conv e); [reflexivity|]. rewrite H2. reflexivity.
  - intro P. rewrite P in H2. exact H2.
Qed.

Section Call.
Variable Gam : R -> R.
Lemma radar_repeat e ins o c hs s s1 n :
  radar_tables_ok e c -> classes_of e (r_hyds o) hs -> r_emp o || r_rad o || c = true ->
  calc_radar_moments Gam e ins o c s = (Ok tt, s1) ->
  let again s := snd (calc_radar_moments Gam e ins o c s) in
  fst (calc_radar_moments Gam e ins o c (Nat.iter n again s1)) = Ok tt /\
  forall x, assoc (dvars (Nat.iter n again s1)) x = assoc (dvars s1) x.
Proof.
  intros T Hc NM E again.
  enough (H : (exists s0, calc_radar_moments Gam e ins o c s0 = (Ok tt, Nat.iter n again s1)) /\
              forall x, assoc (dvars (Nat.iter n again s1)) x = assoc (dvars s1) x).
  { destruct H as [[s0 E0] V]. split; [|exact V].
    destruct (radar_rerun Gam e ins o c hs s0 _ T Hc NM E0) as (s2 & E2 & _). rewrite E2. reflexivity. }
  induction n as [|n [[s0 E0] IH]]; [split; [exists s; exact E|reflexivity]|].
  destruct (radar_rerun Gam e ins o c hs s0 _ T Hc NM E0) as (s2 & E2 & V2).
  simpl. unfold again at 1 3. rewrite E2. split; [exists (Nat.iter n again s1); exact E2|].
  intro x. cbn [snd]. rewrite V2. apply IH.
Qed.
End Call.
