(** Attenuation by liquid in the empirical method. *)
From Verif Require Import Mom_Base Mom_Spec Mom_Facts Xr_Facts Sched_Model Atm_Model Psd_Model Lidar_Model
  Lidar_Spec Lidar_Od Lidar_Api Lidar_Perm Lidar_Corol Radar_Model Radar_Spec Radar_Total Radar_Att Radar_Loop
  Radar_Api Radar_Corol Radar_Gas.
Local Open Scope R_scope.

Lemma empirical_liquid_last Gam e ins o c hs h s s1 P T Q Z W :
  radar_tables_ok e c -> r_emp o = true -> plain (hs ++ [h]) -> 0 < r_d ins ->
  atmosphere e s P T Q Z -> lower h = "cl"%string \/ lower h = "pl"%string -> real3 e s (qn c h) W ->
  calc_radar_moments Gam e ins (radar_hyds o (hs ++ [h])) c s = (Ok tt, s1) ->
  exists rh, assoc (rho_hyd e) "cl" = Some (RConst rh) /\
  forall i t k, cell e i t k ->
    value s1 (hyd_ext_name c) i t k
    = XF (two_way_dB (path (r_sfc o) (nht e) (km (Z t)) (fun j =>
        1000 * liquid_content ins (W i t j) (100 * P t j) (T t j) * liquid_attenuation ins rh) k)).
Proof.
  intros TB Ee PL Hr AT Lq (wa & Vw & Ew) E.
  assert (NM : not_micro_r o c = true) by (unfold not_micro_r; rewrite Ee; reflexivity).
  destruct (radar_leaves Gam e ins (radar_hyds o (hs ++ [h])) c (hs ++ [h]) s s1 TB NM PL (fun _ _ => or_introl Ee) eq_refl E)
    as (q & pr & tr & zr & s0 & atm & F & El & Hq & Hp & Ht & Hz & Ea & Ha & RD & HC & L1).
  destruct AT as (pa & ta & qa & za & Vp & Vt & Vq & Vz & AT).
  red in Hp, Vp. rewrite Hp in Vp. injection Vp as <-.
  red in Ht, Vt. rewrite Ht in Vt. injection Vt as <-.
  red in Hz, Vz. rewrite Hz in Vz. injection Vz as <-.
  destruct L1 as (_ & _ & _ & _ & A5 & A6 & _). cbn [r_sfc r_emp radar_hyds] in A5, A6.
  assert (HZ : forall t k, point e t k -> z_met e (zr t k) = XF (Z t k)) by (intros t k Hp0; apply (AT t k Hp0)).
  unfold ready in RD. cbn [r_emp radar_hyds] in RD. rewrite Ee in RD. destruct RD as (_ & rh & Hrh).
  exists rh. split.
  { unfold rho_num, dict in Hrh. destruct (assoc (rho_hyd e) "cl") as [[x|]|]; cbn [bind] in Hrh; try discriminate.
    injection Hrh as <-. reflexivity. }
  intros i t k Cl. rewrite (value_var _ _ _ _ _ _ A5). rewrite Ee.
  rewrite (hyd_T_real e (r_sfc o) true _ _ Z (fun i t j =>
        1000 * liquid_content ins (W i t j) (100 * P t j) (T t j) * liquid_attenuation ins rh)); [reflexivity|exact HZ| |exact Cl].
  intros i' t' k' Cl'. unfold hyd_of. cbn [r_emp radar_hyds]. rewrite Ee, Hrh, last_last.
  assert (Hpt : point e t' k') by (destruct Cl' as (? & ? & ?); split; assumption).
  destruct (AT t' k' Hpt) as (_ & E1 & _ & _ & E2 & _ & _ & Pp & Tp & _).
  assert (Ih : In h (hs ++ [h])) by (apply in_or_app; right; left; reflexivity).
  specialize (HC h Ih). unfold rcon in HC. cbn [r_emp radar_hyds] in HC. rewrite Ee in HC.
  unfold emp_con, empirical_class in HC.
  rewrite (g3_var _ _ _ Vw) in HC. cbn [bind] in HC. injection HC as HC. rewrite <- HC. cbn [fst]. unfold map3.
  assert (LL : is_cl h || is_pl h = true) by (unfold is_cl, is_pl; destruct Lq as [->| ->]; reflexivity).
  rewrite LL. unfold lift2, zeros3. rewrite Ew by exact Cl'. rewrite E1, E2.
  unfold wc_g, wc_cell. cbn [xmul xadd].
  assert (D : 0 < r_d ins * T t' k') by (apply Rmult_lt_0_compat; lra).
  replace (T t' k' - 27315 / 100 + 27315 / 100) with (T t' k') by ring.
  rewrite xdiv_fin by lra. cbn [xmul xadd]. apply f_equal.
  unfold liquid_attenuation, liquid_content, kappa_f. unfold Rdiv. ring.
Qed.
