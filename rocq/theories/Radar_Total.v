(** C30, C31: stratiform plus convective reflectivity and the detection mask. *)
From Verif Require Import Mom_Base Mom_Spec Mom_Facts Xr_Facts Lidar_Spec Radar_Model Radar_Spec Lidar_Corol.
Local Open Scope R_scope.

(** *** Decibels *)
Lemma ln10_pos : 0 < ln 10.
Proof. rewrite <- ln_1. apply ln_increasing; lra. Qed.
Lemma Rpower_pos a b : 0 < Rpower a b.
Proof. apply exp_pos. Qed.
Lemma linear_nonneg x : 0 <= linear x.
Proof. destruct x; simpl; try lra. left. apply Rpower_pos. Qed.
Lemma lin_linear x : lin x = XF (linear x).
Proof.
  destruct x; try reflexivity. unfold lin, xp10. simpl isfin. rewrite xdiv_fin by lra.
  rewrite xpow_fin by lra. reflexivity.
Qed.
Lemma add_lin_linear a y : add_lin (XF a) y = XF (a + linear y).
Proof.
  destruct y; unfold add_lin; simpl isfin; cbn iota; simpl linear; try (f_equal; ring).
  unfold xp10. rewrite xdiv_fin, xpow_fin by lra. reflexivity.
Qed.
Lemma dBZ_pos r : 0 < r -> dBZ r = XF (10 * (ln r / ln 10)).
Proof. intro H. unfold dBZ. destruct (Rlt_dec 0 r); [reflexivity|tauto]. Qed.
Lemma dBZ_0 : dBZ 0 = XNaN.
Proof. unfold dBZ. destruct (Rlt_dec 0 0); [lra|reflexivity]. Qed.
Lemma dBZ_np r : r <= 0 -> dBZ r = XNaN.
Proof. intro H. unfold dBZ. destruct (Rlt_dec 0 r); [lra|reflexivity]. Qed.
Lemma dBZ_nan r : 0 <= r -> (dBZ r = XNaN <-> r = 0).
Proof.
  intro H. unfold dBZ. destruct (Rlt_dec 0 r); split; intro E; try discriminate; try lra. reflexivity.
Qed.
Lemma inf_nan_db_dBZ r : inf_nan (db (XF r)) = dBZ r.
Proof.
  unfold db, dBZ. simpl xlog10. destruct (Rlt_dec 0 r); [reflexivity|].
  destruct (Rlt_dec r 0); [reflexivity|]. simpl. unfold inf_of, inf_nan.
  destruct (Rlt_dec 0 (- (10))); [reflexivity|]. destruct (Rlt_dec (- (10)) 0); [reflexivity|lra].
Qed.
Lemma keep_fin_dBZ r : keep_fin (dBZ r) = dBZ r.
Proof. unfold dBZ. destruct (Rlt_dec 0 r); reflexivity. Qed.
Lemma to_dBZ_class x : keep_fin (inf_nan (db x)) = to_dBZ x.
Proof.
  destruct x; simpl to_dBZ; [rewrite inf_nan_db_dBZ; apply keep_fin_dBZ| | |]; unfold db; simpl; try reflexivity.
  unfold inf_of. destruct (Rlt_dec 0 10); [reflexivity|lra].
Qed.
Lemma to_dBZ_total x : total_dbz x = to_dBZ x.
Proof. destruct x; try reflexivity. unfold total_dbz. simpl keep_fin. apply inf_nan_db_dBZ. Qed.
Lemma linear_dBZ r : 0 <= r -> linear (dBZ r) = r.
Proof.
  intro H. unfold dBZ. destruct (Rlt_dec 0 r) as [P|P]; simpl; [|lra].
  unfold Rpower. replace (10 * (ln r / ln 10) / 10 * ln 10) with (ln r).
  - apply exp_ln, P.
  - field. pose proof ln10_pos; lra.
Qed.
Lemma ln_le_mono a b : 0 < a -> a <= b -> ln a <= ln b.
Proof. intros Ha [H|H]; [left; apply ln_increasing; auto|right; congruence]. Qed.
Lemma dBZ_mono a b x y : a <= b -> dBZ a = XF x -> dBZ b = XF y -> x <= y.
Proof.
  unfold dBZ. intros H. destruct (Rlt_dec 0 a); [|discriminate]. destruct (Rlt_dec 0 b); [|discriminate].
  intros E1 E2. inversion E1; inversion E2. pose proof ln10_pos.
  apply Rmult_le_compat_l; [lra|]. apply Rmult_le_compat_r; [left; apply Rinv_0_lt_compat; auto|].
  apply ln_le_mono; auto.
Qed.

Lemma fill1_transmits x T : transmits x T -> fillna 1 x = XF T.
Proof. intros [->|[-> ->]]; reflexivity. Qed.

(** *** calc_total_reflectivity *)
Section Total.
Variables (e : menv) (s : dset).
Variables (zs zc hs hc : arr3) (ae zm : arr2).
Hypothesis Hzs : var3 s "sub_col_Ze_tot_strat" zs.
Hypothesis Hhs : var3 s "hyd_ext_strat" hs.
Hypothesis Hae : var2 s "atm_ext" ae.
Hypothesis Hzm : var2 s "Ze_min" zm.
Hypothesis Hconv : p_conv e = true -> var3 s "sub_col_Ze_tot_conv" zc /\ var3 s "hyd_ext_conv" hc.

Definition att_lin i t k : xr :=
  xmul (xmul (if p_conv e then xmul (XF (total_linear e s i t k)) (fillna 1 (hc i t k))
              else XF (total_linear e s i t k))
             (fillna 1 (hs i t k))) (fillna 1 (ae t k)).

Ltac vo := match goal with
  | |- var3 (upd _ _ _) _ _ => unfold var3; rewrite upd_other by discriminate; assumption
  | |- var2 (upd _ _ _) _ _ => unfold var2; rewrite upd_other by discriminate; assumption end.

Lemma total_run : exists s' b,
  calc_total_reflectivity e s = (Ok tt, s')
  /\ unchanged_except ["sub_col_Ze_tot"; "sub_col_Ze_att_tot"; "detect_mask"]%string s s'
  /\ (forall i t k, value s' "sub_col_Ze_tot" i t k = dBZ (total_linear e s i t k))
  /\ (forall i t k, value s' "sub_col_Ze_att_tot" i t k = to_dBZ (att_lin i t k))
  /\ varb s' "detect_mask" b
  /\ (forall i t k, b i t k = xleb (to_dBZ (att_lin i t k)) (zm t k)).
Proof.
  assert (Ezs : forall i t k, value s "sub_col_Ze_tot_strat" i t k = zs i t k).
  { intros. unfold value. red in Hzs. rewrite Hzs. reflexivity. }
  unfold calc_total_reflectivity.
  rewrite (bind_rd _ _ _ zs) by (apply g3_var; exact Hzs).
  set (zt := if p_conv e then fun i t k => add_lin (lin (zs i t k)) (zc i t k) else map3 lin zs).
  assert (Ezt : forall i t k, zt i t k = XF (total_linear e s i t k)).
  { intros. unfold zt, total_linear. rewrite Ezs. destruct (p_conv e) eqn:P.
    - destruct (Hconv eq_refl) as [Hc _].
      rewrite lin_linear, add_lin_linear. unfold value. red in Hc. rewrite Hc. reflexivity.
    - unfold map3. rewrite lin_linear. f_equal. ring. }
  match goal with |- context [lbind ?m ?k s] => rewrite (bind_ok m k s zt s) end.
  2:{ unfold zt. destruct (p_conv e) eqn:P; [|reflexivity].
      rewrite (bind_rd _ _ _ zc) by (apply g3_var; apply (Hconv eq_refl)). reflexivity. }
  cbv zeta. rewrite bind_assign. set (s1 := upd s "sub_col_Ze_tot" _).
  set (lc := if p_conv e then fun i t k => xmul (zt i t k) (fillna 1 (hc i t k)) else zt).
  match goal with |- context [lbind ?m ?k s1] => rewrite (bind_ok m k s1 lc s1) end.
  2:{ unfold lc. destruct (p_conv e) eqn:P; [|reflexivity].
      rewrite (bind_rd _ _ _ hc) by (apply g3_var; destruct (Hconv eq_refl); unfold s1; vo). reflexivity. }
  rewrite (bind_rd _ _ _ hs) by (apply g3_var; unfold s1; vo).
  rewrite (bind_rd _ _ _ ae) by (apply g2_var; unfold s1; vo).
  rewrite bind_assign. set (s2 := upd s1 _ _). rewrite bind_assign. set (s3 := upd s2 _ _).
  rewrite (bind_rd _ _ _ zm).
  2:{ apply g2_var. unfold s3, s2, s1, var2. rewrite !upd_other by discriminate. assumption. }
  rewrite assign_eq.
  assert (Eatt : forall i t k, keep_fin (inf_nan (db (xmul (xmul (lc i t k) (fillna 1 (hs i t k))) (fillna 1 (ae t k)))))
                 = to_dBZ (att_lin i t k)).
  { intros. rewrite to_dBZ_class. unfold att_lin, lc. destruct (p_conv e); rewrite !Ezt; reflexivity. }
  eexists; eexists; split; [reflexivity|]. split; [|split; [|split; [|split]]].
  - intros x Hx. unfold s3, s2, s1. rewrite !upd_other; auto; intros ->; apply Hx; simpl; auto.
  - intros. unfold value. rewrite upd_other by discriminate. unfold s3. rewrite upd_same.
    unfold map3. rewrite Ezt, to_dBZ_class. reflexivity.
  - intros. unfold value. rewrite upd_other by discriminate. unfold s3. rewrite upd_other by discriminate.
    unfold s2. rewrite upd_same. unfold map3. apply Eatt.
  - unfold varb. apply upd_same.
  - intros. cbn beta. unfold map3. rewrite Eatt. reflexivity.
Qed.
End Total.

Lemma total_linear_nonneg e s i t k : 0 <= total_linear e s i t k.
Proof.
  unfold total_linear. pose proof (linear_nonneg (value s "sub_col_Ze_tot_strat" i t k)).
  pose proof (linear_nonneg (value s "sub_col_Ze_tot_conv" i t k)). destruct (p_conv e); lra.
Qed.
Lemma total_linear_0 e s i t k :
  total_linear e s i t k = 0 <->
  isfin (value s "sub_col_Ze_tot_strat" i t k) = false
  /\ (p_conv e = true -> isfin (value s "sub_col_Ze_tot_conv" i t k) = false).
Proof.
  assert (Z : forall x, linear x = 0 <-> isfin x = false).
  { destruct x as [d| | |]; simpl; split; intro; try reflexivity; try discriminate.
    pose proof (Rpower_pos 10 (d / 10)). lra. }
  pose proof (Z (value s "sub_col_Ze_tot_strat" i t k)) as Z1.
  pose proof (Z (value s "sub_col_Ze_tot_conv" i t k)) as Z2.
  unfold total_linear. pose proof (linear_nonneg (value s "sub_col_Ze_tot_strat" i t k)).
  pose proof (linear_nonneg (value s "sub_col_Ze_tot_conv" i t k)).
  destruct (p_conv e); split.
  - intro. split; [apply Z1; lra|intros _; apply Z2; lra].
  - intros [A B]. apply Z1 in A. specialize (B eq_refl). apply Z2 in B. lra.
  - intro. split; [apply Z1; lra|discriminate].
  - intros [A _]. apply Z1 in A. lra.
Qed.
Lemma att_lin_real e s hs hc ae Ts Tc Ta i t k :
  transmits (hs i t k) Ts -> (p_conv e = true -> transmits (hc i t k) Tc) -> transmits (ae t k) Ta ->
  att_lin e s hs hc ae i t k
  = XF (total_linear e s i t k * (if p_conv e then Tc else 1) * Ts * Ta).
Proof.
  intros H1 H2 H3. unfold att_lin. rewrite (fill1_transmits _ _ H1), (fill1_transmits _ _ H3).
  destruct (p_conv e); [rewrite (fill1_transmits _ _ (H2 eq_refl)); reflexivity|].
  simpl. f_equal. ring.
Qed.
