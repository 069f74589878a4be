(** Gaseous attenuation, and the transmittances a radar call stores. *)
From Verif Require Import Mom_Base Mom_Spec Mom_Facts Xr_Facts Sched_Model Atm_Model Psd_Model Lidar_Model
  Lidar_Spec Lidar_Od Lidar_Api Lidar_Perm Lidar_Corol Radar_Model Radar_Spec Radar_Total Radar_Att Radar_Loop
  Radar_Api Radar_Corol.
Local Open Scope R_scope.

Lemma xsq_fin a : xsq (XF a) = XF (a * a). Proof. reflexivity. Qed.
Lemma div_pos a b : 0 < a -> 0 < b -> 0 < a / b.
Proof. intros. apply Rmult_lt_0_compat; [assumption|apply Rinv_0_lt_compat; assumption]. Qed.
Lemma div_nonneg a b : 0 <= a -> 0 < b -> 0 <= a / b.
Proof. intros. apply Rmult_le_pos; [assumption|left; apply Rinv_0_lt_compat; assumption]. Qed.
Lemma sq_nonneg a : 0 <= a * a. Proof. apply Rle_0_sqr. Qed.

Ltac nn := repeat first [apply div_nonneg | apply Rmult_le_pos | apply Rplus_le_le_0_compat | apply sq_nonneg]; try lra.

Lemma kappa_wv_nonneg ins q p t : 0 < r_d ins -> 0 <= q -> 0 < p -> 0 < t ->
  exists w, kappa_wv ins (XF q) (XF p) (XF t) = XF w /\ 0 <= w.
Proof.
  intros Hr Hq Hp Ht. unfold kappa_wv, rho_wv. cbn [xmul].
  assert (D1 : 0 < r_d ins * t) by (apply Rmult_lt_0_compat; assumption).
  rewrite !(xdiv_fin _ (r_d ins * t)) by lra. rewrite (xdiv_fin 300) by lra. rewrite (xdiv_fin p) by lra.
  cbn [xmul]. rewrite (xdiv_fin _ p) by lra. rewrite (xdiv_fin (-644)) by lra.
  assert (T3 : 0 < 300 / t) by (apply div_pos; lra).
  rewrite !xpow_fin by exact T3. unfold xsq, xsub. cbn [xadd xmul xexp xopp].
  set (f := freq ins).
  assert (D2 : 0 < (4944 / 10 + - (f * f)) * (4944 / 10 + - (f * f)) + 4 * (f * f)).
  { pose proof (sq_nonneg f). pose proof (sq_nonneg (4944 / 10 + - (f * f))).
    destruct (Req_dec f 0) as [->|N]; [nra|]. assert (0 < f * f) by (apply Rsqr_pos_lt; exact N). lra. }
  rewrite xdiv_fin by lra. cbn [xmul xadd].
  eexists. split; [reflexivity|].
  assert (RW : 0 <= q * 1000 * (p * 100) / (r_d ins * t)) by nn.
  pose proof (Rpower_pos (300 / t) (626 / 1000)). pose proof (Rpower_pos (300 / t) (3 / 2)). pose proof (exp_pos (-644 / t)).
  set (A := Rpower (300 / t) (626 / 1000)) in *. set (B := Rpower (300 / t) (3 / 2)) in *.
  set (W := q * 1000 * (p * 100) / (r_d ins * t)) in *.
  set (D := (4944 / 10 + - (f * f)) * (4944 / 10 + - (f * f)) + 4 * (f * f)) in *.
  assert (G : 0 <= 285 / 100 * (p / 1013) * A * (1 + 18 / 1000 * W * t / p)).
  { apply Rmult_le_pos; [nn|]. assert (0 <= 18 / 1000 * W * t / p) by nn. lra. }
  set (GL := 285 / 100 * (p / 1013) * A * (1 + 18 / 1000 * W * t / p)) in *.
  apply Rplus_le_le_0_compat; [|lra]. apply Rmult_le_pos; [|apply sq_nonneg].
  apply div_nonneg; [|exact D2].
  do 5 (apply Rmult_le_pos; [|lra]). apply sq_nonneg.
Qed.

Lemma kappa_o2_pos ins p praw t : 0 < p -> p <= praw \/ p <= 600 -> 0 < t ->
  exists w, kappa_o2 ins (XF p) (XF praw) (XF t) = XF w /\ 0 <= w.
Proof.
  intros Hp Hpr Ht. unfold kappa_o2.
  assert (G0 : exists g, gamma_0 (XF p) (XF praw) = XF g /\ 0 < g).
  { unfold gamma_0. destruct (xltb (XF praw) (XF 25)) eqn:E1; [eexists; split; [reflexivity|lra]|].
    destruct (xleb (XF 333) (XF praw)) eqn:E2; [eexists; split; [reflexivity|lra]|].
    apply xleb_fin_f in E2. cbn. eexists. split; [reflexivity|]. nra. }
  destruct G0 as (g & -> & Hg).
  rewrite (xdiv_fin 300) by lra. rewrite (xdiv_fin p) by lra.
  assert (T3 : 0 < 300 / t) by (apply div_pos; lra).
  rewrite xpow_fin by exact T3. cbn [xmul]. set (GL := g * (p / 1013) * Rpower (300 / t) (85 / 100)).
  assert (GP : 0 < GL).
  { unfold GL. repeat apply Rmult_lt_0_compat; try lra. apply Rpower_pos. }
  unfold xsq, xsub. cbn [xadd xmul xopp]. set (f := freq ins).
  assert (G2 : 0 < GL * GL) by (apply Rmult_lt_0_compat; assumption).
  pose proof (sq_nonneg f). pose proof (sq_nonneg (f + - (60))).
  rewrite !xdiv_fin by lra. cbn [xmul xadd].
  eexists. split; [reflexivity|].
  apply Rmult_le_pos.
  - apply Rmult_le_pos; [|lra]. apply Rmult_le_pos; [|apply sq_nonneg].
    apply Rmult_le_pos; [|lra]. apply Rmult_le_pos; lra.
  - apply Rplus_le_le_0_compat; apply div_nonneg; lra.
Qed.


Lemma atm_attenuation_real e ins s P T Q Z s0 atm : 0 < r_d ins -> atmosphere e s P T Q Z ->
  calc_radar_atm_attenuation e ins s = (Ok tt, s0) -> var2 s0 "kappa_att" atm ->
  exists A, forall t k, point e t k -> atm t k = XF (A t k) /\ 0 <= A t k.
Proof.
  intros Hr (pa & ta & qa & za & Vp & Vt & Vq & Vz & H) E Va.
  unfold calc_radar_atm_attenuation in E.
  rewrite bind_rd with (a := ta) in E by (apply g2_var; exact Vt).
  rewrite bind_rd with (a := pa) in E by (apply g2_var; exact Vp).
  rewrite bind_rd with (a := qa) in E by (apply g2_var; exact Vq).
  rewrite !bind_assign, assign_eq in E.
  assert (E' := f_equal snd E). cbn [snd] in E'. subst s0.
  red in Va. rewrite upd_same in Va. injection Va as <-.
  exists (fun t k => match xadd (kappa_wv ins (qa t k) (p_hpa e (pa t k)) (t_kel e (ta t k)))
                       (kappa_o2 ins (p_hpa e (pa t k)) (pa t k) (t_kel e (ta t k))) with XF r => r | _ => 0 end).
  intros t k Hp. destruct (H t k Hp) as (E1 & _ & (st & E2 & Ls) & E3 & _ & E4 & _ & Pp & Tp & Qp).
  rewrite E1, E2, E3, E4.
  destruct (kappa_wv_nonneg ins (Q t k) (P t k) (T t k)) as (w & -> & Wp); auto.
  destruct (kappa_o2_pos ins (P t k) st (T t k)) as (o & -> & Op); auto. simpl. split; [reflexivity|lra].
Qed.

Lemma atm_T_real e sfc z atm (Z A : nat -> nat -> R) t k :
  (forall t k, point e t k -> z t k = XF (Z t k)) -> (forall t k, point e t k -> atm t k = XF (A t k)) ->
  point e t k -> atm_T e sfc z atm t k = XF (two_way_dB (path sfc (nht e) (km (Z t)) (A t) k)).
Proof.
  intros HZ HA (Ht & Hk). unfold atm_T, of_prof2.
  rewrite od_profile_path with (Z := km (Z t)) (A := A t) (n := nht e); auto using length_prof2.
  - apply trans_db_fin.
  - intros j L2. rewrite nth_prof2 by exact L2. rewrite HZ by (split; auto).
    rewrite xdiv_fin by lra. reflexivity.
  - intros j Hj. rewrite nth_prof2 by exact Hj. apply HA. split; auto.
Qed.

(** One profile of transmittances. *)
Lemma trans_profile sfc n (Z A : nat -> R) :
  (forall j, (S j < n)%nat -> Z j <= Z (S j)) -> (forall j, (j < n)%nat -> 0 <= A j) ->
  let T k := two_way_dB (path sfc n (km Z) A k) in
  (forall k, (k < n)%nat -> 0 < T k <= 1) /\
  (forall k, (k < n)%nat -> at_instrument sfc n k -> T k = 1) /\
  (forall k k', (k < n)%nat -> (k' < n)%nat -> not_nearer sfc k k' -> T k' <= T k).
Proof.
  intros HZ HA T. subst T. cbn beta.
  assert (Zk : forall j, (S j < n)%nat -> km Z j <= km Z (S j)).
  { intros j Lj. unfold km. specialize (HZ j Lj). lra. }
  repeat split.
  - apply exp_pos.
  - apply two_way_dB_range.
    assert (N : not_nearer sfc k k) by (unfold not_nearer; destruct sfc; lia).
    exact (proj1 (path_mono sfc n _ _ k k Zk HA H H N)).
  - intros k Lk Hi. rewrite path_start by assumption. apply two_way_dB_0.
  - intros k k' L1 L2 N. apply two_way_dB_mono. apply (path_mono sfc n _ _ k k' Zk HA L1 L2 N).
Qed.

(** C33 for a whole call of the empirical method. *)
Lemma empirical_transmittance Gam e ins o c hs s s1 P T Q Z rh :
  radar_tables_ok e c -> r_emp o = true -> plain hs -> 0 < r_d ins ->
  atmosphere e s P T Q Z ->
  (forall t k, (t < ntm e)%nat -> (S k < nht e)%nat -> Z t k <= Z t (S k)) ->
  (forall h, In h hs -> exists q, real3 e s (qn c h) q /\ forall i t k, cell e i t k -> 0 <= q i t k) ->
  rho_num e "cl" = Ok rh -> 0 < rh -> 0 < wavelen ins -> 0 <= eps_im ins ->
  calc_radar_moments Gam e ins (radar_hyds o hs) c s = (Ok tt, s1) ->
  exists TH TA, real3 e s1 (hyd_ext_name c) TH /\ real2 e s1 "atm_ext" TA
    /\ (forall i t k, cell e i t k -> 0 < TH i t k <= 1 /\ 0 < TA t k <= 1)
    /\ (forall i t k, cell e i t k -> at_instrument (r_sfc o) (nht e) k -> TH i t k = 1 /\ TA t k = 1)
    /\ (forall i t k k', cell e i t k -> cell e i t k' -> not_nearer (r_sfc o) k k' ->
          TH i t k' <= TH i t k /\ TA t k' <= TA t k).
Proof.
  intros TB Ee PL Hr AT Zm HQ Hrh Prh Pw Pe E.
  assert (NM : not_micro_r o c = true) by (unfold not_micro_r; rewrite Ee; reflexivity).
  destruct (radar_leaves Gam e ins (radar_hyds o hs) c hs s s1 TB NM PL (fun _ _ => or_introl Ee) eq_refl E)
    as (q & pr & tr & zr & s0 & atm & F & El & Hq & Hp & Ht & Hz & Ea & Ha & RD & HC & L1).
  destruct (atm_attenuation_real _ _ _ _ _ _ _ _ _ Hr AT Ea Ha) as (A & HA).
  destruct AT as (pa & ta & qa & za & Vp & Vt & Vq & Vz & AT).
  red in Hp, Vp. rewrite Hp in Vp. injection Vp as <-.
  red in Ht, Vt. rewrite Ht in Vt. injection Vt as <-.
  red in Hz, Vz. rewrite Hz in Vz. injection Vz as <-.
  destruct L1 as (_ & _ & _ & _ & A5 & A6 & _). cbn [r_sfc r_emp radar_hyds] in A5, A6.
  assert (HZ : forall t k, point e t k -> z_met e (zr t k) = XF (Z t k)) by (intros t k Hp0; apply (AT t k Hp0)).
  (* the water content left by the loop *)
  assert (Pk : 0 <= kappa_f ins rh).
  { unfold kappa_f. pose proof PI_RGT_0. assert (0 < wavelen ins * rh) by (apply Rmult_lt_0_compat; assumption).
    repeat (apply Rmult_le_pos; try lra). left. apply Rinv_0_lt_compat; assumption. }
  assert (HH : exists H, forall i t k, cell e i t k ->
     hyd_of e ins (radar_hyds o hs) hs F i t k = XF (H i t k) /\ 0 <= H i t k).
  { exists (fun i t k => match hyd_of e ins (radar_hyds o hs) hs F i t k with XF r => r | _ => 0 end).
    intros i t k Hc. unfold hyd_of. cbn [r_emp radar_hyds]. rewrite Ee, Hrh.
    assert (Hpt : point e t k) by (destruct Hc as (? & ? & ?); split; assumption).
    destruct (AT t k Hpt) as (_ & E1 & _ & _ & E2 & _ & _ & Pp & Tp & _).
    assert (N : hs <> []).
    { unfold ready in RD. cbn [r_emp radar_hyds] in RD. rewrite Ee in RD. apply RD. }
    destruct (exists_last N) as (hs' & h & ->). rewrite last_last.
    assert (Ih : In h (hs' ++ [h])) by (apply in_or_app; right; left; reflexivity).
    specialize (HC h Ih). unfold rcon in HC. cbn [r_emp radar_hyds] in HC. rewrite Ee in HC.
    unfold emp_con, empirical_class in HC. destruct (HQ h Ih) as (q' & (qa' & Vq' & Eq') & Pq').
    rewrite (g3_var _ _ _ Vq') in HC. cbn [bind] in HC. injection HC as HC. rewrite <- HC. cbn [fst]. unfold map3.
    destruct (is_cl h || is_pl h).
    - unfold lift2, zeros3. rewrite Eq' by exact Hc. rewrite E1, E2.
      destruct (wc_real ins (q' i t k) (100 * P t k) (T t k - 27315 / 100) Hr) as (w & -> & Pw'); [lra|].
      cbn [xadd xmul]. split; [reflexivity|]. apply Rmult_le_pos; [|exact Pk].
      specialize (Pw' (Pq' i t k Hc)). lra.
    - unfold zeros3. cbn [xmul]. split; [reflexivity|]. lra. }
  destruct HH as (H & HH).
  exists (fun i t k => two_way_dB (path (r_sfc o) (nht e) (km (Z t)) (H i t) k)).
  exists (fun t k => two_way_dB (path (r_sfc o) (nht e) (km (Z t)) (A t) k)).
  split; [|split].
  - eexists. split; [exact A5|]. intros i t k Hc. rewrite Ee.
    rewrite (hyd_T_real e (r_sfc o) true _ _ Z H); [reflexivity|exact HZ| |exact Hc].
    intros. apply HH. assumption.
  - eexists. split; [exact A6|]. intros t k Hpt. apply atm_T_real; auto. intros. apply HA. assumption.
  - assert (X1 : forall i t, (i < nsub e)%nat -> (t < ntm e)%nat ->
        forall j, (j < nht e)%nat -> 0 <= H i t j) by (intros; apply HH; repeat split; assumption).
    assert (X2 : forall t, (t < ntm e)%nat -> forall j, (j < nht e)%nat -> 0 <= A t j)
      by (intros; apply HA; split; assumption).
    assert (Y1 : forall i t, (i < nsub e)%nat -> (t < ntm e)%nat -> _) by
      (intros i t L1 L2; exact (trans_profile (r_sfc o) (nht e) (Z t) (H i t) (fun j => Zm t j L2) (X1 i t L1 L2))).
    assert (Y2 : forall t, (t < ntm e)%nat -> _) by
      (intros t L2; exact (trans_profile (r_sfc o) (nht e) (Z t) (A t) (fun j => Zm t j L2) (X2 t L2))).
    cbn beta zeta in Y1, Y2.
    split; [|split].
    + intros i t k (L1 & L2 & L3). split; [apply (Y1 i t L1 L2)|apply (Y2 t L2)]; exact L3.
    + intros i t k (L1 & L2 & L3) I. split; [apply (Y1 i t L1 L2)|apply (Y2 t L2)]; assumption.
    + intros i t k k' (L1 & L2 & L3) (_ & _ & L4) N. split; [apply (Y1 i t L1 L2)|apply (Y2 t L2)]; assumption.
Qed.
