(** Attenuation by water vapour, and the fields of gas attenuation. *)
From Verif Require Import Mom_Base Mom_Spec Mom_Facts Xr_Facts Sched_Model Atm_Model Psd_Model Lidar_Model
  Lidar_Spec Lidar_Od Lidar_Api Lidar_Perm Lidar_Corol Radar_Model Radar_Spec Radar_Total Radar_Att Radar_Loop
  Radar_Api Radar_Corol Radar_Gas Radar_Nan.
Local Open Scope R_scope.

Lemma line_denominator f : 0 < (4944 / 10 - f ^ 2) ^ 2 + 4 * f ^ 2.
Proof.
  pose proof (sq_nonneg f). pose proof (sq_nonneg (4944 / 10 - f ^ 2)).
  destruct (Req_dec f 0) as [->|N]; [nra|]. assert (0 < f * f) by (apply Rsqr_pos_lt; exact N). nra.
Qed.

Lemma kappa_wv_value ins q p t : 0 < r_d ins -> 0 < p -> 0 < t ->
  kappa_wv ins (XF q) (XF p) (XF t) = XF (wv_stored (freq ins) p t (vapour_content ins q p t)).
Proof.
  intros Hr Hp Ht. unfold kappa_wv, rho_wv. cbn [xmul].
  assert (D1 : 0 < r_d ins * t) by (apply Rmult_lt_0_compat; assumption).
  rewrite !(xdiv_fin _ (r_d ins * t)) by lra. rewrite (xdiv_fin 300) by lra. rewrite (xdiv_fin p) by lra.
  cbn [xmul]. rewrite (xdiv_fin _ p) by lra. rewrite (xdiv_fin (-644)) by lra.
  assert (T3 : 0 < 300 / t) by (apply div_pos; lra).
  rewrite !xpow_fin by exact T3. unfold xsq, xsub. cbn [xadd xmul xexp xopp].
  pose proof (line_denominator (freq ins)) as D2.
  replace ((4944 / 10 + - (freq ins * freq ins)) * (4944 / 10 + - (freq ins * freq ins)) + 4 * (freq ins * freq ins))
    with ((4944 / 10 - freq ins ^ 2) ^ 2 + 4 * freq ins ^ 2) by ring.
  rewrite xdiv_fin by lra. cbn [xmul xadd]. apply (f_equal XF).
  unfold wv_stored.
  replace (q * 1000 * (p * 100) / (r_d ins * t)) with (vapour_content ins q p t) by (unfold vapour_content; field; lra).
  fold (wv_width p t (vapour_content ins q p t)).
  set (D := (4944 / 10 - freq ins ^ 2) ^ 2 + 4 * freq ins ^ 2) in *.
  set (G := wv_width p t (vapour_content ins q p t)). set (B := Rpower (300 / t) (3 / 2)). set (W := vapour_content ins q p t).
  set (E := exp (-644 / t)). set (T := 300 / t) in *. clearbody D G B W E T.
  replace (12 / 10000000) with (12 / 10 ^ 7) by lra. field. lra.
Qed.

Lemma kappa_o2_value ins p praw t : 0 < p -> p <= praw \/ p <= 600 -> 0 < t ->
  kappa_o2 ins (XF p) (XF praw) (XF t) = XF (o2_absorption (freq ins) p praw t).
Proof.
  intros Hp Hpr Ht. unfold kappa_o2, o2_absorption, o2_width.
  set (g := if Rlt_dec praw 25 then 118 / 100 else if Rle_dec 333 praw then 59 / 100
            else 59 / 100 * (1 + 31 / 10000 * (333 - p))).
  assert (G0 : gamma_0 (XF p) (XF praw) = XF g).
  { unfold gamma_0, g. simpl. unfold Rltb, Rleb. destruct (Rlt_dec praw 25); [reflexivity|].
    destruct (Rle_dec 333 praw); reflexivity. }
  assert (Hg : 0 < g).
  { unfold g. destruct (Rlt_dec praw 25); [lra|]. destruct (Rle_dec 333 praw); [lra|]. lra. }
  rewrite G0. rewrite (xdiv_fin 300) by lra. rewrite (xdiv_fin p) by lra.
  assert (T3 : 0 < 300 / t) by (apply div_pos; lra).
  rewrite xpow_fin by exact T3. cbn [xmul]. set (GL := g * (p / 1013) * Rpower (300 / t) (85 / 100)).
  assert (GP : 0 < GL) by (unfold GL; repeat apply Rmult_lt_0_compat; try lra; apply Rpower_pos).
  unfold xsq, xsub. cbn [xadd xmul xopp]. set (f := freq ins).
  assert (G2 : 0 < GL * GL) by (apply Rmult_lt_0_compat; assumption).
  pose proof (sq_nonneg f). pose proof (sq_nonneg (f + - (60))).
  rewrite !xdiv_fin by lra. cbn [xmul xadd]. apply (f_equal XF).
  replace ((f - 60) ^ 2 + GL ^ 2) with ((f + - (60)) * (f + - (60)) + GL * GL) by ring.
  replace (f ^ 2 + GL ^ 2) with (f * f + GL * GL) by ring. ring.
Qed.

Lemma gas_fields e ins s P T Q Z : 0 < r_d ins -> atmosphere e s P T Q Z ->
  exists s1 st, calc_radar_atm_attenuation e ins s = (Ok tt, s1) /\
    unchanged_except ["kappa_o2"; "kappa_wv"; "kappa_att"]%string s s1 /\ real2 e s (p_name e) st /\
    real2 e s1 "kappa_o2" (fun t k => o2_absorption (freq ins) (P t k) (st t k) (T t k)) /\
    real2 e s1 "kappa_wv" (fun t k => wv_stored (freq ins) (P t k) (T t k) (vapour_content ins (Q t k) (P t k) (T t k))) /\
    real2 e s1 "kappa_att" (fun t k => o2_absorption (freq ins) (P t k) (st t k) (T t k) +
      wv_stored (freq ins) (P t k) (T t k) (vapour_content ins (Q t k) (P t k) (T t k))).
Proof.
  intros Hr (pa & ta & qa & za & Vp & Vt & Vq & Vz & H).
  unfold calc_radar_atm_attenuation.
  rewrite bind_rd with (a := ta) by (apply g2_var; exact Vt).
  rewrite bind_rd with (a := pa) by (apply g2_var; exact Vp).
  rewrite bind_rd with (a := qa) by (apply g2_var; exact Vq).
  rewrite !bind_assign, assign_eq.
  eexists. exists (fun t k => match pa t k with XF r => r | _ => 0 end). split; [reflexivity|].
  assert (C : forall t k, point e t k -> exists st, pa t k = XF st /\
    kappa_o2 ins (p_hpa e (pa t k)) (pa t k) (t_kel e (ta t k)) = XF (o2_absorption (freq ins) (P t k) st (T t k)) /\
    kappa_wv ins (qa t k) (p_hpa e (pa t k)) (t_kel e (ta t k))
      = XF (wv_stored (freq ins) (P t k) (T t k) (vapour_content ins (Q t k) (P t k) (T t k)))).
  { intros t k Hp. destruct (H t k Hp) as (E1 & _ & (st & E2 & Ls) & E3 & _ & E4 & _ & Pp & Tp & Qp).
    exists st. split; [exact E2|]. rewrite E1, E2, E3, E4. split; [apply kappa_o2_value; auto|apply kappa_wv_value; auto]. }
  split; [|split; [|split; [|split]]].
  - intros x Hx. rewrite !upd_other; [reflexivity|..]; intro EE; apply Hx; simpl; intuition congruence.
  - exists pa. split; [exact Vp|]. intros t k Hp. destruct (C t k Hp) as (st & -> & _). reflexivity.
  - eexists. split; [unfold var2; rewrite !upd_other, upd_same by discriminate; reflexivity|].
    intros t k Hp. cbv beta. destruct (C t k Hp) as (st & E & -> & _). rewrite E. reflexivity.
  - eexists. split; [unfold var2; rewrite upd_other, upd_same by discriminate; reflexivity|].
    intros t k Hp. cbv beta. destruct (C t k Hp) as (st & _ & _ & ->). reflexivity.
  - eexists. split; [unfold var2; rewrite upd_same; reflexivity|].
    intros t k Hp. cbv beta. destruct (C t k Hp) as (st & E & -> & ->). rewrite E. cbn [xadd]. apply (f_equal XF). ring.
Qed.

Lemma vapour_negligible ins q p t : 10 ^ 9 <= freq ins -> 200 <= r_d ins -> 0 <= q <= 1 / 10 -> 0 < p <= 2000 -> 100 <= t ->
  exists w, kappa_wv ins (XF q) (XF p) (XF t) = XF w /\ 12 / 10 ^ 7 <= w <= 121 / 10 ^ 8.
Proof.
  intros Hf Hr Hq Hp Ht. eexists. split; [apply kappa_wv_value; lra|].
  unfold wv_stored, wv_width.
  assert (T3 : 0 < 300 / t <= 3).
  { split; [apply div_pos; lra|]. apply Rmult_le_reg_r with t; [lra|]. replace (300 / t * t) with 300 by (field; lra). lra. }
  assert (RP : 0 < Rpower (300 / t) (626 / 1000) <= 3).
  { split; [apply Rpower_pos|]. apply Rle_trans with (Rmax 1 (300 / t)); [apply Rpower_le_id; lra|]. apply Rmax_lub; lra. }
  assert (RB : 0 < Rpower (300 / t) (3 / 2) <= 9).
  { split; [apply Rpower_pos|]. replace (3 / 2) with (1 + 1 / 2) by field. rewrite Rpower_plus, Rpower_1 by lra.
    assert (0 < Rpower (300 / t) (1 / 2) <= 3).
    { split; [apply Rpower_pos|]. apply Rle_trans with (Rmax 1 (300 / t)); [apply Rpower_le_id; lra|]. apply Rmax_lub; lra. }
    nra. }
  assert (EX : 0 < exp (-644 / t) <= 1).
  { split; [apply exp_pos|]. rewrite <- exp_0. apply exp_mono.
    replace (-644 / t) with (- (644 / t)) by (field; lra). assert (0 < 644 / t) by (apply div_pos; lra). lra. }
  set (W := vapour_content ins q p t).
  assert (Q1 : 0 <= W * t / p <= 50).
  { replace (W * t / p) with (100000 * q / r_d ins) by (unfold W, vapour_content; field; lra). split.
    - apply div_nonneg; lra.
    - apply Rmult_le_reg_r with (r_d ins); [lra|]. replace (100000 * q / r_d ins * r_d ins) with (100000 * q) by (field; lra). lra. }
  assert (HW : 0 <= W <= 1000).
  { replace W with (W * t / p * (p / t)) by (field; lra).
    assert (0 < p / t <= 20).
    { split; [apply div_pos; lra|]. apply Rmult_le_reg_r with t; [lra|]. replace (p / t * t) with p by (field; lra). lra. }
    split; [apply Rmult_le_pos; lra|]. apply Rle_trans with (50 * 20); [apply Rmult_le_compat; lra|lra]. }
  set (f := freq ins) in *. pose proof (line_denominator f) as PD. set (D := (4944 / 10 - f ^ 2) ^ 2 + 4 * f ^ 2) in *.
  set (A := Rpower (300 / t) (626 / 1000)) in *. set (B := Rpower (300 / t) (3 / 2)) in *. set (E := exp (-644 / t)) in *.
  set (T := 300 / t) in *.
  replace (285 / 100 * (p / 1013) * A * (1 + 18 / 1000 * W * t / p)) with (285 / 100 * (p / 1013) * A * (1 + 18 / 1000 * (W * t / p)))
    by (field; lra).
  set (U := W * t / p) in *.
  assert (HG : 0 < 285 / 100 * (p / 1013) * A * (1 + 18 / 1000 * U) <= 33).
  { assert (0 < p / 1013 <= 1975 / 1000) by lra. set (a := p / 1013) in *. set (b := 1 + 18 / 1000 * U).
    assert (1 <= b <= 19 / 10) by (unfold b; lra).
    split; [repeat apply Rmult_lt_0_compat; lra|].
    apply Rle_trans with (285 / 100 * (1975 / 1000) * 3 * (19 / 10)); [|lra].
    apply Rmult_le_compat; [| lra | | lra].
    - apply Rmult_le_pos; [|lra]. lra.
    - apply Rmult_le_compat; lra. }
  set (G := 285 / 100 * (p / 1013) * A * (1 + 18 / 1000 * U)) in *.
  clearbody G E B W T A U.
  assert (F2 : 10 ^ 18 <= f ^ 2).
  { replace (10 ^ 18) with (10 ^ 9 * 10 ^ 9) by ring. replace (f ^ 2) with (f * f) by ring. apply Rmult_le_compat; lra. }
  assert (DB : 81 / 100 * (f ^ 2 * f ^ 2) <= D).
  { unfold D. set (x := f ^ 2) in *. nra. }
  set (x := f ^ 2) in *. clearbody D. clearbody x.
  assert (HN : 0 <= W * B * G * T * E * G ^ 2 <= 1000 * 9 * 33 * 3 * 1 * 33 ^ 2).
  { assert (0 <= G ^ 2 <= 33 ^ 2) by nra.
    split; [repeat apply Rmult_le_pos; lra|].
    apply Rmult_le_compat; [repeat apply Rmult_le_pos; lra|lra| |lra].
    apply Rmult_le_compat; [repeat apply Rmult_le_pos; lra|lra| |lra].
    apply Rmult_le_compat; [repeat apply Rmult_le_pos; lra|lra| |lra].
    apply Rmult_le_compat; [repeat apply Rmult_le_pos; lra|lra| |lra].
    apply Rmult_le_compat; lra. }
  set (N := W * B * G * T * E * G ^ 2) in *.
  replace (4 * x * W * B * G * T * E * G ^ 2 / D) with (4 * x * N / D) by (unfold N; field; lra).
  clearbody N.
  assert (0 <= 4 * x * N / D <= 1 / 10 ^ 8); [|lra].
  split; [apply div_nonneg; [apply Rmult_le_pos; lra|lra]|].
  apply Rmult_le_reg_r with D; [exact PD|]. replace (4 * x * N / D * D) with (4 * x * N) by (field; lra).
  apply Rle_trans with (1 / 10 ^ 8 * (81 / 100 * (x * x))); [|lra].
  replace (1 / 10 ^ 8 * (81 / 100 * (x * x))) with (x * (81 / 10 ^ 10 * x)) by (field; lra).
  replace (4 * x * N) with (x * (4 * N)) by ring. apply Rmult_le_compat_l; lra.
Qed.

(** At the water vapour line, with 10 g m-3. *)
Lemma exp_INR n x : exp (INR n * x) = exp x ^ n.
Proof.
  induction n as [|n IH]; [simpl; rewrite Rmult_0_l; apply exp_0|].
  rewrite S_INR, Rmult_plus_distr_r, Rmult_1_l, exp_plus, IH. simpl. ring.
Qed.
Lemma exp_vapour : 9 / 100 <= exp (-644 / 300).
Proof.
  replace (-644 / 300) with (INR 16 * (-644 / 4800)) by (simpl; lra).
  rewrite exp_INR. pose proof (exp_ineq1_le (-644 / 4800)). set (x := exp (-644 / 4800)) in *. clearbody x.
  apply Rle_trans with ((1 + -644 / 4800) ^ 16); [lra|]. apply pow_incr. lra.
Qed.
Lemma Rpower_one y : Rpower 1 y = 1.
Proof. unfold Rpower. rewrite ln_1, Rmult_0_r. apply exp_0. Qed.
Lemma wv_at_22 : 15 / 100 <= wv_absorption (22235 / 1000) 1013 300 10.
Proof.
  unfold wv_absorption, wv_width. replace (300 / 300) with 1 by field. rewrite !Rpower_one.
  pose proof exp_vapour as E. set (X := exp (-644 / 300)) in *. clearbody X.
  set (g := 285 / 100 * (1013 / 1013) * 1 * (1 + 18 / 1000 * 10 * 300 / 1013)).
  assert (G : 3 <= g <= 301 / 100) by (unfold g; lra). clearbody g.
  set (D := (4944 / 10 - (22235 / 1000) ^ 2) ^ 2 + 4 * (22235 / 1000) ^ 2 * g ^ 2).
  assert (HD : 0 < D <= 18000) by (unfold D; nra). clearbody D.
  assert (Q : 5 / 10 ^ 6 <= 1 * X / D).
  { apply Rmult_le_reg_r with D; [lra|]. replace (1 * X / D * D) with X by (field; lra). lra. }
  set (Y := 1 * X / D) in *. clearbody Y. nra.
Qed.
