(** A missing extinction at one level hides the hydrometeors of the whole
    path (bulk method), and the frequency in the gaseous attenuation. *)
From Verif Require Import Mom_Base Mom_Spec Mom_Facts Xr_Facts Sched_Model Atm_Model Psd_Model Lidar_Model
  Lidar_Spec Lidar_Od Lidar_Api Lidar_Perm Lidar_Corol Radar_Model Radar_Spec Radar_Total Radar_Att Radar_Loop
  Radar_Api Radar_Corol Radar_Gas.
Local Open Scope R_scope.

Lemma xadd_nan_l x : xadd XNaN x = XNaN. Proof. destruct x; reflexivity. Qed.
Lemma xadd_nan_r x : xadd x XNaN = XNaN. Proof. destruct x; reflexivity. Qed.
Lemma xmul_nan_l x : xmul XNaN x = XNaN. Proof. destruct x; reflexivity. Qed.
Lemma xmul_nan_r x : xmul x XNaN = XNaN. Proof. destruct x; reflexivity. Qed.
Lemma xsum_nan l : In XNaN l -> xsum l = XNaN.
Proof.
  induction l as [|x l IH]; [intros []|]. intros [->|H]; rewrite xsum_cons; [apply xadd_nan_l|].
  rewrite IH by exact H. apply xadd_nan_r.
Qed.
Lemma cumsum_nan l j k : (j <= k)%nat -> (k < length l)%nat -> nth j l XNaN = XNaN -> nth k (cumsum l) XNaN = XNaN.
Proof.
  intros Hjk Hk Hj. induction k as [|k IH].
  - assert (j = 0)%nat by lia. subst. rewrite nth_cumsum_0 by exact Hk. exact Hj.
  - rewrite nth_cumsum_S by exact Hk. destruct (Nat.eq_dec j (S k)) as [->|N].
    + rewrite Hj. apply xadd_nan_r.
    + rewrite IH by lia. apply xadd_nan_l.
Qed.
Lemma rev_cumsum_nan l j k : (k <= j)%nat -> (j < length l)%nat -> nth j l XNaN = XNaN ->
  nth k (rev (cumsum (rev l))) XNaN = XNaN.
Proof.
  intros Hkj Hj H. remember (j - k)%nat as m eqn:Em. revert k Hkj Em.
  induction m as [|m IH]; intros k Hkj Em.
  - assert (j = k) by lia. subst j. destruct (Nat.eq_dec (S k) (length l)) as [E|N].
    + rewrite nth_rev_cumsum_last by exact E. exact H.
    + rewrite nth_rev_cumsum_S by lia. rewrite H. apply xadd_nan_r.
  - rewrite nth_rev_cumsum_S by lia. rewrite IH by lia. apply xadd_nan_l.
Qed.
Lemma od_profile_nan sfc z a n j k : length z = n -> length a = n -> (j < n)%nat -> (k < n)%nat ->
  nearer sfc j k -> nth j a XNaN = XNaN -> nth k (od_profile sfc z a) XNaN = XNaN.
Proof.
  intros Lz La Hj Hk N H. unfold od_profile, nearer in *. destruct sfc.
  - apply cumsum_nan with (j := S j); [lia| |].
    + rewrite length_zmul. unfold diff_prepend. rewrite length_diff_from. cbn [length].
      rewrite length_removelast. lia.
    + unfold diff_prepend. rewrite nth_zmul by (rewrite ?length_diff_from; cbn [length]; rewrite ?length_removelast; lia).
      cbn [nth]. rewrite nth_removelast by lia. rewrite H. apply xmul_nan_r.
  - apply rev_cumsum_nan with (j := (j - 1)%nat); [lia| |].
    + rewrite length_zmul, length_diff_append, app_length, length_tl. simpl. lia.
    + rewrite nth_zmul by (rewrite ?length_diff_append, ?app_length, ?length_tl; simpl; lia).
      rewrite app_nth1 by (rewrite length_tl; lia). rewrite nth_tl.
      replace (S (j - 1)) with j by lia. rewrite H. apply xmul_nan_r.
Qed.

Lemma bulk_absent_nan e ins c mie p z h s x b i t k : size_table e h -> varb s (fn c h) b -> b i t k = false ->
  bulk_con e ins c mie p z h s = Ok x -> fst x i t k = XNaN.
Proof.
  intros ST Vb Fb E. unfold bulk_con in E.
  destruct (bulk_area e ins c mie p z h no_locals s) as [[l1 [[ar re] fl]]|] eqn:EA; [|discriminate E].
  cbn [bind] in E.
  assert (Efl : fl = b).
  { clear E. unfold bulk_area in EA. destruct (last_is_l h) as [isl|]; [|discriminate EA]. cbn [bind] in EA.
    match type of EA with (do br <- ?X; _) = _ => destruct X as [[l' [rad own]]|] end; [|discriminate EA].
    cbn [bind] in EA. rewrite (gb_var _ _ _ Vb) in EA. cbn [bind] in EA.
    destruct rad as [[rb r]|]; [|destruct own].
    - destruct (g3 s (qn c h)) as [q|]; [|discriminate EA]. cbn [bind] in EA. injection EA. congruence.
    - injection EA. congruence.
    - discriminate EA. }
  subst fl.
  destruct (bulk_eff e ins "p3_liq" mie h re b l1 s) as [[l2 [qe qb]]|] eqn:EE; [|discriminate E].
  cbn [bind] in E.
  destruct (g3 s (qn c (dims_of e h))); [|discriminate E]. cbn [bind] in E. injection E as <-. cbn [fst].
  unfold lift2. enough (qe i t k = XNaN) as -> by apply xmul_nan_l.
  unfold bulk_eff in EE. destruct (bulk_luts "p3_liq" (rad_family e)) as [[ice liq]|]; [|discriminate EE].
  cbn [bind] in EE. destruct ST as [[Hf Hh]|[Hf ->]].
  - assert (EM : memb h ["cl"; "pl"]%string = true) by (apply memb_in; exact Hh).
    assert (EI : memb h ice_classes = false).
    { destruct Hh as [<-|[<-|[]]]; reflexivity. }
    assert (EF : (String.eqb (rad_family e) "CESM" || String.eqb (rad_family e) "P3")%bool = true).
    { destruct Hf as [->| ->]; reflexivity. }
    rewrite EI, EM, EF in EE. cbn [andb negb] in EE.
    destruct (dict (bulk_table ins) liq) as [tb|]; [|discriminate EE]. cbn [bind] in EE.
    destruct (l_lammu l1) as [[la mu]|]; [|discriminate EE]. injection EE as _ <- _. rewrite Fb. reflexivity.
  - rewrite Hf in EE. cbn [String.eqb Ascii.eqb Bool.eqb] in EE.
    change (memb "ci" ice_classes && String.eqb "P3" "P3") with true in EE. cbn iota in EE.
    change (String.eqb "ci" "ci") with true in EE. cbn iota in EE.
    destruct (p3_inputs e s) as [[[[fr rr] qn'] ni]|]; [|discriminate EE]. cbn [bind] in EE.
    destruct mie; injection EE as _ <- _; rewrite Fb; reflexivity.
Qed.

(** C58 *)
Lemma bulk_absent_hides Gam e ins o c hs h s s1 b i t j k :
  radar_tables_ok e c -> r_emp o = false -> r_rad o || c = true -> plain hs ->
  (forall h', In h' hs -> self_contained e h') ->
  In h hs -> size_table e h -> varb s (fn c h) b -> b i t j = false ->
  cell e i t j -> cell e i t k -> nearer (r_sfc o) j k ->
  calc_radar_moments Gam e ins (radar_hyds o hs) c s = (Ok tt, s1) ->
  value s1 (hyd_ext_name c) i t k = XNaN /\
  forall d A TA, value s1 (out "Ze" "tot" c) i t k = XF d ->
    var2 s1 "atm_ext" A -> A t k = XF TA -> 0 < TA ->
    value s1 (out "Ze_att" "tot" c) i t k = XF (d + 10 * (ln TA / ln 10)).
Proof.
  intros TB Ee Er PL SC Hh ST Vb Fb Hj Hk N E.
  assert (NM : not_micro_r o c = true) by (unfold not_micro_r; rewrite Ee; exact Er).
  destruct (radar_leaves Gam e ins (radar_hyds o hs) c hs s s1 TB NM PL (fun h H => or_intror (SC h H)) eq_refl E)
    as (q & pr & tr & zr & s0 & atm & F & El & Hq & Hp & Ht & Hz & Ea & Ha & RD & HC & L1).
  destruct L1 as (_ & _ & (zt & A3 & A3') & (za & A4 & A4') & A5 & A6 & _).
  cbn [r_sfc r_emp radar_hyds] in *.
  assert (EN : hyd_T e (r_sfc o) (r_emp o) (fun t k => z_met e (zr t k)) (hyd_of e ins (radar_hyds o hs) hs F) i t k = XNaN).
  { rewrite Ee. unfold hyd_T, map3, of_prof3. destruct Hj as (L1 & L2 & L3). destruct Hk as (_ & _ & L4).
    rewrite (od_profile_nan (r_sfc o) _ _ (nht e) j k); auto using length_prof2, length_prof3.
    rewrite nth_prof3 by exact L3.
    unfold hyd_of. cbn [r_emp radar_hyds]. rewrite Ee, fold_lift2.
    rewrite xsum_nan; [rewrite xadd_nan_r; apply xmul_nan_l|].
    rewrite map_map. apply in_map_iff. exists h. split; [|exact Hh].
    specialize (HC h Hh). unfold rcon in HC. cbn [r_emp radar_hyds] in HC. rewrite Ee in HC.
    exact (bulk_absent_nan e ins c _ _ _ h s _ b i t j ST Vb Fb HC). }
  split.
  - unfold value. rewrite A5. exact EN.
  - intros d A TA Ed VA Et PT. red in VA, A6. rewrite A6 in VA. injection VA as <-.
    unfold value in *. rewrite A3 in Ed. rewrite A4, A4'.
    rewrite A3' in Ed. unfold ze_att. rewrite EN, Et. cbn [fillna].
    destruct (xsum (map (fun h0 => fillna 0 (snd (F h0) i t k)) hs)) as [r| | |]; simpl in Ed; try discriminate Ed.
    unfold dBZ in Ed. destruct (Rlt_dec 0 r) as [Pr|]; [|discriminate Ed]. injection Ed as <-.
    cbn [xmul to_dBZ]. unfold dBZ.
    destruct (Rlt_dec 0 (r * 1 * TA)) as [P|P].
    + apply (f_equal XF). rewrite Rmult_1_r, ln_mult by assumption. field. pose proof ln10_pos. lra.
    + exfalso. apply P. rewrite Rmult_1_r. apply Rmult_lt_0_compat; assumption.
Qed.

(** *** The frequency of the oxygen attenuation *)
Lemma Rpower_le_id x y : 0 < x -> 0 <= y <= 1 -> Rpower x y <= Rmax 1 x.
Proof.
  intros Hx [H0 H1]. destruct (Rle_lt_dec 1 x) as [L|L].
  - rewrite Rmax_right by exact L. rewrite <- (Rpower_1 x) at 2 by exact Hx.
    unfold Rpower. apply exp_mono. apply Rmult_le_compat_r; [|lra].
    rewrite <- ln_1. apply ln_le_mono; lra.
  - rewrite Rmax_left by lra. rewrite <- exp_0. unfold Rpower. apply exp_mono.
    assert (ln x <= 0) by (rewrite <- ln_1; apply ln_le_mono; lra). nra.
Qed.
Lemma inv_bounds f2 d e : 0 < d -> 0 < f2 -> (1 - e) * d <= f2 <= (1 + e) * d -> 1 - e <= f2 * (1 / d) <= 1 + e.
Proof.
  intros Hd Hf [L U]. replace (f2 * (1 / d)) with (f2 / d) by (field; lra). split.
  - apply Rmult_le_reg_r with d; [exact Hd|]. replace (f2 / d * d) with f2 by (field; lra). exact L.
  - apply Rmult_le_reg_r with d; [exact Hd|]. replace (f2 / d * d) with f2 by (field; lra). exact U.
Qed.
Lemma o2_frequency_free ins p praw t : 10 ^ 9 <= freq ins -> 0 < p <= 2000 -> 0 < praw -> p <= praw \/ p <= 600 -> 100 <= t ->
  exists w, kappa_o2 ins (XF p) (XF praw) (XF t) = XF w /\
  (1 - / 10 ^ 6) * o2_high p praw t <= w <= (1 + / 10 ^ 6) * o2_high p praw t.
Proof.
  intros Hf [Hp Hp2] Hpr0 Hpr Ht.
  unfold o2_high, o2_width.
  set (g := if Rlt_dec praw 25 then 118 / 100 else if Rle_dec 333 praw then 59 / 100
            else 59 / 100 * (1 + 31 / 10000 * (333 - p))).
  assert (G0 : gamma_0 (XF p) (XF praw) = XF g).
  { unfold gamma_0, g. simpl. unfold Rltb, Rleb. destruct (Rlt_dec praw 25); [reflexivity|].
    destruct (Rle_dec 333 praw); reflexivity. }
  assert (Hg : 0 < g <= 2).
  { unfold g. destruct (Rlt_dec praw 25); [lra|]. destruct (Rle_dec 333 praw); [lra|]. lra. }
  unfold kappa_o2. rewrite G0.
  rewrite (xdiv_fin 300) by lra. rewrite (xdiv_fin p) by lra.
  assert (T3 : 0 < 300 / t <= 3).
  { split; [apply div_pos; lra|]. apply Rmult_le_reg_r with t; [lra|]. replace (300 / t * t) with 300 by (field; lra). lra. }
  rewrite xpow_fin by apply T3. cbn [xmul]. set (GL := g * (p / 1013) * Rpower (300 / t) (85 / 100)).
  assert (RP : 0 < Rpower (300 / t) (85 / 100) <= 3).
  { split; [apply Rpower_pos|]. apply Rle_trans with (Rmax 1 (300 / t)); [apply Rpower_le_id; lra|].
    apply Rmax_lub; lra. }
  assert (GP : 0 < GL <= 20).
  { unfold GL. assert (0 < p / 1013 <= 2) by lra. set (a := p / 1013) in *. set (b := Rpower (300 / t) (85 / 100)) in *.
    split; [repeat apply Rmult_lt_0_compat; lra|].
    assert (g * a <= 4) by nra. assert (0 < g * a) by (apply Rmult_lt_0_compat; lra). nra. }
  unfold xsq, xsub. cbn [xadd xmul xopp]. set (f := freq ins) in *.
  assert (G2 : 0 < GL * GL <= 400) by (split; [apply Rmult_lt_0_compat; lra|nra]).
  pose proof (sq_nonneg f) as F0. pose proof (sq_nonneg (f + - (60))) as F1.
  rewrite !xdiv_fin by lra. cbn [xmul xadd].
  eexists. split; [reflexivity|].
  assert (F2 : 10 ^ 18 <= f * f).
  { replace (10 ^ 18) with (10 ^ 9 * 10 ^ 9) by ring. apply Rmult_le_compat; lra. }
  assert (B1 : 1 - / 10 ^ 6 <= f * f * (1 / ((f + - (60)) * (f + - (60)) + GL * GL)) <= 1 + / 10 ^ 6).
  { apply inv_bounds; [lra|lra|]. split.
    - assert ((f + - (60)) * (f + - (60)) <= f * f) by nra. lra.
    - assert (f * f <= (1 + / 10 ^ 6) * ((f + - (60)) * (f + - (60)))).
      { set (h := f + - (60)). replace f with (h + 60) by (unfold h; ring).
        assert (9 * 10 ^ 8 <= h) by (unfold h; lra). nra. }
      lra. }
  assert (B2 : 1 - / 10 ^ 6 <= f * f * (1 / (f * f + GL * GL)) <= 1 + / 10 ^ 6).
  { apply inv_bounds; [lra|lra|]. split; lra. }
  set (X := 1 / ((f + - (60)) * (f + - (60)) + GL * GL)) in *. set (Y := 1 / (f * f + GL * GL)) in *.
  set (C := 11 / 1000 * (p / 1013) * (300 / t * (300 / t)) * GL).
  assert (PC : 0 < C) by (unfold C; repeat apply Rmult_lt_0_compat; lra).
  replace (11 / 1000 * (f * f) * (p / 1013) * (300 / t * (300 / t)) * GL * (X + Y))
    with (C * (f * f * X + f * f * Y)) by (unfold C; ring).
  fold GL.
  replace (22 / 1000 * (p / 1013) * (300 / t) ^ 2 * GL) with (C * 2) by (unfold C; clearbody GL; field; lra).
  split; [apply Rle_trans with (C * (2 * (1 - / 10 ^ 6))); [lra|]|apply Rle_trans with (C * (2 * (1 + / 10 ^ 6))); [|lra]];
    apply Rmult_le_compat_l; lra.
Qed.

(** At the oxygen line itself. *)
Lemma o2_at_60 : 60 <= o2_absorption 60 1013 1013 300 /\ o2_high 1013 1013 300 <= 13 / 1000.
Proof.
  assert (W : o2_width 1013 1013 300 = 59 / 100).
  { unfold o2_width. destruct (Rlt_dec 1013 25); [lra|]. destruct (Rle_dec 333 1013); [|lra].
    replace (300 / 300) with 1 by field. unfold Rpower. rewrite ln_1, Rmult_0_r, exp_0. field. }
  unfold o2_absorption, o2_high. rewrite W. cbv zeta. split; [|lra].
  assert (0 < 1 / (60 ^ 2 + (59 / 100) ^ 2)).
  { apply div_pos; [lra|]. nra. }
  replace (1 / ((60 - 60) ^ 2 + (59 / 100) ^ 2)) with (10000 / 3481) by field.
  replace (300 / 300) with 1 by field. replace (1013 / 1013) with 1 by field.
  set (x := 1 / (60 ^ 2 + (59 / 100) ^ 2)) in *. lra.
Qed.
