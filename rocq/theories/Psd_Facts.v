(** Facts about the fitted gamma distributions. *)
From Verif Require Import Mom_Base Mom_Spec Mom_Facts Xr_Facts Psd_Model Psd_Spec Psd_Int.
Local Open Scope R_scope.

Lemma mu_lambda_inv Gam e kw h conv s s' :
  calc_mu_lambda Gam e kw h conv s = (Ok tt, s') ->
  exists q n rh, var3 s (qn conv h) q /\ var3 s (nn conv h) n /\
    (forall t k r, density_at e s h t k r -> rh t k = XF r) /\
    var3 s' "mu" (fun i t k => mu_cell e kw h conv (n i t k)) /\
    var3 s' "lambda" (fun i t k => lambda_cell Gam (rh t k) (n i t k) (q i t k) (mu_cell e kw h conv (n i t k))) /\
    var3 s' "N_0" (fun i t k => n0_cell Gam (n i t k)
       (lambda_cell Gam (rh t k) (n i t k) (q i t k) (mu_cell e kw h conv (n i t k)))
       (mu_cell e kw h conv (n i t k))).
Proof.
  unfold calc_mu_lambda. intros H.
  apply rd_bind_inv in H. destruct H as (q & Eq & H). apply g3_ok in Eq.
  apply rd_bind_inv in H. destruct H as (n & En & H). apply g3_ok in En.
  apply rd_bind_inv in H. destruct H as (rh & Er & H).
  exists q, n, rh. split; [exact Eq|]. split; [exact En|]. split.
  - intros t k r D. unfold dict in Er. destruct D as [D|[D (v & g & V & W & G)]]; rewrite D in Er.
    + cbn in Er. injection Er as <-. reflexivity.
    + cbn in Er. rewrite V in Er. cbn in Er. rewrite (g2_var _ _ _ W) in Er. injection Er as <-. exact G.
  - rewrite !bind_assign in H. rewrite assign_eq in H. injection H as <-.
    unfold var3. split; [|split].
    + rewrite !upd_other by discriminate. apply upd_same.
    + rewrite upd_other by discriminate. apply upd_same.
    + apply upd_same.
Qed.

Lemma lambda_fin Gam rh n q mu : 0 < rh -> 0 < n -> 0 < q -> 0 < Gam (mu + 1) -> 0 < Gam (mu + 4) ->
  exists lam, lambda_cell Gam (XF rh) (XF n) (XF q) (XF mu) = XF lam /\ 0 < lam /\
    Rpower lam 3 = PI * rh / 6 * n * 10 ^ 6 * Gam (mu + 4) / (q * Gam (mu + 1)).
Proof.
  intros hr hn hq h1 h4. pose proof PI_RGT_0 as hpi.
  set (B := PI * rh / 6 * n * 10 ^ 6 * Gam (mu + 4) / (q * Gam (mu + 1))).
  assert (hd : 0 < q * Gam (mu + 1)) by (apply Rmult_lt_0_compat; assumption).
  assert (hB : 0 < B).
  { unfold B. apply Rdiv_lt_0_compat; [|exact hd].
    assert (a1 : 0 < PI * rh) by (apply Rmult_lt_0_compat; assumption).
    assert (a2 : 0 < PI * rh / 6) by lra.
    assert (a3 : 0 < PI * rh / 6 * n) by (apply Rmult_lt_0_compat; assumption).
    apply Rmult_lt_0_compat; [lra|exact h4]. }
  exists (Rpower B (1 / 3)). split; [|split].
  - unfold lambda_cell.
    rewrite (proj2 (xltb_fin 0 q) hq).
    change (xmul (XF PI) (XF rh)) with (XF (PI * rh)). rewrite xdiv_fin by lra.
    cbn [xadd xgam xmul]. replace (mu + 3 + 1) with (mu + 4) by ring.
    rewrite xdiv_fin by lra. fold B. rewrite xpow_fin by exact hB. reflexivity.
  - apply exp_pos.
  - rewrite Rpower_mult. replace (1 / 3 * 3) with 1 by field. apply Rpower_1. exact hB.
Qed.

Lemma n0_fin Gam n lam mu : 0 < lam -> 0 < Gam (mu + 1) ->
  n0_cell Gam (XF n) (XF lam) (XF mu) = XF (n * 10 ^ 6 * Rpower lam (mu + 1) / Gam (mu + 1)).
Proof.
  intros hl hg. unfold n0_cell. cbn [xadd xgam xmul]. rewrite xpow_fin by exact hl. cbn [xmul].
  rewrite xdiv_fin by lra. reflexivity.
Qed.

Lemma fit_moments Gam rh n q mu : 0 < rh -> 0 < n -> 0 < q ->
  gamma_value (mu + 1) (Gam (mu + 1)) -> gamma_value (mu + 4) (Gam (mu + 4)) ->
  exists lam n0, lambda_cell Gam (XF rh) (XF n) (XF q) (XF mu) = XF lam /\ 0 < lam /\
    n0_cell Gam (XF n) (XF lam) (XF mu) = XF n0 /\
    integral_to_infinity (gamma_psd n0 lam mu) (n * 10 ^ 6) /\
    integral_to_infinity (fun D => sphere_mass rh D * gamma_psd n0 lam mu D) q.
Proof.
  intros hr hn hq g1 g4.
  pose proof (gamma_value_pos _ _ g1) as p1. pose proof (gamma_value_pos _ _ g4) as p4.
  destruct (lambda_fin Gam rh n q mu hr hn hq p1 p4) as (lam & El & hl & hc).
  set (n0 := n * 10 ^ 6 * Rpower lam (mu + 1) / Gam (mu + 1)).
  exists lam, n0. split; [exact El|]. split; [exact hl|]. split; [apply n0_fin; assumption|].
  assert (hp : Rpower lam (mu + 1) <> 0) by (apply Rgt_not_eq, exp_pos).
  assert (hp3 : Rpower lam 3 <> 0) by (apply Rgt_not_eq, exp_pos).
  split.
  - replace (n * 10 ^ 6) with (n0 * Gam (mu + 1) / Rpower lam (mu + 0 + 1)).
    + apply (integral_ext (fun D => Rpower D 0 * gamma_psd n0 lam mu D)).
      * intros D hD. rewrite Rpower_O by exact hD. ring.
      * apply gamma_moment; [exact hl|]. rewrite Rplus_0_r. exact g1.
    + unfold n0. rewrite Rplus_0_r. field. split; first [exact hp|lra].
  - replace q with (PI * rh / 6 * (n0 * Gam (mu + 4) / Rpower lam (mu + 3 + 1))).
    + apply (integral_ext (fun D => PI * rh / 6 * (Rpower D 3 * gamma_psd n0 lam mu D))).
      * intros D hD. unfold sphere_mass. ring.
      * apply integral_scal. apply gamma_moment; [exact hl|].
        replace (mu + 3 + 1) with (mu + 4) by ring. exact g4.
    + unfold n0. replace (mu + 3 + 1) with ((mu + 1) + 3) by ring. rewrite (Rpower_plus (mu + 1) 3 lam), hc.
      pose proof PI_RGT_0. field. repeat split; first [exact hp|lra].
Qed.

Lemma psd_identities Gam e kw h conv s s' : calc_mu_lambda Gam e kw h conv s = (Ok tt, s') ->
  forall i t k q n rh mu, value s (qn conv h) i t k = XF q -> value s (nn conv h) i t k = XF n ->
  density_at e s h t k rh -> value s' "mu" i t k = XF mu ->
  0 < q -> 0 < n -> 0 < rh ->
  gamma_value (mu + 1) (Gam (mu + 1)) -> gamma_value (mu + 4) (Gam (mu + 4)) ->
  exists lam n0, value s' "lambda" i t k = XF lam /\ value s' "N_0" i t k = XF n0 /\ 0 < lam /\
    integral_to_infinity (gamma_psd n0 lam mu) (n * 10 ^ 6) /\
    integral_to_infinity (fun D => sphere_mass rh D * gamma_psd n0 lam mu D) q.
Proof.
  intros H i t k q n rh mu Vq Vn D Vm hq hn hr g1 g4.
  destruct (mu_lambda_inv _ _ _ _ _ _ _ H) as (qa & na & ra & Eq & En & Er & Em & El & E0).
  unfold value in Vq, Vn, Vm. rewrite Eq in Vq. rewrite En in Vn. rewrite Em in Vm.
  destruct (fit_moments Gam rh n q mu hr hn hq g1 g4) as (lam & n0 & L1 & L2 & L3 & L4 & L5).
  exists lam, n0. unfold value. rewrite El, E0, Vm, Vn, Vq, (Er _ _ _ D), L1, L3. tauto.
Qed.

Lemma lambda_nan Gam rh n q mu : xltb (XF 0) q = false -> lambda_cell Gam rh n q mu = XNaN.
Proof. intros H. unfold lambda_cell. rewrite H. reflexivity. Qed.

Lemma psd_no_mass Gam e kw h conv s s' : calc_mu_lambda Gam e kw h conv s = (Ok tt, s') ->
  forall i t k, xltb (XF 0) (value s (qn conv h) i t k) = false -> value s' "lambda" i t k = XNaN.
Proof.
  intros H i t k V.
  destruct (mu_lambda_inv _ _ _ _ _ _ _ H) as (qa & na & ra & Eq & En & Er & Em & El & E0).
  unfold value in *. rewrite Eq in V. rewrite El. apply lambda_nan. exact V.
Qed.

Lemma martin_bounds lo hi n : lo <= hi -> exists mu, mu_martin lo hi (XF n) = XF mu /\ lo <= mu <= hi.
Proof.
  intros h. unfold mu_martin. cbn [xmul xadd].
  set (eta := 5714 / 10 ^ 7 * (n * / 10 ^ 6) + 2714 / 10000).
  assert (D : xsub (xdiv (XF 1) (XF (eta * eta))) (XF 1) = XP \/
              exists m, xsub (xdiv (XF 1) (XF (eta * eta))) (XF 1) = XF m).
  { simpl. destruct (Req_EM_T (eta * eta) 0); [left|right; eexists; reflexivity].
    unfold inf_of. destruct (Rlt_dec 0 1); [reflexivity|lra]. }
  destruct D as [E|[m E]]; rewrite E.
  - simpl. exists hi. split; [reflexivity|lra].
  - destruct (xltb (XF m) (XF lo)) eqn:C1.
    + destruct (xltb (XF hi) (XF lo)) eqn:C2; [apply xltb_fin in C2; lra|]. exists lo. split; [reflexivity|lra].
    + apply xltb_fin_f in C1. destruct (xltb (XF hi) (XF m)) eqn:C2.
      * exists hi. split; [reflexivity|lra].
      * apply xltb_fin_f in C2. exists m. split; [reflexivity|lra].
Qed.

Lemma shape_varies e kw : varying_shape (k_disp kw) (model_name e) -> dispersion e kw = true.
Proof.
  unfold dispersion. intros [->|[-> N]]; [reflexivity|]. destruct (memb _ _) eqn:M; [|reflexivity].
  exfalso. apply N. unfold memb in M. apply existsb_exists in M as (x & I & E). apply String.eqb_eq in E. subst x. exact I.
Qed.
Lemma shape_fixed e kw : fixed_shape (k_disp kw) (model_name e) -> dispersion e kw = false.
Proof.
  unfold dispersion. intros [->|[-> N]]; [reflexivity|]. destruct N as [<-|[<-|[]]]; reflexivity.
Qed.
Lemma psd_mu Gam e kw h conv s s' : calc_mu_lambda Gam e kw h conv s = (Ok tt, s') ->
  forall i t k n, value s (nn conv h) i t k = XF n ->
  (h = "cl"%string -> conv = false -> varying_shape (k_disp kw) (model_name e) -> k_lo kw <= k_hi kw ->
     exists mu, value s' "mu" i t k = XF mu /\ k_lo kw <= mu <= k_hi kw) /\
  (h = "cl"%string -> conv = false -> fixed_shape (k_disp kw) (model_name e) -> value s' "mu" i t k = XF (1 / (9 / 100))) /\
  (h <> "cl"%string \/ conv = true -> value s' "mu" i t k = XF 0).
Proof.
  intros H i t k n V.
  destruct (mu_lambda_inv _ _ _ _ _ _ _ H) as (qa & na & ra & Eq & En & Er & Em & El & E0).
  assert (E : value s' "mu" i t k = mu_cell e kw h conv (XF n)).
  { unfold value in *. rewrite En in V. rewrite Em, V. reflexivity. }
  rewrite E. unfold mu_cell. split; [|split].
  - intros -> -> D%shape_varies B. rewrite D. apply martin_bounds. exact B.
  - intros -> -> D%shape_fixed. rewrite D. simpl. apply (f_equal XF). field.
  - intros [N| ->].
    + destruct (String.eqb_spec h "cl"%string); [contradiction|]. reflexivity.
    + rewrite Bool.andb_false_r. reflexivity.
Qed.

(** The number concentration enters the shape parameter a million times too
    small. *)
Lemma martin_constant lo hi n : lo <= 25/2 -> 63/5 <= hi -> 0 <= n <= 10000 ->
  exists mu, mu_martin lo hi (XF n) = XF mu /\ 25/2 <= mu <= 63/5.
Proof.
  intros h1 h2 hn. unfold mu_martin. cbn [xmul xadd].
  set (eta := 5714 / 10 ^ 7 * (n * / 10 ^ 6) + 2714 / 10000).
  assert (he : 2714/10000 <= eta <= 271406/1000000) by (unfold eta; lra).
  assert (hs : 7365796/100000000 <= eta * eta <= 73661217/1000000000) by nra.
  rewrite xdiv_fin by lra. unfold xsub. cbn [xadd xopp].
  assert (hm : 25/2 <= 1 / (eta * eta) + - (1) <= 63/5).
  { split.
    - apply (Rmult_le_reg_r (eta * eta)); [lra|].
      replace ((1 / (eta * eta) + - (1)) * (eta * eta)) with (1 - eta * eta) by (field; nra). lra.
    - apply (Rmult_le_reg_r (eta * eta)); [lra|].
      replace ((1 / (eta * eta) + - (1)) * (eta * eta)) with (1 - eta * eta) by (field; nra). lra. }
  set (m := 1 / (eta * eta) + - (1)) in *.
  rewrite (proj2 (xltb_fin_f m lo)) by lra. rewrite (proj2 (xltb_fin_f hi m)) by lra.
  exists m. split; [reflexivity|exact hm].
Qed.

Lemma psd_mu_constant Gam e kw s s' : calc_mu_lambda Gam e kw "cl" false s = (Ok tt, s') ->
  varying_shape (k_disp kw) (model_name e) -> k_lo kw <= 25/2 -> 63/5 <= k_hi kw ->
  forall i t k n, value s (nn false "cl") i t k = XF n -> 0 <= n <= 10000 ->
  exists mu, value s' "mu" i t k = XF mu /\ 25/2 <= mu <= 63/5.
Proof.
  intros H D%shape_varies h1 h2 i t k n V hn.
  destruct (mu_lambda_inv _ _ _ _ _ _ _ H) as (qa & na & ra & Eq & En & Er & Em & El & E0).
  destruct (martin_constant _ _ n h1 h2 hn) as (mu & E & B). exists mu. split; [|exact B].
  unfold value in *. rewrite En in V. rewrite Em, V. unfold mu_cell. rewrite D. exact E.
Qed.

(** The exact value: the relation at a millionth of the concentration, within bounds. *)
Lemma psd_mu_value Gam e kw s s' : calc_mu_lambda Gam e kw "cl" false s = (Ok tt, s') ->
  varying_shape (k_disp kw) (model_name e) -> k_lo kw <= k_hi kw ->
  forall i t k n, value s (nn false "cl") i t k = XF n -> 0 <= n ->
  value s' "mu" i t k = XF (Rmin (k_hi kw) (Rmax (k_lo kw) (martin (n / 10 ^ 6)))).
Proof.
  intros H D%shape_varies B i t k n V hn.
  destruct (mu_lambda_inv _ _ _ _ _ _ _ H) as (qa & na & ra & Eq & En & Er & Em & El & E0).
  unfold value in *. rewrite En in V. rewrite Em, V. unfold mu_cell. rewrite D. cbn [String.eqb Ascii.eqb Bool.eqb andb negb].
  unfold mu_martin. cbn [xmul xadd]. set (eta := 5714 / 10 ^ 7 * (n * / 10 ^ 6) + 2714 / 10000).
  assert (he : 0 < eta).
  { unfold eta. assert (0 <= n * / 10 ^ 6) by (apply Rmult_le_pos; [exact hn|]; apply Rlt_le, Rinv_0_lt_compat; lra). lra. }
  rewrite xdiv_fin by nra. unfold xsub. cbn [xadd xopp].
  replace (martin (n / 10 ^ 6)) with (1 / (eta * eta) + - (1)).
  2: { unfold martin. replace (5714 / 10000000 * (n / 10 ^ 6) + 2714 / 10000) with eta by (unfold eta; lra). field. lra. }
  set (m := 1 / (eta * eta) + - (1)).
  destruct (xltb (XF m) (XF (k_lo kw))) eqn:C1.
  - apply xltb_fin in C1. rewrite Rmax_left by lra. rewrite Rmin_right by lra.
    rewrite (proj2 (xltb_fin_f (k_hi kw) (k_lo kw))) by lra. reflexivity.
  - apply xltb_fin_f in C1. rewrite Rmax_right by lra. destruct (xltb (XF (k_hi kw)) (XF m)) eqn:C2.
    + apply xltb_fin in C2. rewrite Rmin_left by lra. reflexivity.
    + apply xltb_fin_f in C2. rewrite Rmin_right by lra. reflexivity.
Qed.
