(** Values of the molecular fields. *)
From Verif Require Import Mom_Base Mom_Spec Mom_Facts Xr_Facts Atm_Model Atm_Spec Atm_Facts.
Local Open Scope R_scope.

Lemma molecules_Ns p t : - (27315/100) < t -> molecules p t = Ns p t / (/ 10 ^ 6).
Proof. intro H. unfold molecules, Ns. replace (10 ^ 6) with 1000000 by ring. field. lra. Qed.

Lemma refractivity_m lam p t m : no_pole lam -> - (27315/100) < t ->
  m = (64328/10 + 2949810 / (146 - 1/lam * (1/lam)) + 25540 / (41 - 1/lam * (1/lam))) * / 10 ^ 8
       * ((1 + 366/100000 * 15) / (1 + 366/100000 * t)) * (p / (101325/100)) -> m = refractivity lam p t.
Proof.
  intros (L0 & _) H ->. unfold refractivity, dispersion_15C.
  replace (1 / lam * (1 / lam)) with (/ lam ^ 2) by (field; lra). unfold Rdiv. ring.
Qed.

Lemma sigma_value lam p t : no_pole lam -> 0 < p -> - (27315/100) < t ->
  sigma_mol lam (XF p) (XF t) = XF (rayleigh (1 + refractivity lam p t) (molecules p t) (lam / 10 ^ 6)).
Proof.
  intros L P T. destruct (ns_fin lam p t L T) as (m & En & Em). apply refractivity_m in Em; [|assumption..].
  assert (L0 := proj1 L). pose proof (Ns_pos p t P T) as NP.
  unfold sigma_mol. cbv zeta. unfold den4. rewrite En, Ns_fin by exact T. unfold xsq, xsub. cbn [xmul xadd xopp].
  rewrite molecules_Ns by exact T. rewrite <- Em. set (n := Ns p t) in *. clearbody n.
  assert (D0 : 0 < (lam * / 10 ^ 4) ^ 4).
  { apply pow_lt. apply Rmult_lt_0_compat; [exact L0|]. apply Rinv_0_lt_compat, pow_lt; lra. }
  assert (nDn : 0 < n * (lam * / 10 ^ 4) ^ 4 * n) by (apply Rmult_lt_0_compat; [apply Rmult_lt_0_compat|]; assumption).
  rewrite xdiv_fin by lra. cbn [xmul]. apply (f_equal XF). unfold rayleigh, c_king, raw_n.
  replace (10 ^ 4) with 10000 by ring. replace (10 ^ 6) with 1000000 by ring.
  set (p3 := PI ^ 3). clearbody p3. clear - NP L0. field. lra.
Qed.

Lemma molecular_values e lam sfc s P T Z : no_pole lam -> atmosphere e s P T Z ->
  exists s', calc_theory_beta_m e lam sfc s = (Ok tt, s') /\
   unchanged_except ["tau"; "u_atm"; "beta"; "sigma_180_vol"; "sigma_180"; "sigma"; "kappa"; "N_s"; "n_s"]%string s s' /\
   real2 e s' "n_s" (fun t k => 1 + refractivity lam (P t k) (T t k)) /\
   real2 e s' "N_s" (fun t k => molecules (P t k) (T t k)) /\
   real2 e s' "sigma" (fun t k =>
     rayleigh (1 + refractivity lam (P t k) (T t k)) (molecules (P t k) (T t k)) (lam / 10 ^ 6)).
Proof.
  intros L ((pr & Hp & Vp) & (tr & Ht & Vt) & (zr & Hz & Vz) & PP & TT & ZZ).
  unfold calc_theory_beta_m.
  rewrite (bind_rd _ _ _ pr) by (apply g2_var; exact Hp).
  rewrite (bind_rd _ _ _ tr) by (apply g2_var; exact Ht).
  rewrite (bind_rd _ _ _ zr) by (apply g2_var; exact Hz). cbv zeta.
  repeat rewrite bind_assign. rewrite assign_eq. eexists. split; [reflexivity|].
  split.
  { intros x Hx. rewrite !upd_other; [reflexivity|..]; intro EE; apply Hx; simpl; intuition congruence. }
  split; [|split]; eexists; (split; [unfold var2; repeat first [apply upd_same | rewrite upd_other by discriminate]|]);
    cbv beta; intros t k Q; rewrite Vp, Vt by exact Q.
  - destruct (ns_fin lam (P t k) (T t k) L (TT t k Q)) as (m & En & Em). apply refractivity_m in Em; auto.
    rewrite En, Em. apply (f_equal XF). ring.
  - rewrite Ns_fin by auto. rewrite xdiv_fin by (replace (10 ^ 6) with 1000000 by ring; lra).
    rewrite molecules_Ns by auto. reflexivity.
  - apply sigma_value; auto.
Qed.
