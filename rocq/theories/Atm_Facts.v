(** Molecular scattering fields. *)
From Verif Require Import Mom_Base Mom_Spec Mom_Facts Xr_Facts Atm_Model Atm_Spec.
Local Open Scope R_scope.

Lemma pow_ne0 a n : a <> 0 -> a ^ n <> 0. Proof. apply pow_nonzero. Qed.

(** Molecules per cm3. *)
Definition Ns (p t : R) : R :=
  p * 100 / (83144598/10000000 * (t + 27315/100)) * (6022140857 * 10 ^ 14) / 10 ^ 6.
Lemma Ns_fin p t : - (27315/100) < t -> N_s (XF p) (XF t) = XF (Ns p t).
Proof.
  intro H. unfold N_s. cbn [xmul xadd]. rewrite xdiv_fin by lra. cbn [xmul].
  rewrite xdiv_fin by (apply pow_ne0; lra). reflexivity.
Qed.
Lemma Ns_pos p t : 0 < p -> - (27315/100) < t -> 0 < Ns p t.
Proof.
  intros. unfold Ns. assert (0 < 10 ^ 6) by (apply pow_lt; lra). assert (0 < 10 ^ 14) by (apply pow_lt; lra).
  repeat first [apply Rmult_lt_0_compat | apply Rinv_0_lt_compat]; lra.
Qed.

Lemma ns_fin lam p t : no_pole lam -> - (27315/100) < t ->
  exists m, n_s lam (XF p) (XF t) = XF (m + 1) /\
   m = (64328/10 + 2949810 / (146 - 1/lam * (1/lam)) + 25540 / (41 - 1/lam * (1/lam))) * / 10 ^ 8
       * ((1 + 366/100000 * 15) / (1 + 366/100000 * t)) * (p / (101325/100)).
Proof.
  intros (L0 & L1 & L2) H. unfold n_s, n_ref_1. rewrite (xdiv_fin 1 lam) by lra.
  unfold xsq, xsub. cbn [xmul xopp xadd].
  repeat (rewrite xdiv_fin by lra; cbn [xadd xmul]).
  eexists. split; reflexivity.
Qed.

(** The factor (n^2 - 1)^2 shared by all fields. *)
Lemma refr_fin lam p t : no_pole lam -> - (27315/100) < t ->
  exists m, n_s lam (XF p) (XF t) = XF (m + 1) /\
   let n := n_s lam (XF p) (XF t) in
   xsq (xsub (xsq n) (XF 1)) = XF (((m + 1) * (m + 1) - 1) * ((m + 1) * (m + 1) - 1)) /\
   (1 < 41 * (lam * lam) -> 0 < p -> 0 < m).
Proof.
  intros L H. destruct (ns_fin lam p t L H) as (m & E & Em). exists m. split; [exact E|]. split.
  - cbv zeta. rewrite E. unfold xsq, xsub. cbn [xmul xopp xadd]. reflexivity.
  - intros V P. rewrite Em. destruct L as (L0 & _ & _).
    assert (Q : 1 / lam * (1 / lam) < 41).
    { replace (1 / lam * (1 / lam)) with (1 / (lam * lam)) by (field; lra).
      apply Rmult_lt_reg_r with (lam * lam); [nra|]. field_simplify; nra. }
    assert (0 < 10 ^ 8) by (apply pow_lt; lra).
    assert (0 < 1 + 366/100000 * t) by lra.
    repeat first [apply Rmult_lt_0_compat | apply Rinv_0_lt_compat]; try lra.
    assert (0 < 2949810 / (146 - 1/lam * (1/lam))) by (apply Rmult_lt_0_compat; [|apply Rinv_0_lt_compat]; lra).
    assert (0 < 25540 / (41 - 1/lam * (1/lam))) by (apply Rmult_lt_0_compat; [|apply Rinv_0_lt_compat]; lra).
    lra.
Qed.

Lemma c_king_pos : 0 < c_king. Proof. unfold c_king, raw_n. lra. Qed.
Lemma cosPI2 : cos PI * cos PI = 1. Proof. rewrite cos_PI. lra. Qed.

(** All molecular fields of a cell: cross-section [S] (m2), backscatter
    cross-section [S1] (m2) and number density [N] (m-3). *)
Record molec (lam p t B V S S1 N K : R) : Prop := {
  mo_beta : beta_mol lam (XF p) (XF t) = XF B;
  mo_vol : sigma180_vol lam (XF p) (XF t) = XF V;
  mo_sig : sigma_mol lam (XF p) (XF t) = XF S;
  mo_sig1 : xmul (sigma180_cm2 lam (XF p) (XF t)) (XF (/ 10 ^ 4)) = XF S1;
  mo_n : xdiv (N_s (XF p) (XF t)) (XF (/ 10 ^ 6)) = XF N;
  mo_k : kappa_mol lam (XF p) (XF t) = XF K;
  mo_pos : 0 <= B;
  mo_strict : 1 < 41 * (lam * lam) -> 0 < B;
  mo_BN : B = S * N;
  mo_VN : V = S1 * N;
  mo_ratio : V * (4 * PI) = B * (7629/10000 * (1 + 932/1000));
  mo_kappa : K * air_density p t = 10000 * B;
  mo_npos : 0 < N
}.
Lemma molec_ok lam p t : no_pole lam -> 0 < p -> - (27315/100) < t -> exists B V S S1 N K, molec lam p t B V S S1 N K.
Proof.
  intros L P T. destruct (refr_fin lam p t L T) as (m & En & Em & Hm). cbv zeta in Em.
  assert (L0 := proj1 L).
  pose proof (Ns_pos p t P T) as NP. pose proof PI_RGT_0 as PP.
  set (n := Ns p t) in *. set (M := ((m + 1) * (m + 1) - 1) * ((m + 1) * (m + 1) - 1)) in *.
  assert (M0 : 0 <= M) by apply Rle_0_sqr.
  assert (M1 : 1 < 41 * (lam * lam) -> 0 < M) by (intro V; specialize (Hm V P); apply Rsqr_pos_lt; nra).
  set (D := (lam * / 10 ^ 4) ^ 4).
  assert (D0 : 0 < D). { apply pow_lt. apply Rmult_lt_0_compat; [exact L0|]. apply Rinv_0_lt_compat, pow_lt; lra. }
  assert (nDn : 0 < n * D * n) by (apply Rmult_lt_0_compat; [apply Rmult_lt_0_compat|]; assumption).
  assert (ED : den4 lam (XF p) (XF t) = XF (n * D * n)).
  { unfold den4. rewrite Ns_fin by exact T. reflexivity. }
  clearbody D. assert (h100 : / 100 <> 0) by lra.
  assert (h6 : 10 ^ 6 = 1000000) by ring. assert (h4 : 10 ^ 4 = 10000) by ring.
  exists (8 * PI ^ 3 / 3 * M * n / (n * D * n) * c_king / (/ 100)).
  exists (PI ^ 2 * M * (2 * (2 + raw_n)) / (n * D * n * (6 - 7 * raw_n)) * c_pcos * n / (/ 100)).
  exists (8 * PI ^ 3 / 3 * M / (n * D * n) * c_king * / 10 ^ 4).
  exists (PI ^ 2 * M * (2 * (2 + raw_n)) / (n * D * n * (6 - 7 * raw_n)) * c_pcos * / 10 ^ 4).
  exists (n / (/ 10 ^ 6)).
  set (raw := p * 100 / (287058/1000 * (t + 27315/100)) * 1000 / 10 ^ 6).
  assert (raw0 : 0 < raw).
  { unfold raw. rewrite h6. repeat first [apply Rmult_lt_0_compat | apply Rinv_0_lt_compat]; lra. }
  assert (EB : beta_mol lam (XF p) (XF t) = XF (8 * PI ^ 3 / 3 * M * n / (n * D * n) * c_king / (/ 100))).
  { unfold beta_mol. cbv zeta. rewrite Em, ED, Ns_fin by exact T. cbn [xmul]. fold n.
    rewrite xdiv_fin by lra. cbn [xmul]. rewrite xdiv_fin by exact h100. reflexivity. }
  exists (8 * PI ^ 3 / 3 * M * n / (n * D * n) * c_king / (/ 100) * / 100 / raw * / 1000 / (/ 10 ^ 6)).
  assert (r67 : 6 - 7 * raw_n <> 0) by (unfold raw_n; lra).
  pose proof c_king_pos as CK.
  assert (E1 : sigma180_cm2 lam (XF p) (XF t)
     = XF (PI ^ 2 * M * (2 * (2 + raw_n)) / (n * D * n * (6 - 7 * raw_n)) * c_pcos)).
  { unfold sigma180_cm2. cbv zeta. rewrite Em, ED. cbn [xmul]. rewrite xdiv_fin; [reflexivity|].
    apply Rmult_integral_contrapositive_currified; lra. }
  split.
  - exact EB.
  - unfold sigma180_vol. rewrite E1, Ns_fin by exact T. cbn [xmul]. rewrite xdiv_fin by exact h100. reflexivity.
  - unfold sigma_mol. cbv zeta. rewrite Em, ED. cbn [xmul]. rewrite xdiv_fin by lra. reflexivity.
  - rewrite E1. reflexivity.
  - rewrite Ns_fin by exact T. rewrite xdiv_fin; [reflexivity|]. rewrite h6; lra.
  - unfold kappa_mol. rewrite EB. cbn [xmul xadd]. rewrite (xdiv_fin (p * 100)) by lra. cbn [xmul].
    rewrite (xdiv_fin _ (10 ^ 6)) by (rewrite h6; lra). fold raw. rewrite xdiv_fin by lra. cbn [xmul].
    rewrite xdiv_fin by (rewrite h6; lra). reflexivity.
  - clearbody n M. set (ck := c_king) in *; clearbody ck. assert (0 < / (n * D * n)) by (apply Rinv_0_lt_compat; exact nDn).
    assert (0 < PI ^ 3) by (apply pow_lt; exact PP).
    set (p3 := PI ^ 3) in *. clearbody p3. unfold Rdiv. rewrite Rinv_inv. repeat apply Rmult_le_pos; lra.
  - intro V. specialize (M1 V). clearbody n M. set (ck := c_king) in *; clearbody ck.
    assert (0 < / (n * D * n)) by (apply Rinv_0_lt_compat; exact nDn).
    assert (0 < PI ^ 3) by (apply pow_lt; exact PP).
    set (p3 := PI ^ 3) in *. clearbody p3. unfold Rdiv. rewrite Rinv_inv. repeat apply Rmult_lt_0_compat; lra.
  - rewrite h4, h6. field. lra.
  - rewrite h4, h6. field. lra.
  - unfold c_pcos. rewrite cosPI2. unfold c_king. field. repeat split; lra.
  - unfold raw, air_density. rewrite h6. field. repeat split; lra.
  - rewrite h6. unfold Rdiv. rewrite Rinv_inv. lra.
Qed.
