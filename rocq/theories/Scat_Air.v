(** The call of the Mie solver: index of the particle, wavelength in nm, air around it. *)
From Coq Require Import Reals Lra Lia Psatz.
From Verif Require Import Scat_Spec Xr_Facts.
Local Open Scope R_scope.

Lemma medium_air t p : -73 <= t -> 0 <= p <= 1100 ->
  Rabs (medium t p - (1 + 776 / 10 * / 10 ^ 6 * (p / (t + 27315 / 100)))) <= / 10 ^ 10.
Proof.
  intros T P. unfold medium. set (K := t + 27315 / 100). assert (HK : 200 <= K) by (unfold K; lra).
  set (d := 375 / 10000000 * p / K ^ 2).
  assert (K2 : 40000 <= K ^ 2) by nra.
  assert (D0 : 0 <= d). { unfold d. apply Rmult_le_pos; [nra|]. apply Rlt_le, Rinv_0_lt_compat. lra. }
  assert (D1 : d <= / 10 ^ 5).
  { unfold d, Rdiv. apply Rle_trans with (375 * / 10000000 * p * / 40000).
    - apply Rmult_le_compat_l; [nra|]. apply Rinv_le_contravar; lra.
    - lra. }
  assert (KD : K * 200 <= K * (K + d)) by nra.
  replace (1 + / 10 ^ 6 * (776 / 10 * p / (K + d)) - (1 + 776 / 10 * / 10 ^ 6 * (p / K)))
    with (- (776 / 10 * / 10 ^ 6 * (p * (d * / (K * (K + d)))))) by (field; lra).
  assert (I0 : 0 <= / (K * (K + d)) <= / 40000).
  { split; [apply Rlt_le, Rinv_0_lt_compat; nra|]. apply Rinv_le_contravar; nra. }
  assert (Q : 0 <= d * / (K * (K + d)) <= / 10 ^ 5 * / 40000).
  { split; [apply Rmult_le_pos; tauto|]. apply Rmult_le_compat; tauto. }
  rewrite Rabs_Ropp, Rabs_pos_eq.
  - assert (p * (d * / (K * (K + d))) <= 1100 * (/ 10 ^ 5 * / 40000)) by (apply Rmult_le_compat; tauto). lra.
  - assert (0 <= p * (d * / (K * (K + d)))) by (apply Rmult_le_pos; tauto). lra.
Qed.
Theorem in_air t p : -73 <= t -> 0 <= p <= 1100 ->
  exists n, Rabs (n - (1 + 776 / 10 * / 10 ^ 6 * (p / (t + 27315 / 100)))) <= / 10 ^ 10 /\
  forall (mie mie' : cx -> R -> R -> nat -> R -> R -> list mie_row) diams w,
    ((forall lo hi, mie (water_index w t) (w * 10 ^ 7) n (length diams) lo hi = mie' (water_index w t) (w * 10 ^ 7) n (length diams) lo hi) ->
     scat_water mie diams w t p = scat_water mie' diams w t p) /\
    (forall rho, (forall lo hi, mie (ice_index w t rho) (w * 10 ^ 7) n (length diams) lo hi = mie' (ice_index w t rho) (w * 10 ^ 7) n (length diams) lo hi) ->
     scat_ice mie diams w t p rho = scat_ice mie' diams w t p rho).
Proof.
  intros T P. exists (medium t p). split; [apply medium_air; assumption|]. intros mie mie' diams w.
  split; [|intros rho]; intro E; unfold scat_water, scat_ice, mie_rows; destruct diams; try reflexivity; rewrite E; reflexivity.
Qed.
