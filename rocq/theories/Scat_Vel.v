(** Fall velocities of the NSSL scheme. *)
From Coq Require Import Reals Lra Lia.
From Verif Require Import Scat_Spec Xr_Facts.
Local Open Scope string_scope.
Local Open Scope list_scope.
Local Open Scope R_scope.

Lemma fmax_fin a b : fmax (XF a) (XF b) = XF (Rmax a b).
Proof.
  unfold fmax. cbn [isnan]. destruct (xltb (XF a) (XF b)) eqn:E.
  - apply xltb_fin in E. rewrite Rmax_right by lra. reflexivity.
  - apply xltb_fin_f in E. rewrite Rmax_left by lra. reflexivity.
Qed.
Lemma fmin_fin a b : fmin (XF a) (XF b) = XF (Rmin a b).
Proof.
  unfold fmin. cbn [isnan]. destruct (xltb (XF b) (XF a)) eqn:E.
  - apply xltb_fin in E. rewrite Rmin_right by lra. reflexivity.
  - apply xltb_fin_f in E. rewrite Rmin_left by lra. reflexivity.
Qed.
Lemma xsub_f a b : xsub (XF a) (XF b) = XF (a - b).
Proof. reflexivity. Qed.
Definition cd (lo rho : R) : R :=
  Rmax (45 / 100) (Rmin (12 / 10) (45 / 100 + 55 / 100 * (800 - Rmax lo (Rmin 800 rho)))).
Lemma drag_fin lo rho : drag lo (XF rho) = XF (cd lo rho).
Proof.
  unfold drag. rewrite fmin_fin, fmax_fin, xsub_f. cbn [xadd xmul]. rewrite fmin_fin, fmax_fin.
  reflexivity.
Qed.
Lemma cd_range lo rho : 45 / 100 <= cd lo rho <= 12 / 10.
Proof. unfold cd, Rmax, Rmin. repeat destruct (Rle_dec _ _); lra. Qed.
Lemma cd_light lo rho : lo <= 798 -> rho <= 798 -> cd lo rho = 12 / 10.
Proof. intros. unfold cd, Rmax, Rmin. repeat destruct (Rle_dec _ _); lra. Qed.
Lemma cd_dense lo rho : lo <= 800 -> 800 <= rho -> cd lo rho = 45 / 100.
Proof. intros. unfold cd, Rmax, Rmin. repeat destruct (Rle_dec _ _); lra. Qed.
Lemma cd_mono lo r r' : r <= r' -> cd lo r' <= cd lo r.
Proof. intros. unfold cd, Rmax, Rmin. repeat destruct (Rle_dec _ _); lra. Qed.

Definition drop (lo d rho : R) : R :=
  sqrt (4 * rho * (981 / 100) / (3 * cd lo rho * (1007 / 1000))) * sqrt d.
Lemma drop_fin lo d rho : 0 <= d -> 0 <= rho -> nssl_drop lo (XF d) (XF rho) = XF (drop lo d rho).
Proof.
  intros Hd Hr. pose proof (cd_range lo rho) as C. unfold nssl_drop. rewrite drag_fin. cbn [xmul].
  rewrite xdiv_fin by lra. unfold xsqrt.
  assert (0 <= 4 * rho * (981 / 100) / (3 * cd lo rho * (1007 / 1000))).
  { unfold Rdiv. apply Rmult_le_pos; [lra|]. left. apply Rinv_0_lt_compat. lra. }
  destruct (Rlt_dec _ 0); [lra|]. destruct (Rlt_dec d 0); [lra|]. reflexivity.
Qed.
Lemma drop_mono lo d d' rho rho' : 0 <= d <= d' -> 0 <= rho <= rho' -> 0 <= drop lo d rho <= drop lo d' rho'.
Proof.
  intros Hd Hr. unfold drop. split; [apply Rmult_le_pos; apply sqrt_pos|].
  apply Rmult_le_compat; try apply sqrt_pos; apply sqrt_le_1_alt; [|lra].
  pose proof (cd_range lo rho) as C. pose proof (cd_range lo rho') as C'. pose proof (cd_mono lo rho rho' ltac:(lra)) as M.
  unfold Rdiv at 1 3. apply Rmult_le_compat; [lra| |lra|].
  - left. apply Rinv_0_lt_compat. lra.
  - apply Rinv_le_contravar; lra.
Qed.
Lemma power_mono c p d d' : 0 < c -> 0 < p -> 0 <= d <= d' ->
  exists v v', xmul (XF c) (xpow (XF d) (XF p)) = XF v /\ xmul (XF c) (xpow (XF d') (XF p)) = XF v' /\ 0 <= v <= v'.
Proof.
  intros Hc Hp Hd.
  assert (Z : forall x, x = 0 -> xpow (XF x) (XF p) = XF 0).
  { intros x ->. simpl. destruct (Rlt_dec 0 0); [lra|]. destruct (Req_EM_T p 0); [lra|].
    destruct (Rlt_dec 0 p); [reflexivity|lra]. }
  destruct (Req_dec d 0) as [E|E]; [|destruct (Req_dec d' 0) as [E'|E']; [lra|]].
  - rewrite (Z d E). destruct (Req_dec d' 0) as [E'|E'].
    + rewrite (Z d' E'). exists (c * 0), (c * 0). repeat split; lra.
    + rewrite (xpow_fin d') by lra. exists (c * 0), (c * Rpower d' p). repeat split; [lra|].
      rewrite Rmult_0_r. apply Rmult_le_pos; [lra|]. left. apply exp_pos.
  - rewrite !xpow_fin by lra. exists (c * Rpower d p), (c * Rpower d' p). repeat split.
    + apply Rmult_le_pos; [lra|]. left. apply exp_pos.
    + apply Rmult_le_compat_l; [lra|]. apply Rle_Rpower_l; lra.
Qed.
Lemma rain_mono d d' : 0 <= d <= d' ->
  exists v v', xmul (XF 10) (xsub (XF 1) (xexp (xmul (XF (- (516575 / 1000))) (XF d)))) = XF v /\
    xmul (XF 10) (xsub (XF 1) (xexp (xmul (XF (- (516575 / 1000))) (XF d')))) = XF v' /\ 0 <= v <= v' /\ v' < 10.
Proof.
  intros Hd. cbn [xmul xexp]. rewrite !xsub_f. cbn [xmul]. eexists. eexists. split; [reflexivity|]. split; [reflexivity|].
  assert (P : forall x, 0 <= x -> 0 < exp (- (516575 / 1000) * x) <= 1).
  { intros x Hx. split; [apply exp_pos|]. destruct (Req_dec x 0) as [->|N]; [rewrite Rmult_0_r, exp_0; lra|].
    rewrite <- exp_0. left. apply exp_increasing. nra. }
  pose proof (P d ltac:(lra)). pose proof (P d' ltac:(lra)).
  assert (exp (- (516575 / 1000) * d') <= exp (- (516575 / 1000) * d)).
  { destruct (Req_dec d d') as [->|N]; [lra|]. left. apply exp_increasing. nra. }
  lra.
Qed.
Lemma velocity_ok h d d' rho rho' : 0 <= d <= d' -> 0 <= rho <= rho' ->
  exists v v', nssl_velocity h (XF d) (XF rho) = XF v /\ nssl_velocity h (XF d') (XF rho') = XF v' /\ 0 <= v <= v' /\
    (lower h = "pl" -> v' < 10).
Proof.
  intros Hd Hr. unfold nssl_velocity. set (l := lower h).
  destruct (String.eqb l "pl") eqn:Q1.
  { destruct (rain_mono d d' Hd) as (v & v' & H1 & H2 & H3 & H4). exists v, v'. auto. }
  apply String.eqb_neq in Q1.
  destruct (String.eqb l "gr").
  { rewrite !drop_fin by lra. eexists. eexists. split; [reflexivity|]. split; [reflexivity|]. split; [|congruence].
    apply drop_mono; assumption. }
  destruct (String.eqb l "ha").
  { rewrite !drop_fin by lra. eexists. eexists. split; [reflexivity|]. split; [reflexivity|]. split; [|congruence].
    apply drop_mono; assumption. }
  destruct (String.eqb l "sn").
  { destruct (power_mono (21 + 52823061429272 / 100000000000000) (42 / 100) d d') as (v & v' & H1 & H2 & H3); [lra|lra|exact Hd|].
    exists v, v'. repeat split; try assumption; try apply H3; try congruence. }
  destruct (String.eqb l "cl").
  { destruct (power_mono (1316 / 10) (824 / 1000) d d') as (v & v' & H1 & H2 & H3); [lra|lra|exact Hd|].
    exists v, v'. repeat split; try assumption; try apply H3; try congruence. }
  exists 0, 0. repeat split; try lra; try congruence.
Qed.
(** Graupel lighter than 798 kg m-3 falls with a drag coefficient of 1.2,
    denser than 800 with 0.45. *)
Lemma graupel_speed d rho : 0 <= d -> 0 <= rho ->
  (rho <= 798 -> nssl_velocity "gr" (XF d) (XF rho) = XF (sqrt (4 * rho * (981 / 100) / (3 * (12 / 10) * (1007 / 1000))) * sqrt d)) /\
  (800 <= rho -> nssl_velocity "gr" (XF d) (XF rho) = XF (sqrt (4 * rho * (981 / 100) / (3 * (45 / 100) * (1007 / 1000))) * sqrt d)).
Proof.
  intros Hd Hr. change (nssl_velocity "gr" (XF d) (XF rho)) with (nssl_drop 170 (XF d) (XF rho)).
  rewrite drop_fin by assumption. unfold drop. split; intro H.
  - rewrite cd_light by lra. reflexivity.
  - rewrite cd_dense by lra. reflexivity.
Qed.
Lemma velocity_case h h' d rho : lower h = lower h' -> nssl_velocity h d rho = nssl_velocity h' d rho.
Proof. intro E. unfold nssl_velocity. rewrite E. reflexivity. Qed.
Lemma velocity_other h d rho : ~ In (lower h) ["pl"; "gr"; "ha"; "sn"; "cl"] -> nssl_velocity h d rho = XF 0.
Proof.
  intro N. unfold nssl_velocity. simpl in N.
  repeat match goal with |- context [String.eqb ?a ?b] =>
    let Q := fresh in destruct (String.eqb a b) eqn:Q;
      [apply String.eqb_eq in Q; exfalso; apply N; rewrite Q; tauto|] end.
  reflexivity.
Qed.
