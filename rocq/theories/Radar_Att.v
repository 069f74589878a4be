(** C33: two-way transmittances of the radar. *)
From Verif Require Import Mom_Base Mom_Spec Mom_Facts Xr_Facts Lidar_Model Lidar_Spec Lidar_Od
  Radar_Model Radar_Spec Radar_Total.
Local Open Scope R_scope.

Lemma od_profile_path sfc (z a : list xr) (Z A : nat -> R) n d k :
  length z = n -> length a = n ->
  (forall j, (j < n)%nat -> nth j z d = XF (Z j)) -> (forall j, (j < n)%nat -> nth j a d = XF (A j)) ->
  (k < n)%nat -> nth k (od_profile sfc z a) d = XF (path sfc n Z A k).
Proof.
  intros. unfold path. destruct sfc.
  - apply od_sfc with (n := n); auto.
  - apply od_top; auto.
Qed.
Lemma trans_db_fin r : trans_db (XF r) = XF (two_way_dB r).
Proof.
  unfold trans_db, xp10, two_way_dB. simpl xmul. rewrite xdiv_fin, xpow_fin by lra. reflexivity.
Qed.
Lemma trans_od_fin r : trans_od (XF r) = XF (two_way r).
Proof. reflexivity. Qed.

Lemma path_scale sfc n Z A k c1 c2 :
  path sfc n (fun j => c1 * Z j) (fun j => c2 * A j) k = c1 * c2 * path sfc n Z A k.
Proof.
  assert (S1 : forall f m, sumR (fun j => c1 * c2 * f j) m = c1 * c2 * sumR f m).
  { intros f m. induction m as [|m IH]; simpl; [ring|rewrite IH; ring]. }
  unfold path. destruct sfc; unfold od_up, od_down; rewrite <- S1; apply sumR_ext; intros; ring.
Qed.
Lemma path_ext sfc n Z A Z' A' k :
  (k < n)%nat -> (forall j, (j < n)%nat -> Z j = Z' j) -> (forall j, (j < n)%nat -> A j = A' j) ->
  path sfc n Z A k = path sfc n Z' A' k.
Proof.
  intros Hk HZ HA. unfold path. destruct sfc; unfold od_up, od_down; apply sumR_ext; intros;
    rewrite ?HZ, ?HA by lia; reflexivity.
Qed.
Lemma path_start sfc n Z A k : at_instrument sfc n k -> path sfc n Z A k = 0.
Proof.
  unfold at_instrument, path. destruct sfc; intro H.
  - subst. reflexivity.
  - unfold od_down. replace (n - 1 - k)%nat with O by lia. reflexivity.
Qed.
Lemma path_mono sfc n Z A k k' :
  (forall j, (S j < n)%nat -> Z j <= Z (S j)) -> (forall j, (j < n)%nat -> 0 <= A j) ->
  (k < n)%nat -> (k' < n)%nat -> not_nearer sfc k k' ->
  0 <= path sfc n Z A k /\ path sfc n Z A k <= path sfc n Z A k'.
Proof.
  intros HZ HA Hk Hk' H. unfold path, not_nearer in *. destruct sfc.
  - apply (od_up_mono Z A n k k'); auto.
  - apply (od_down_mono Z A n k' k); auto.
Qed.
Lemma two_way_dB_0 : two_way_dB 0 = 1.
Proof. unfold two_way_dB. replace (-2 * 0 / 10) with 0 by field. apply Rpower_O; lra. Qed.
Lemma two_way_0 : two_way 0 = 1.
Proof. unfold two_way. replace (-2 * 0) with 0 by ring. apply exp_0. Qed.
Lemma exp_mono a b : a <= b -> exp a <= exp b.
Proof. intros [H|H]; [left; apply exp_increasing; auto|right; congruence]. Qed.
Lemma two_way_mono a b : a <= b -> two_way b <= two_way a.
Proof. intro. unfold two_way. apply exp_mono. lra. Qed.
Lemma two_way_dB_mono a b : a <= b -> two_way_dB b <= two_way_dB a.
Proof.
  intro. unfold two_way_dB, Rpower. apply exp_mono. pose proof ln10_pos.
  apply Rmult_le_compat_r; lra.
Qed.
Lemma two_way_range a : 0 <= a -> 0 < two_way a <= 1.
Proof.
  intro. split; [apply exp_pos|]. rewrite <- two_way_0. apply two_way_mono; auto.
Qed.
Lemma two_way_dB_range a : 0 <= a -> 0 < two_way_dB a <= 1.
Proof.
  intro. split; [apply exp_pos|]. rewrite <- two_way_dB_0. apply two_way_dB_mono; auto.
Qed.

Lemma accumulate_attenuation_run e c z hyd atm sfc emp s q zt tk :
  var3 s (qn c "cl") q -> (emp = false -> var3 s (out "Ze" "tot" c) zt) ->
  var2 s (t_name e) tk -> t_name e <> hyd_ext_name c ->
  exists s', accumulate_attenuation e c z hyd atm sfc emp s = (Ok tt, s')
    /\ unchanged_except [hyd_ext_name c; "atm_ext"%string] s s'
    /\ var3 s' (hyd_ext_name c) (map3 (if emp then trans_db else trans_od)
         (of_prof3 (fun i t => od_profile sfc (prof2 e (fun t k => xdiv (z t k) (XF 1000)) t)
            (prof3 e (if emp then hyd else map3 (fun x => xmul x (XF 1000)) hyd) i t))))
    /\ var2 s' "atm_ext" (fun t k => trans_db (of_prof2 (fun t => od_profile sfc
          (prof2 e (fun t k => xdiv (z t k) (XF 1000)) t) (prof2 e atm t)) t k)).
Proof.
  intros Hq Hz Ht Hn. unfold accumulate_attenuation.
  rewrite (bind_rd _ _ _ q) by (apply g3_var; exact Hq).
  match goal with |- context [lbind (if emp then _ else _) ?k s] =>
    rewrite (bind_ok _ k s tt s) end.
  2:{ destruct emp; [reflexivity|]. rewrite (bind_rd _ _ _ zt) by (apply g3_var; apply Hz; reflexivity).
      reflexivity. }
  rewrite bind_assign. set (s1 := upd _ _ _).
  rewrite (bind_rd _ _ _ tk).
  2:{ apply g2_var. unfold s1, var2. rewrite upd_other by exact Hn. exact Ht. }
  rewrite assign_eq. eexists; split; [reflexivity|].
  assert (N : hyd_ext_name c <> "atm_ext"%string) by (destruct c; discriminate).
  split; [|split].
  - intros x Hx. unfold s1. rewrite !upd_other; auto; intros ->; apply Hx; simpl; auto.
  - unfold var3. rewrite upd_other by exact N. unfold s1. rewrite upd_same. reflexivity.
  - unfold var2. rewrite upd_same. reflexivity.
Qed.

Definition km (Z : nat -> R) (j : nat) : R := Z j / 1000.

Lemma accumulate_attenuation_real e c z hyd atm sfc emp s Z H A q zt tk :
  (forall t k, point e t k -> z t k = XF (Z t k)) ->
  (forall i t k, cell e i t k -> hyd i t k = XF (H i t k)) ->
  (forall t k, point e t k -> atm t k = XF (A t k)) ->
  var3 s (qn c "cl") q -> (emp = false -> var3 s (out "Ze" "tot" c) zt) ->
  var2 s (t_name e) tk -> t_name e <> hyd_ext_name c ->
  exists s', accumulate_attenuation e c z hyd atm sfc emp s = (Ok tt, s')
    /\ unchanged_except [hyd_ext_name c; "atm_ext"%string] s s'
    /\ real3 e s' (hyd_ext_name c)
         (fun i t k => if emp then two_way_dB (path sfc (nht e) (km (Z t)) (H i t) k)
                       else two_way (path sfc (nht e) (Z t) (H i t) k))
    /\ real2 e s' "atm_ext" (fun t k => two_way_dB (path sfc (nht e) (km (Z t)) (A t) k)).
Proof.
  intros HZ HH HA Hq Hzt Ht Hn.
  destruct (accumulate_attenuation_run e c z hyd atm sfc emp s q zt tk Hq Hzt Ht Hn)
    as (s' & E & U & V3' & V2').
  exists s'. split; [exact E|]. split; [exact U|].
  assert (PZ : forall t j, (t < ntm e)%nat -> (j < nht e)%nat ->
     nth j (prof2 e (fun t k => xdiv (z t k) (XF 1000)) t) XNaN = XF (km (Z t) j)).
  { intros t j L1 L2. rewrite nth_prof2 by exact L2. rewrite HZ by (split; auto).
    rewrite xdiv_fin by lra. reflexivity. }
  split.
  - eexists. split; [exact V3'|]. intros i t k (Hi & Hti & Hk). unfold map3, of_prof3. destruct emp.
    + rewrite od_profile_path with (Z := km (Z t)) (A := H i t) (n := nht e); auto using length_prof2, length_prof3.
      * apply trans_db_fin.
      * intros j Hj. rewrite nth_prof3 by exact Hj. apply HH. repeat split; auto.
    + rewrite od_profile_path with (Z := km (Z t)) (A := fun j => H i t j * 1000) (n := nht e);
        auto using length_prof2, length_prof3.
      * rewrite trans_od_fin. f_equal. f_equal.
        rewrite (path_ext _ _ _ _ (fun j => / 1000 * Z t j) (fun j => 1000 * H i t j));
          [rewrite path_scale; field|exact Hk| |]; intros; unfold km; field.
      * intros j Hj. rewrite nth_prof3 by exact Hj. unfold map3.
        rewrite HH by (repeat split; auto). reflexivity.
  - eexists. split; [exact V2'|]. intros t k (Hti & Hk). unfold of_prof2.
    rewrite od_profile_path with (Z := km (Z t)) (A := A t) (n := nht e); auto using length_prof2.
    + apply trans_db_fin.
    + intros j Hj. rewrite nth_prof2 by exact Hj. apply HA. split; auto.
Qed.

(** C33. *)
Lemma transmittance_bounds e c z hyd atm sfc emp s Z H A q zt tk :
  (forall t k, point e t k -> z t k = XF (Z t k)) ->
  (forall i t k, cell e i t k -> hyd i t k = XF (H i t k)) ->
  (forall t k, point e t k -> atm t k = XF (A t k)) ->
  var3 s (qn c "cl") q -> (emp = false -> var3 s (out "Ze" "tot" c) zt) ->
  var2 s (t_name e) tk -> t_name e <> hyd_ext_name c ->
  (forall t k, (t < ntm e)%nat -> (S k < nht e)%nat -> Z t k <= Z t (S k)) ->
  (forall i t k, cell e i t k -> 0 <= H i t k) -> (forall t k, point e t k -> 0 <= A t k) ->
  exists s' TH TA, accumulate_attenuation e c z hyd atm sfc emp s = (Ok tt, s')
    /\ real3 e s' (hyd_ext_name c) TH /\ real2 e s' "atm_ext" TA
    /\ (forall i t k, cell e i t k -> 0 < TH i t k <= 1 /\ 0 < TA t k <= 1)
    /\ (forall i t k, cell e i t k -> at_instrument sfc (nht e) k -> TH i t k = 1 /\ TA t k = 1)
    /\ (forall i t k k', cell e i t k -> cell e i t k' -> not_nearer sfc k k' ->
          TH i t k' <= TH i t k /\ TA t k' <= TA t k).
Proof.
  intros HZ HH HA Hq Hzt Ht Hn Zm Hp Ap.
  destruct (accumulate_attenuation_real e c z hyd atm sfc emp s Z H A q zt tk HZ HH HA Hq Hzt Ht Hn)
    as (s' & E & _ & RH & RA).
  exists s'. eexists. eexists. split; [exact E|]. split; [exact RH|]. split; [exact RA|]. cbn beta.
  assert (Zk : forall t, (t < ntm e)%nat -> forall j, (S j < nht e)%nat -> km (Z t) j <= km (Z t) (S j)).
  { intros t Lt j Lj. unfold km. specialize (Zm t j Lt Lj). lra. }
  assert (R0 : forall i t k, cell e i t k ->
    0 <= path sfc (nht e) (km (Z t)) (H i t) k /\ 0 <= path sfc (nht e) (Z t) (H i t) k
    /\ 0 <= path sfc (nht e) (km (Z t)) (A t) k).
  { intros i t k (L1 & L2 & L3).
    assert (N : not_nearer sfc k k) by (unfold not_nearer; destruct sfc; lia).
    assert (P1 : forall j, (j < nht e)%nat -> 0 <= H i t j) by (intros; apply Hp; repeat split; auto).
    assert (P2 : forall j, (j < nht e)%nat -> 0 <= A t j) by (intros; apply Ap; split; auto).
    split; [|split].
    - apply (path_mono sfc (nht e) _ _ k k (Zk t L2) P1 L3 L3 N).
    - apply (path_mono sfc (nht e) _ _ k k (fun j Lj => Zm t j L2 Lj) P1 L3 L3 N).
    - apply (path_mono sfc (nht e) _ _ k k (Zk t L2) P2 L3 L3 N). }
  split; [|split].
  - intros i t k Hc. destruct (R0 i t k Hc) as (A1 & A2 & A3).
    destruct emp; split; auto using two_way_range, two_way_dB_range.
  - intros i t k Hc Hi. destruct emp; rewrite !path_start by exact Hi; split;
      auto using two_way_0, two_way_dB_0.
  - intros i t k k' (L1 & L2 & L3) (_ & _ & L4) N.
    assert (P1 : forall j, (j < nht e)%nat -> 0 <= H i t j) by (intros; apply Hp; repeat split; auto).
    assert (P2 : forall j, (j < nht e)%nat -> 0 <= A t j) by (intros; apply Ap; split; auto).
    split; [destruct emp|]; try apply two_way_dB_mono; try apply two_way_mono.
    + apply (path_mono sfc (nht e) _ _ k k' (Zk t L2) P1 L3 L4 N).
    + apply (path_mono sfc (nht e) _ _ k k' (fun j Lj => Zm t j L2 Lj) P1 L3 L4 N).
    + apply (path_mono sfc (nht e) _ _ k k' (Zk t L2) P2 L3 L4 N).
Qed.
