(** The microphysics method never amplifies: its hydrometeor transmittance is
    that of the non-negative extinction of the last class. *)
From Verif Require Import Mom_Base Mom_Spec Mom_Facts Sched_Model Psd_Model Psd_Spec Psd_Witness Lidar_Model Lidar_Spec
  Lidar_Corol Lidar_Witness Radar_Model Radar_Spec Radar_Att Radar_Witness Micro_Spec Micro_Psd Micro_Rcell Micro_Lidar
  Micro_Radar Micro_Witness.
Local Open Scope R_scope.

Lemma micro_transmittance : forall Gam e ins o hs s s1,
  rmicro_tables_ok e -> r_emp o = false -> r_rad o = false -> classes_of e (r_hyds o) hs -> plain hs ->
  (forall h, In h hs -> gamma_class e h) -> 0 < k_w ins ->
  calc_radar_moments Gam e ins o false s = (Ok tt, s1) ->
  forall pre h tab D B A Z w, hs = pre ++ [h] -> heights e s Z ->
  (forall t k, (t < ntm e)%nat -> (S k < nht e)%nat -> Z t k <= Z t (S k)) ->
  class_table e ins (r_mie o) h tab -> particle_table tab D B A -> (forall b, In b B -> 0 < b) ->
  (forall a, In a A -> 0 <= a) -> (2 <= length D)%nat ->
  class_speed e h w -> (forall t k, point e t k -> exists x, air_factor e s h t k x) ->
  (forall i t k, cell e i t k -> holds_none s h i t k \/
     exists q n r, holds_particles e s h i t k q n r /\ gamma_known Gam (class_shape e (r_kw o) h n)) ->
  exists TH : nat -> nat -> nat -> R,
    (forall i t k, cell e i t k -> value s1 (hyd_ext_name false) i t k = XF (TH i t k)) /\
    (forall i t k, cell e i t k -> 0 < TH i t k <= 1) /\
    (forall i t k, cell e i t k -> at_instrument (r_sfc o) (nht e) k -> TH i t k = 1) /\
    (forall i t k k', cell e i t k -> cell e i t k' -> not_nearer (r_sfc o) k k' -> TH i t k' <= TH i t k).
Proof.
  intros Gam e ins o hs s s1 TB Ee Er Hc PL GC KW E pre h tab D B A Z w Eh HZ Zm CT PT HB HA HD CS AF HH.
  destruct (rm_last_extinction Gam e ins o hs s s1 TB Ee Er Hc PL GC KW E pre h tab D B A Z w Eh HZ CT PT HB HD CS AF HH)
    as (X & HX & HV).
  assert (XN : forall i t k, cell e i t k -> 0 <= X i t k).
  { intros i t k Hcell. destruct (HX i t k Hcell) as [X0 X1].
    destruct (HH i t k Hcell) as [N|(q & n & r & HP & _)]; [rewrite X0 by exact N; lra|].
    destruct (X1 q n r HP) as (lam & n0 & (L1 & L2 & _) & ->).
    destruct PT as (_ & _ & _ & Inc). apply population_nonneg; auto.
    intros d _. left. apply gamma_psd_pos. exact L2. }
  exists (fun i t k => two_way (path (r_sfc o) (nht e) (Z t) (X i t) k)).
  split; [exact HV|].
  assert (M : forall i t k k', cell e i t k -> cell e i t k' -> not_nearer (r_sfc o) k k' ->
    0 <= path (r_sfc o) (nht e) (Z t) (X i t) k /\
    path (r_sfc o) (nht e) (Z t) (X i t) k <= path (r_sfc o) (nht e) (Z t) (X i t) k').
  { intros i t k k' (L1 & L2 & L3) (_ & _ & L4) N. apply path_mono; auto.
    intros j Hj. apply XN. repeat split; assumption. }
  assert (TM : forall a b, a <= b -> two_way b <= two_way a).
  { intros a b H. unfold two_way. destruct (Rle_lt_or_eq_dec _ _ H) as [L| ->]; [|lra].
    left. apply exp_increasing. lra. }
  assert (T0 : two_way 0 = 1) by (unfold two_way; rewrite Rmult_0_r; apply exp_0).
  split; [|split].
  - intros i t k Hcell. split; [apply exp_pos|]. rewrite <- T0. apply TM.
    assert (N : not_nearer (r_sfc o) k k) by (unfold not_nearer; destruct (r_sfc o); lia).
    apply (M i t k k Hcell Hcell N).
  - intros i t k Hcell I. rewrite path_start by exact I. exact T0.
  - intros i t k k' H1 H2 N. apply TM. apply (M i t k k' H1 H2 N).
Qed.

Lemma m_transmittance : exists s1 T,
  calc_radar_moments w_gam w_mg2 (m_with w_radar) (m_ropts ["pl"; "ci"]%string) false m_ds = (Ok tt, s1) /\
  heights w_mg2 m_ds (fun _ k => 100 * INR (S k)) /\
  value s1 (hyd_ext_name false) 0 0 0 = XF 1 /\ value s1 (hyd_ext_name false) 0 0 1 = XF T /\ 0 < T < 1.
Proof.
  destruct (m_radar_runs w_gam ["pl"; "ci"]%string) as (s1 & E); [simpl; tauto|].
  assert (HZ : heights w_mg2 m_ds (fun _ k => 100 * INR (S k))) by (exists w_z; split; reflexivity).
  destruct m_pos as (P1 & P2 & P3).
  assert (Hk0 : 0 < k_w (m_with w_radar)) by (simpl; lra).
  assert (Ic : In "ci"%string ["pl"; "ci"]%string) by (simpl; tauto).
  destruct (rm_last_extinction w_gam w_mg2 (m_with w_radar) (m_ropts ["pl"; "ci"]%string) ["pl"; "ci"]%string m_ds s1
    (proj2 (m_tables _)) eq_refl eq_refl eq_refl (m_plain _ (or_introl eq_refl)) (fun h _ => m_gamma h) Hk0 E
    ["pl"]%string "ci"%string _ m_D m_B m_A _ _ eq_refl HZ (m_ctable w_radar false "ci" ltac:(simpl; tauto)) m_ptable P1 P3
    (m_speed "ci" Ic)) as (X & HX & HV).
  { intros t k _. exists 1. apply m_air. exact Ic. }
  { intros i t k _. right. exists (m_q "ci"), (1/100), (m_r "ci"). split; [apply m_holds; exact Ic|apply m_known; exact Ic]. }
  exists s1. eexists. split; [exact E|]. split; [exact HZ|].
  rewrite (HV 0%nat 0%nat 0%nat) by (apply m_cell; lia).
  split; [f_equal; unfold two_way, path, od_up; simpl; rewrite Rmult_0_r; apply exp_0|].
  rewrite (HV 0%nat 0%nat 1%nat) by (apply m_cell; lia).
  split; [reflexivity|]. split; [apply exp_pos|].
  destruct (HX 0%nat 0%nat 0%nat (m_cell 0 0 ltac:(lia) ltac:(lia))) as [_ X1].
  destruct (X1 _ _ _ (m_holds "ci" 0 0 0 Ic)) as (lam & n0 & (L1 & L2 & _) & EX).
  assert (XP : 0 < X 0%nat 0%nat 0%nat).
  { rewrite EX. apply population_pos; [reflexivity|exact P3|apply m_ptable| |].
    - intros b H. simpl in H. intuition lra.
    - intros d _. apply gamma_psd_pos. exact L2. }
  unfold two_way, path, od_up. cbn [r_sfc m_ropts sumR]. rewrite <- exp_0. apply exp_increasing.
  replace (INR 2) with 2 by (simpl; lra). replace (INR 1) with 1 by reflexivity. lra.
Qed.
