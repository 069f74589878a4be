(** C29: phase ratios. *)
From Verif Require Import Mom_Base Mom_Spec Mom_Facts Xr_Facts Lidar_Spec Lidar_Ldr Class_Model Class_Spec Class_Lidar Class_Cosp.
From Coq Require Import Lia ZArith.
Local Open Scope R_scope.

(** *** Counting *)
Lemma int8_IZR z : int8 (XF (IZR z)) = z.
Proof.
  assert (I : forall z, Int_part (IZR z) = z).
  { intro x. unfold Int_part. rewrite <- (tech_up (IZR x) (x + 1)); [lia| |]; rewrite plus_IZR; lra. }
  simpl. destruct (Rlt_dec (IZR z) 0).
  - rewrite <- opp_IZR, I. lia.
  - apply I.
Qed.
Lemma isin_spec v l : mask_cell v -> (v = XNaN -> ~ In 0%Z l) -> (isin v l = true <-> is_class v l).
Proof.
  intros Hm H0. unfold isin, is_class. rewrite existsb_exists. destruct Hm as [->|(z & ->)].
  - cbn [int8]. split.
    + intros (x & Hx & E). apply Z.eqb_eq in E. subst x. exfalso. apply (H0 eq_refl Hx).
    + intros (z & _ & E). discriminate.
  - rewrite int8_IZR. split.
    + intros (x & Hx & E). apply Z.eqb_eq in E. subst x. exists z. auto.
    + intros (x & Hx & E). injection E as E. apply eq_IZR in E. subst x. exists z. split; [exact Hx|apply Z.eqb_refl].
Qed.
Lemma count_filter (P : nat -> Prop) (f : nat -> bool) m : (forall i, (i < m)%nat -> (f i = true <-> P i)) ->
  count P m (length (filter f (seq 0 m))).
Proof.
  induction m as [|m IH]; intro H; [constructor|].
  rewrite seq_S, filter_app, app_length. simpl. destruct (f m) eqn:E; simpl.
  - rewrite Nat.add_1_r. apply count_yes; [apply IH; auto with arith|]. apply H; auto.
  - rewrite Nat.add_0_r. apply count_no; [apply IH; auto with arith|]. intro HP. apply H in HP; auto. congruence.
Qed.
Lemma count_fun P m n n' : count P m n -> count P m n' -> n = n'.
Proof.
  intro H. revert n'. induction H as [|m n H IH HP|m n H IH HP]; intros n' H'; inversion H'; subst; auto; try tauto.
Qed.
Lemma count_le (P Q : nat -> Prop) m a b : (forall i, (i < m)%nat -> P i -> Q i) -> count P m a -> count Q m b -> (a <= b)%nat.
Proof.
  intros H Ha. revert b. induction Ha as [|m a Ha IH HP|m a Ha IH HP]; intros b Hb; inversion Hb; subst; try lia.
  - apply le_n_S. apply IH; auto with arith.
  - exfalso. match goal with N : ~ Q m |- _ => apply N end. apply H; auto.
  - apply le_S. apply IH; auto with arith.
  - apply IH; auto with arith.
Qed.

Lemma ratio_share a b : share (ratio (XF a) (XF b)) a b \/ a <> 0.
Proof.
  destruct (Req_dec a 0) as [->|N]; [left|right; exact N]. unfold share, ratio. cbn [xadd]. split; intro H.
  - simpl. destruct (Req_EM_T _ _); [|congruence]. unfold inf_of. destruct (Rlt_dec 0 0); [lra|reflexivity].
  - apply xdiv_fin. exact H.
Qed.
Lemma ratio_share_pos a b : 0 <= a -> 0 <= b -> share (ratio (XF a) (XF b)) a b.
Proof.
  intros Ha Hb. destruct (ratio_share a b) as [H|N]; [exact H|]. split; intro H; [exfalso; lra|].
  apply xdiv_fin. exact H.
Qed.
Lemma share_unit v a b : 0 <= a -> 0 <= b -> share v a b -> v = XNaN \/ exists r, v = XF r /\ 0 <= r <= 1.
Proof.
  intros Ha Hb [H0 H1]. destruct (Req_dec (a + b) 0) as [E|N]; [left; auto|right].
  exists (a / (a + b)). split; [auto|]. split.
  - apply Rmult_le_pos; [exact Ha|]. left. apply Rinv_0_lt_compat. lra.
  - apply (Rmult_le_reg_r (a + b)); [lra|]. unfold Rdiv. rewrite Rmult_assoc, Rinv_l by exact N. lra.
Qed.

(** *** Frequency phase ratio *)
Definition fpr_cell (a d : nat) : xr := xdiv (XF (INR a)) (if (d =? 0)%nat then XNaN else XF (INR d)).
Lemma fpr_cell_spec a d : (d = 0%nat -> fpr_cell a d = XNaN) /\ (d <> 0%nat -> fpr_cell a d = XF (INR a / INR d)).
Proof.
  unfold fpr_cell. split; intro H.
  - subst d. reflexivity.
  - apply Nat.eqb_neq in H as E. rewrite E. apply xdiv_fin. apply not_0_INR. exact H.
Qed.
Lemma all_cells_in e m z : In z (all_cells e m) <-> exists i t k, cell e i t k /\ int8 (m i t k) = z.
Proof.
  unfold all_cells, cell. rewrite in_flat_map. split.
  - intros (i & Hi & H). apply in_flat_map in H. destruct H as (t & Ht & H). apply in_map_iff in H.
    destruct H as (k & E & Hk). apply in_seq in Hi, Ht, Hk. exists i, t, k. split; [lia|exact E].
  - intros (i & t & k & (Hi & Ht & Hk) & E). exists i. split; [apply in_seq; lia|].
    apply in_flat_map. exists t. split; [apply in_seq; lia|]. apply in_map_iff. exists k. split; [exact E|apply in_seq; lia].
Qed.
Lemma fold_max l z : forall x, (x = z \/ In x l) -> (x <= fold_left Z.max l z)%Z.
Proof.
  revert z. induction l as [|a l IH]; intros z x H; simpl.
  - destruct H as [->|[]]. lia.
  - destruct H as [->|[->|H]].
    + transitivity (Z.max z a); [lia|]. apply IH. auto.
    + transitivity (Z.max z x); [lia|]. apply IH. auto.
    + apply IH. auto.
Qed.
Lemma upto_in n z : In z (upto n) <-> (1 <= z <= n)%Z.
Proof.
  unfold upto. rewrite in_map_iff. split.
  - intros (x & <- & H). apply in_seq in H. lia.
  - intro H. exists (Z.to_nat z). split; [lia|]. apply in_seq. lia.
Qed.
(** With no denominator given, every positive class counts. *)
Lemma default_all_spec e m : cell e 0 0 0 -> exists l, default_all e m = Ok l /\ ~ In 0%Z l /\
  forall i t k, cell e i t k -> mask_cell (m i t k) -> (isin (m i t k) l = true <-> exceeds (m i t k) 0).
Proof.
  intro H0. unfold default_all. destruct (all_cells e m) as [|z l] eqn:E.
  - assert (I : In (int8 (m 0 0 0)%nat) (all_cells e m)) by (apply all_cells_in; exists 0%nat, 0%nat, 0%nat; auto).
    rewrite E in I. destruct I.
  - eexists. split; [reflexivity|]. split; [rewrite upto_in; lia|].
    intros i t k Hc Hm. unfold isin. rewrite existsb_exists.
    assert (I : (int8 (m i t k) <= fold_left Z.max l z)%Z).
    { apply fold_max. assert (J : In (int8 (m i t k)) (all_cells e m)) by (apply all_cells_in; eauto).
      rewrite E in J. destruct J; auto. }
    transitivity (1 <= int8 (m i t k))%Z.
    + split.
      * intros (x & Hx & Ex). apply Z.eqb_eq in Ex. apply upto_in in Hx. lia.
      * intro H. exists (int8 (m i t k)). split; [apply upto_in; lia|apply Z.eqb_refl].
    + destruct Hm as [Hm|(x & Hm)]; rewrite Hm.
      * simpl. split; [lia|tauto].
      * rewrite int8_IZR. cbn [exceeds]. split; intro H; [apply IZR_lt; lia|apply lt_IZR in H; lia].
Qed.

Lemma fpr_run e qs variable cls al hso hs s m Te :
  classes_of e hso hs -> var3 s variable m -> var2 s (t_name e) Te ->
  (forall i t k, cell e i t k -> mask_cell (m i t k)) ->
  (forall l, al = Some l -> ~ In 0%Z l) -> ~ In 0%Z cls -> (al = None -> cell e 0 0 0) ->
  exists s' r, calculate_phase_ratio e qs variable cls al false false hso s = (Ok tt, s') /\
    unchanged_except [(variable ++ "_fpr")%string] s s' /\ var2 s' (variable ++ "_fpr") r /\
    forall t k, point e t k -> exists a d,
      count (fun i => is_class (m i t k) cls) (nsub e) a /\
      count (fun i => match al with Some l => is_class (m i t k) l | None => exceeds (m i t k) 0 end) (nsub e) d /\
      (d = 0%nat -> r t k = XNaN) /\ (d <> 0%nat -> r t k = XF (INR a / INR d)).
Proof.
  intros Hh Hv HT Hm Hal Hcl Hne. unfold calculate_phase_ratio.
  rewrite (bind_rd _ _ _ hs) by (apply set_hyd_ok; exact Hh). cbv zeta.
  rewrite (bind_rd _ _ _ m) by (apply g3_var; exact Hv).
  assert (E : exists l, (match al with Some l => lret l | None => rd (fun _ => default_all e m) end) s = (Ok l, s) /\
     forall i t k, cell e i t k ->
       (isin (m i t k) l = true <-> match al with Some l => is_class (m i t k) l | None => exceeds (m i t k) 0 end)).
  { destruct al as [l|].
    - exists l. split; [reflexivity|]. intros i t k Hc. apply isin_spec; auto.
    - destruct (default_all_spec e m (Hne eq_refl)) as (l & El & _ & Hl). exists l.
      split; [unfold rd; rewrite El; reflexivity|]. intros i t k Hc. apply Hl; auto. }
  destruct E as (l & El & Hl). rewrite (bind_ok _ _ _ _ _ El).
  rewrite (bind_rd _ _ _ Te) by (apply g2_var; exact HT).
  eexists _, _. split; [apply assign_eq|]. split; [intros x Hx; apply upd_other; intro; subst; apply Hx; simpl; auto|].
  split; [apply upd_same|]. intros t k (Ht & Hk). cbv beta zeta.
  exists (count_in e m cls t k), (count_in e m l t k). split; [|split].
  - apply count_filter. intros i Hi. apply isin_spec; auto. apply Hm. unfold cell. auto.
  - apply count_filter. intros i Hi. apply Hl. unfold cell. auto.
  - apply (fpr_cell_spec (count_in e m cls t k) (count_in e m l t k)).
Qed.
(** ... a proportion when the numerator classes are among the denominator's. *)
Lemma fpr_unit (v : xr) a d : (a <= d)%nat -> (d = 0%nat -> v = XNaN) -> (d <> 0%nat -> v = XF (INR a / INR d)) ->
  (v = XNaN <-> d = 0%nat) /\ (forall r, v = XF r -> 0 <= r <= 1).
Proof.
  intros Hle H0 H1. destruct (Nat.eq_dec d 0) as [->|N].
  - rewrite H0 by reflexivity. split; [tauto|discriminate].
  - rewrite H1 by exact N. split; [split; [discriminate|congruence]|]. intros r [= <-].
    assert (0 < INR d) by (apply lt_0_INR; lia). split.
    + apply Rmult_le_pos; [apply pos_INR|left; apply Rinv_0_lt_compat; assumption].
    + apply (Rmult_le_reg_r (INR d)); [assumption|]. unfold Rdiv. rewrite Rmult_assoc, Rinv_l by lra.
      rewrite Rmult_1_r, Rmult_1_l. apply le_INR. exact Hle.
Qed.

(** *** Mass phase ratio *)
Lemma mass_group_run e m c s Q l : (forall h, In h l -> real3 e s (qn c h) (Q h)) -> forall acc A,
  (forall i t k, cell e i t k -> acc i t k = XF (A i t k)) ->
  exists r, mass_group m c l acc s = (Ok r, s) /\ forall i t k, cell e i t k ->
    r i t k = XF (A i t k + if xltb (XF 0) (m i t k) then sum_over l (fun h => Q h i t k) else 0).
Proof.
  induction l as [|h l IH]; intros H acc A HA; cbn [mass_group].
  - exists acc. split; [reflexivity|]. intros i t k Hc. rewrite HA by exact Hc. rewrite sum_over_nil.
    f_equal. destruct (xltb _ _); lra.
  - destruct (H h (or_introl eq_refl)) as (q & Hq & Eq). rewrite (bind_rd _ _ _ q) by (apply g3_var; exact Hq).
    destruct (IH (fun h' Hh' => H h' (or_intror Hh')) (fun i t k => xadd (acc i t k) (if xltb (XF 0) (m i t k) then q i t k else XF 0))
       (fun i t k => A i t k + if xltb (XF 0) (m i t k) then Q h i t k else 0)) as (r & Er & Hr).
    { intros i t k Hc. rewrite HA, Eq by exact Hc. destruct (xltb _ _); reflexivity. }
    exists r. split; [exact Er|]. intros i t k Hc. rewrite Hr by exact Hc. rewrite sum_over_cons. f_equal.
    destruct (xltb _ _); lra.
Qed.
Lemma set_mass_if e m Q l i t k : set_mass e m Q l i t k
  (if xltb (XF 0) (m i t k) then sum_over (cloud_types e) (fun c => sum_over l (fun h => Q c h i t k)) else 0).
Proof.
  unfold set_mass. rewrite exceeds_xltb. destruct (xltb _ _); split; intro H; try reflexivity; [exfalso; apply H; reflexivity|discriminate].
Qed.
Lemma nansum_fin e a A t k : point e t k -> (forall i, (i < nsub e)%nat -> a i t k = XF (A i)) ->
  nansum e a t k = XF (sumR A (nsub e)).
Proof.
  intros _ H. unfold nansum. induction (nsub e) as [|n IH]; [reflexivity|].
  rewrite seq_S, map_app, xsum_app, IH by auto with arith. cbn [map]. rewrite H by auto with arith.
  rewrite xsum_cons, xsum_nil. cbn [Nat.add fillna xadd sumR]. rewrite Rplus_0_r. reflexivity.
Qed.
Lemma sumR_nonneg f n : (forall i, (i < n)%nat -> 0 <= f i) -> 0 <= sumR f n.
Proof. induction n as [|n IH]; intro H; simpl; [lra|]. assert (0 <= f n) by auto. assert (0 <= sumR f n) by auto. lra. Qed.
Lemma sum_over_nonneg {A} (l : list A) f : (forall x, In x l -> 0 <= f x) -> 0 <= sum_over l f.
Proof. induction l as [|x l IH]; intro H; [rewrite sum_over_nil; lra|]. rewrite sum_over_cons.
  assert (0 <= f x) by (apply H; simpl; auto). assert (0 <= sum_over l f) by (apply IH; intros; apply H; simpl; auto). lra. Qed.

Lemma mpr_run e qs variable cls al hso hs s m Te fl Q :
  classes_of e hso hs -> var3 s variable m -> varb s (fn false "cl") fl -> var2 s (t_name e) Te ->
  (forall c h, In c (cloud_types e) -> In h (liquid_of hs ++ ice_of hs) ->
     real3 e s (qn c h) (Q c h) /\ forall i t k, cell e i t k -> 0 <= Q c h i t k) ->
  exists s' r rs l ic, calculate_phase_ratio e qs variable cls al true true hso s = (Ok tt, s') /\
    unchanged_except [(variable ++ "_mpr")%string; (variable ++ "_mpr_sum")%string] s s' /\
    var3 s' (variable ++ "_mpr") r /\ var2 s' (variable ++ "_mpr_sum") rs /\
    (forall i t k, cell e i t k ->
       set_mass e m Q (liquid_of hs) i t k (l i t k) /\ set_mass e m Q (ice_of hs) i t k (ic i t k) /\
       0 <= l i t k /\ 0 <= ic i t k /\ share (r i t k) (l i t k) (ic i t k)) /\
    (forall t k, point e t k -> share (rs t k) (sumR (fun i => l i t k) (nsub e)) (sumR (fun i => ic i t k) (nsub e))).
Proof.
  intros Hh Hv Hfl HT HQ. unfold calculate_phase_ratio.
  rewrite (bind_rd _ _ _ hs) by (apply set_hyd_ok; exact Hh). cbv zeta.
  fold (liquid_of hs). fold (ice_of hs).
  rewrite (bind_rd _ _ _ fl) by (apply gb_var; exact Hfl). rewrite (bind_rd _ _ _ m) by (apply g3_var; exact Hv).
  assert (G : forall g, (forall h, In h g -> In h (liquid_of hs ++ ice_of hs)) ->
    exists r, (if p_conv e then mass_group m true g zeros3 else lret zeros3) s = (Ok r, s) /\
    forall i t k, cell e i t k -> r i t k = XF (if p_conv e then if xltb (XF 0) (m i t k) then sum_over g (fun h => Q true h i t k) else 0 else 0)).
  { intros g Hg. unfold cloud_types in HQ. destruct (p_conv e).
    - destruct (mass_group_run e m true s (Q true) g) with (acc := zeros3) (A := fun _ _ _ : nat => 0) as (r & Er & Hr).
      + intros h Hin. apply HQ; simpl; auto.
      + reflexivity.
      + exists r. split; [exact Er|]. intros i t k Hc. rewrite Hr by exact Hc. f_equal. lra.
    - exists zeros3. split; reflexivity. }
  assert (G2 : forall g acc A, (forall h, In h g -> In h (liquid_of hs ++ ice_of hs)) ->
    (forall i t k, cell e i t k -> acc i t k = XF (A i t k)) ->
    exists r, mass_group m false g acc s = (Ok r, s) /\
    forall i t k, cell e i t k -> r i t k = XF (A i t k + if xltb (XF 0) (m i t k) then sum_over g (fun h => Q false h i t k) else 0)).
  { intros g acc A Hg HA. apply mass_group_run; [|exact HA]. intros h Hin. apply HQ; auto.
    unfold cloud_types. destruct (p_conv e); simpl; auto. }
  assert (IL : forall h, In h (liquid_of hs) -> In h (liquid_of hs ++ ice_of hs)) by (intros; apply in_or_app; auto).
  assert (II : forall h, In h (ice_of hs) -> In h (liquid_of hs ++ ice_of hs)) by (intros; apply in_or_app; auto).
  destruct (G _ IL) as (l1 & E1 & H1). destruct (G _ II) as (i1 & E2 & H2).
  rewrite (bind_ok _ _ _ _ _ E1). rewrite (bind_ok _ _ _ _ _ E2).
  destruct (G2 _ _ _ IL H1) as (l2 & E3 & H3). destruct (G2 _ _ _ II H2) as (i2 & E4 & H4).
  rewrite (bind_ok _ _ _ _ _ E3). rewrite (bind_ok _ _ _ _ _ E4).
  rewrite (bind_rd _ _ _ Te) by (apply g2_var; exact HT). rewrite bind_assign.
  assert (NQ : forall c h i t k, In c (cloud_types e) -> In h (liquid_of hs ++ ice_of hs) -> cell e i t k -> 0 <= Q c h i t k).
  { intros c h i t k Hc Hin Hcell. apply HQ; auto. }
  set (M := fun g i t k => if xltb (XF 0) (m i t k) then sum_over (cloud_types e) (fun c => sum_over g (fun h => Q c h i t k)) else 0).
  assert (EM : forall g i t k, (if p_conv e then if xltb (XF 0) (m i t k) then sum_over g (fun h => Q true h i t k) else 0 else 0)
     + (if xltb (XF 0) (m i t k) then sum_over g (fun h => Q false h i t k) else 0) = M g i t k).
  { intros g i t k. unfold M, cloud_types. destruct (p_conv e), (xltb _ _); rewrite ?sum_over_cons, ?sum_over_nil; lra. }
  assert (NM : forall g i t k, (forall h, In h g -> In h (liquid_of hs ++ ice_of hs)) -> cell e i t k -> 0 <= M g i t k).
  { intros g i t k Hg Hc. unfold M. destruct (xltb _ _); [|lra]. apply sum_over_nonneg. intros c Hin.
    apply sum_over_nonneg. intros h Hh'. auto. }
  eexists _, _, _, (M (liquid_of hs)), (M (ice_of hs)). split; [apply assign_eq|]. split; [|split; [|split; [|split]]].
  - intros x Hx. rewrite !upd_other by (intro; subst; apply Hx; simpl; auto). reflexivity.
  - unfold var3. rewrite upd_other; [apply upd_same|]. intro E. apply app_str_inj in E. discriminate.
  - apply upd_same.
  - intros i t k Hc. split; [apply set_mass_if|]. split; [apply set_mass_if|].
    split; [apply NM; auto|]. split; [apply NM; auto|].
    unfold lift2. rewrite H3, H4, !EM by exact Hc. apply ratio_share_pos; apply NM; auto.
  - intros t k Hp. cbv beta.
    assert (C : forall i, (i < nsub e)%nat -> cell e i t k) by (unfold cell, point in *; tauto).
    rewrite (nansum_fin e l2 (fun i => M (liquid_of hs) i t k) t k Hp) by (intros i Hi; rewrite H3, EM by auto; reflexivity).
    rewrite (nansum_fin e i2 (fun i => M (ice_of hs) i t k) t k Hp) by (intros i Hi; rewrite H4, EM by auto; reflexivity).
    apply ratio_share_pos; apply sumR_nonneg; intros i Hi; apply NM; auto; unfold cell, point in *; tauto.
Qed.

(** Ratio of the model fields. *)
Lemma mass_model_run e qs s Q l : (forall h, In h l -> exists n, assoc qs h = Some n /\ real2 e s n (Q h)) -> forall acc A,
  (forall t k, point e t k -> acc t k = XF (A t k)) ->
  exists r, mass_model qs l acc s = (Ok r, s) /\ forall t k, point e t k -> r t k = XF (A t k + sum_over l (fun h => Q h t k)).
Proof.
  induction l as [|h l IH]; intros H acc A HA; cbn [mass_model].
  - exists acc. split; [reflexivity|]. intros t k Hp. rewrite HA by exact Hp. rewrite sum_over_nil. f_equal. lra.
  - destruct (H h (or_introl eq_refl)) as (n & Hn & q & Hq & Eq).
    rewrite (bind_rd _ _ _ n) by (unfold dict; rewrite Hn; reflexivity). rewrite (bind_rd _ _ _ q) by (apply g2_var; exact Hq).
    destruct (IH (fun h' Hh' => H h' (or_intror Hh')) (fun t k => xadd (acc t k) (q t k)) (fun t k => A t k + Q h t k)) as (r & Er & Hr).
    { intros t k Hp. rewrite HA, Eq by exact Hp. reflexivity. }
    exists r. split; [exact Er|]. intros t k Hp. rewrite Hr by exact Hp. rewrite sum_over_cons. f_equal. lra.
Qed.
Lemma mpr_q_run e qs variable cls al hso hs s Te n0 q0 Q :
  classes_of e hso hs -> var2 s (t_name e) Te -> assoc qs "cl"%string = Some n0 -> var2 s n0 q0 ->
  (forall h, In h (liquid_of hs ++ ice_of hs) -> (exists n, assoc qs h = Some n /\ real2 e s n (Q h)) /\
     forall t k, point e t k -> 0 <= Q h t k) ->
  exists s' r, calculate_phase_ratio e qs variable cls al true false hso s = (Ok tt, s') /\
    unchanged_except ["mpr_q"%string] s s' /\ var2 s' "mpr_q" r /\
    forall t k, point e t k -> share (r t k) (sum_over (liquid_of hs) (fun h => Q h t k)) (sum_over (ice_of hs) (fun h => Q h t k)).
Proof.
  intros Hh HT Hn0 Hq0 HQ. unfold calculate_phase_ratio.
  rewrite (bind_rd _ _ _ hs) by (apply set_hyd_ok; exact Hh). cbv zeta. fold (liquid_of hs). fold (ice_of hs).
  rewrite (bind_rd _ _ _ n0) by (unfold dict; rewrite Hn0; reflexivity). rewrite (bind_rd _ _ _ q0) by (apply g2_var; exact Hq0).
  assert (IL : forall h, In h (liquid_of hs) -> In h (liquid_of hs ++ ice_of hs)) by (intros; apply in_or_app; auto).
  assert (II : forall h, In h (ice_of hs) -> In h (liquid_of hs ++ ice_of hs)) by (intros; apply in_or_app; auto).
  destruct (mass_model_run e qs s Q (liquid_of hs) (fun h Hi => proj1 (HQ h (IL h Hi))) (fun _ _ => XF 0) (fun _ _ => 0) (fun _ _ _ => eq_refl)) as (l & E1 & H1).
  destruct (mass_model_run e qs s Q (ice_of hs) (fun h Hi => proj1 (HQ h (II h Hi))) (fun _ _ => XF 0) (fun _ _ => 0) (fun _ _ _ => eq_refl)) as (ic & E2 & H2).
  rewrite (bind_ok _ _ _ _ _ E1). rewrite (bind_ok _ _ _ _ _ E2).
  rewrite (bind_rd _ _ _ Te) by (apply g2_var; exact HT).
  eexists _, _. split; [apply assign_eq|]. split; [intros x Hx; apply upd_other; intro; subst; apply Hx; simpl; auto|].
  split; [apply upd_same|]. intros t k Hp. cbv beta. rewrite H1, H2, !Rplus_0_l by exact Hp.
  apply ratio_share_pos; apply sum_over_nonneg; intros h Hi; apply HQ; auto.
Qed.
