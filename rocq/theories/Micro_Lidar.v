(** The lidar microphysics method: values, totals, order of classes,
    repetition, schedule. *)
From Coq Require Import Permutation.
From Verif Require Import Mom_Base Mom_Spec Mom_Facts Xr_Facts Sched_Model Atm_Model Psd_Model Lidar_Model Lidar_Spec
  Lidar_Od Lidar_Loop Lidar_Api Lidar_Perm Lidar_Corol Mom_Writes Psd_Spec Psd_Int Psd_Facts Radar_Model
  Micro_Spec Micro_Loop Micro_Char Micro_Call Micro_Psd Micro_Cell.
From Verif Require Gen_Spec.
Local Open Scope R_scope.

Section Call.
Variables (Gam : R -> R) (e : menv) (ins : inst) (o : lopts) (hs : list string) (s s1 : dset).
Hypotheses (TO : micro_tables_ok e) (Ee : o_emp o = false) (Er : o_rad o = false)
  (Hc : classes_of e (o_hyds o) hs) (NT : ~ In "tot"%string hs)
  (HG : forall h, In h hs -> gamma_class e h) (HT : totals_stored s)
  (E : calc_lidar_moments Gam e ins o false s = (Ok tt, s1)).

Lemma micro_value h tab D B A i t k q n r :
  In h hs -> class_table e ins (o_mie o) h tab -> particle_table tab D B A -> cell e i t k ->
  holds_particles e s h i t k q n r -> gamma_known Gam (class_shape e (o_kw o) h n) ->
  let mu := class_shape e (o_kw o) h n in
  exists lam n0, carries r q n mu lam n0 /\
    value s1 (out "alpha_p" h false) i t k = XF (population D A (gamma_psd n0 lam mu)) /\
    value s1 (out "beta_p" h false) i t k = XF (population D B (gamma_psd n0 lam mu)).
Proof.
  intros Hh CT ST C (Vq & Vn & Dn & hq & hn & hr & fl & Hf & Hp) [g1 g4] mu.
  destruct (micro_leaves Gam e ins o hs s s1 TO Ee Er Hc NT HG HT E) as (zr & lut & Hz & Hl & (L1 & _) & _).
  destruct (L1 h Hh) as (al & be & Hm & V1 & V2 & _).
  destruct (mopt_value Gam e ins (o_mie o) (o_sched o) (o_kw o) lut h s al be i t k q n r D B A (HG h Hh) Hm C Vq Vn Dn hq hn hr)
    as (lam & n0 & P1 & P2 & P3 & P4 & fl' & Hf' & Ea & Eb); auto.
  { intros tab' Ht. rewrite (table_ok e ins (o_mie o) h lut tab' tab Hl Ht CT). exact ST. }
  assert (fl' = fl) as -> by (unfold varb in *; congruence).
  cbv zeta in Ea, Eb.
  assert (Z : all_zero_level e (weighted fl (fun i t k => value s (nn false h) i t k)) t k = false).
  { eapply (fun G => present_level G e); [exact Gam|apply C|exact Hp|]. exists n. split; [exact Vn|lra]. }
  rewrite Z in Ea, Eb.
  exists lam, n0. split; [repeat split; assumption|].
  rewrite (value_var _ _ _ _ _ _ V1), (value_var _ _ _ _ _ _ V2). unfold fill0, map3. rewrite Ea, Eb. auto.
Qed.

Lemma micro_empty h i t k : In h hs -> cell e i t k ->
  holds_none s h i t k ->
  value s1 (out "alpha_p" h false) i t k = XF 0 /\ value s1 (out "beta_p" h false) i t k = XF 0.
Proof.
  intros Hh C Vq.
  destruct (micro_leaves Gam e ins o hs s s1 TO Ee Er Hc NT HG HT E) as (zr & lut & Hz & Hl & (L1 & _) & _).
  destruct (L1 h Hh) as (al & be & Hm & V1 & V2 & _).
  rewrite (value_var _ _ _ _ _ _ V1), (value_var _ _ _ _ _ _ V2).
  apply (mopt_empty Gam e ins (o_mie o) (o_sched o) (o_kw o) lut h s al be i t k (HG h Hh) Hm (proj1 (proj2 C)) Vq).
Qed.

Lemma micro_nonneg h tab D B A i t k q n r :
  In h hs -> class_table e ins (o_mie o) h tab -> particle_table tab D B A ->
  (forall x, In x A \/ In x B -> 0 <= x) -> cell e i t k ->
  value s (qn false h) i t k = XF q -> value s (nn false h) i t k = XF n -> density_at e s h t k r ->
  (0 < q -> 0 < n) -> 0 < r ->
  gamma_known Gam (class_shape e (o_kw o) h n) ->
  exists a b, value s1 (out "alpha_p" h false) i t k = XF a /\ value s1 (out "beta_p" h false) i t k = XF b /\
    0 <= a /\ 0 <= b.
Proof.
  intros Hh CT ST HP C Vq Vn Dn hn hr [g1 g4].
  destruct (Rlt_dec 0 q) as [hq|hq].
  - destruct (micro_leaves Gam e ins o hs s s1 TO Ee Er Hc NT HG HT E) as (zr & lut & Hz & Hl & (L1 & _) & _).
    destruct (L1 h Hh) as (al & be & Hm & V1 & V2 & _).
    destruct (mopt_value Gam e ins (o_mie o) (o_sched o) (o_kw o) lut h s al be i t k q n r D B A (HG h Hh) Hm C Vq Vn Dn hq (hn hq) hr)
      as (lam & n0 & P1 & P2 & P3 & Pn & fl' & Hf' & Ea & Eb); auto.
    { intros tab' Ht. rewrite (table_ok e ins (o_mie o) h lut tab' tab Hl Ht CT). exact ST. }
    rewrite (value_var _ _ _ _ _ _ V1), (value_var _ _ _ _ _ _ V2). unfold fill0, map3. cbv zeta in Ea, Eb. rewrite Ea, Eb.
    destruct ST as (_ & _ & _ & Inc).
    destruct (all_zero_level e _ t k).
    + exists 0, 0. repeat split; lra.
    + eexists _, _. split; [reflexivity|]. split; [reflexivity|].
      split; apply population_nonneg; auto; intros d Hd; unfold gamma_psd;
        (apply Rmult_le_pos; [apply Rmult_le_pos; [lra|unfold Rpower; left; apply exp_pos]|left; apply exp_pos]).
  - destruct (micro_empty h i t k Hh C) as [Ea Eb].
    { unfold holds_none. rewrite Vq. apply xltb_fin_f. lra. }
    exists 0, 0. rewrite Ea, Eb. repeat split; lra.
Qed.

Lemma micro_totals_sum :
  (forall f h, In f lidar_fields -> In h hs -> exists a, var3 s1 (out f h false) a) /\
  forall f i t k, In f lidar_fields ->
    value s1 (out f "tot" false) i t k
    = xadd (total_before s f i t k) (xsum (map (fun h => fillna 0 (value s1 (out f h false) i t k)) hs)).
Proof.
  destruct (micro_leaves Gam e ins o hs s s1 TO Ee Er Hc NT HG HT E) as (zr & lut & Hz & Hl & (L1 & L2 & L3) & _).
  split; [|exact L3]. intros f h Hf Hh. destruct (L1 h Hh) as (al & be & Hm & V1 & V2 & V3).
  simpl in Hf. destruct Hf as [<-|[<-|[<-|[]]]]; eauto.
Qed.

Lemma micro_repeat : hs <> [] -> exists s2, calc_lidar_moments Gam e ins o false s1 = (Ok tt, s2) /\
  forall f i t k, In f lidar_fields ->
    (forall h, In h hs -> value s2 (out f h false) i t k = value s1 (out f h false) i t k) /\
    value s2 (out f "tot" false) i t k
    = xadd (value s1 (out f "tot" false) i t k) (xsum (map (fun h => fillna 0 (value s1 (out f h false) i t k)) hs)).
Proof.
  intros Hne.
  destruct (micro_leaves Gam e ins o hs s s1 TO Ee Er Hc NT HG HT E) as (zr & lut & Hz & Hl & (L1 & L2 & L3) & Ag & _).
  assert (HT1 : totals_stored s1) by (intros _; exact L2).
  assert (Hb : has s1 (out "beta_p" "tot" false) = true).
  { destruct (L2 "beta_p"%string) as (a & Ha); [simpl; tauto|]. apply has_var3 with (a := a). exact Ha. }
  destruct (micro_again Gam e ins o o hs hs s s1 s1) as (s2 & E2 & V); auto; try congruence.
  exists s2. split; [exact E2|]. intros f i t k Hf. split; [intros h Hh; apply V; assumption|].
  destruct (micro_leaves Gam e ins o hs s1 s2 TO Ee Er Hc NT HG HT1 E2) as (zr2 & lut2 & Hz2 & Hl2 & (_ & _ & M3) & _).
  rewrite (M3 f i t k Hf). unfold total_before. rewrite Hb. do 2 f_equal. apply map_ext_in. intros h Hh.
  rewrite V by assumption. reflexivity.
Qed.
End Call.

(** Order of the classes. *)
Lemma micro_order Gam e ins o hs1 hs2 s s1 :
  micro_tables_ok e -> o_emp o = false -> o_rad o = false -> Permutation hs1 hs2 -> ~ In "tot"%string hs1 ->
  (forall h, In h hs1 -> gamma_class e h) -> totals_stored s ->
  calc_lidar_moments Gam e ins (with_hyds o hs1) false s = (Ok tt, s1) ->
  exists s2, calc_lidar_moments Gam e ins (with_hyds o hs2) false s = (Ok tt, s2) /\
    forall f h i t k, In f lidar_fields -> In h ("tot"%string :: hs1) ->
      value s2 (out f h false) i t k = value s1 (out f h false) i t k.
Proof.
  intros TO Ee Er P NT HG HT E.
  destruct (micro_leaves Gam e ins (with_hyds o hs1) hs1 s s1 TO Ee Er eq_refl NT HG HT E)
    as (zr & lut & Hz & Hl & (L1 & L2 & L3) & Ag & He).
  destruct (micro_again Gam e ins (with_hyds o hs1) (with_hyds o hs2) hs1 hs2 s s s1) as (s2 & E2 & V); auto; try reflexivity.
  { intros x Hx. reflexivity. }
  exists s2. split; [exact E2|]. intros f h i t k Hf [<-|Hh]; [|apply V; assumption].
  assert (NT2 : ~ In "tot"%string hs2).
  { intro I. apply NT. apply (Permutation_in _ (Permutation_sym P) I). }
  assert (HG2 : forall h, In h hs2 -> gamma_class e h).
  { intros h Hh. apply HG. apply (Permutation_in _ (Permutation_sym P) Hh). }
  destruct (micro_leaves Gam e ins (with_hyds o hs2) hs2 s s2 TO Ee Er eq_refl NT2 HG2 HT E2)
    as (zr2 & lut2 & Hz2 & Hl2 & (_ & _ & M3) & _).
  rewrite (M3 f i t k Hf), (L3 f i t k Hf). f_equal.
  rewrite (xsum_perm _ _ (Permutation_map (fun h => fillna 0 (value s2 (out f h false) i t k)) (Permutation_sym P))).
  f_equal. apply map_ext_in. intros h Hh. rewrite V by assumption. reflexivity.
Qed.

(** Some of the classes. *)
Lemma micro_fewer Gam e ins o hs1 hs2 s s1 :
  micro_tables_ok e -> o_emp o = false -> o_rad o = false -> (forall h, In h hs2 -> In h hs1) -> hs2 <> [] -> ~ In "tot"%string hs1 ->
  (forall h, In h hs1 -> gamma_class e h) -> totals_stored s ->
  calc_lidar_moments Gam e ins (with_hyds o hs1) false s = (Ok tt, s1) ->
  exists s2, calc_lidar_moments Gam e ins (with_hyds o hs2) false s = (Ok tt, s2) /\
    forall f h i t k, In f lidar_fields -> In h hs2 ->
      value s2 (out f h false) i t k = value s1 (out f h false) i t k.
Proof.
  intros TO Ee Er P Hne NT HG HT E.
  apply (micro_some Gam e ins (with_hyds o hs1) (with_hyds o hs2) hs1 hs2 s s s1); auto; try reflexivity.
  intros x Hx. reflexivity.
Qed.

(** *** Schedules *)
Lemma lbind_ext {A B} (m : L A) (k k' : A -> L B) s : (forall a s, k a s = k' a s) -> lbind m k s = lbind m k' s.
Proof. intro H. unfold lbind. destruct (m s) as [[a|x] s']; [apply H|reflexivity]. Qed.
Lemma micro_loop_sched Gam e ins z sfc mie kw lut sch sch' : tt_order sch (ntm e) = tt_order sch' (ntm e) ->
  forall hs l s, micro_loop Gam e ins z sfc mie sch kw lut hs l s = micro_loop Gam e ins z sfc mie sch' kw lut hs l s.
Proof.
  intros H hs. induction hs as [|h hs IH]; intros l s; [reflexivity|]. cbn [micro_loop]. cbv zeta. rewrite H.
  repeat first [apply IH | apply lbind_ext; intros ? ?].
Qed.
Lemma micro_sched Gam e ins o c sch s : Gen_Spec.good_sched (o_sched o) -> Gen_Spec.good_sched sch ->
  calc_lidar_moments Gam e ins (with_sched o sch) c s = calc_lidar_moments Gam e ins o c s.
Proof.
  intros H1 H2. unfold calc_lidar_moments.
  apply lbind_ext; intros hs' s'. destruct (negb (String.eqb (lower (i_class ins)) "lidar")); [reflexivity|].
  apply lbind_ext; intros q s''. destruct (negb q); [reflexivity|]. cbv zeta.
  apply lbind_ext; intros ? ?. apply lbind_ext; intros ? ?. apply lbind_ext; intros ? ?.
  apply lbind_ext; intros ? ?. apply lbind_ext; intros ? ?. apply lbind_ext; intros ? ?.
  match goal with |- lbind ?m _ _ = lbind ?m' _ ?s => assert (Em : m s = m' s) end.
  { cbn [with_sched o_emp o_rad o_sfc o_mie o_sched o_kw]. destruct (o_emp o); [reflexivity|].
    destruct (o_rad o || c); [reflexivity|]. unfold calc_lidar_micro. apply lbind_ext; intros ? ?.
    apply lbind_ext; intros ? ?. apply micro_loop_sched.
    rewrite !Strat_Refuted.columns_once by assumption. reflexivity. }
  unfold lbind at 1 4. rewrite Em. reflexivity.
Qed.
