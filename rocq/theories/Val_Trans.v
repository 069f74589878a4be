(** Transmittance of the bulk radar method for an instrument at the surface. *)
From Verif Require Import Mom_Base Mom_Spec Mom_Facts Xr_Facts Sched_Model Atm_Model Psd_Model Lidar_Model
  Lidar_Spec Lidar_Od Lidar_Ldr Lidar_Loop Lidar_Api Lidar_Perm Lidar_Corol Class_Model Class_Spec Class_Lidar
  Radar_Model Radar_Spec Radar_Att Radar_Loop Radar_Api Radar_Corol Radar_Gas Val_Spec Val_Lidar Val_Bulk.
Local Open Scope R_scope.

(** From the surface the uppermost level's extinction is not used. *)
Lemma removelast_prof3 e (a b : arr3) i t :
  (forall k, (S k < nht e)%nat -> a i t k = b i t k) -> removelast (prof3 e a i t) = removelast (prof3 e b i t).
Proof.
  intro H. unfold prof3. destruct (nht e) as [|m] eqn:En; [reflexivity|].
  rewrite seq_S, !map_app. cbn [map]. rewrite !removelast_last.
  apply map_ext_in. intros k Hk. apply in_seq in Hk. apply H. lia.
Qed.
Lemma hyd_T_below e emp z a b i t k :
  (forall j, (S j < nht e)%nat -> a i t j = b i t j) -> hyd_T e true emp z a i t k = hyd_T e true emp z b i t k.
Proof.
  intro H. unfold hyd_T, map3, of_prof3, od_profile. destruct emp.
  - rewrite (removelast_prof3 e a b i t H). reflexivity.
  - rewrite (removelast_prof3 e (fun i t k => xmul (a i t k) (XF 1000)) (fun i t k => xmul (b i t k) (XF 1000)) i t).
    + reflexivity.
    + intros j Hj. rewrite H by exact Hj. reflexivity.
Qed.

Lemma fold_add_real (G : string -> arr3) (f : string -> R) i t k hs (z : arr3) r :
  z i t k = XF r -> (forall h, In h hs -> G h i t k = XF (f h)) ->
  fold_left (lift2 xadd) (map G hs) z i t k = XF (r + total_of f hs).
Proof.
  revert z r. induction hs as [|h hs IH]; intros z r Hz HG.
  - cbn [map fold_left total_of fold_right]. rewrite Hz, Rplus_0_r. reflexivity.
  - cbn [map fold_left]. rewrite (IH _ (r + f h)).
    + f_equal. unfold total_of. cbn [map fold_right]. ring.
    + unfold lift2. rewrite Hz, HG by (left; reflexivity). reflexivity.
    + intros; apply HG; right; assumption.
Qed.

Section Call.
Variable Gam : R -> R.

Lemma bulk_leaves e ins o c hs s s1 (K : string -> bulk_class_data) P Z :
  radar_tables_ok e c -> r_emp o = false -> r_sfc o = true -> r_rad o || c = true -> plain hs ->
  classes_of e (r_hyds o) hs -> (forall h, In h hs -> self_contained e h) ->
  calc_radar_moments Gam e ins o c s = (Ok tt, s1) ->
  0 < grav ins -> 0 < rho_ice ins -> pressures e s P -> heights e s Z ->
  (forall t k, (t < ntm e)%nat -> (S k < nht e)%nat -> Z t k < Z t (S k)) ->
  (forall h, In h hs -> bulk_data e ins c (r_mie o) s h (K h)) ->
  (forall h i t k, In h hs -> size_table e h -> cell e i t k -> bd_present (K h) i t k = true) ->
  real3 e s1 (hyd_ext_name c) (fun i t k =>
    two_way (od_up (Z t) (fun j => total_of (fun h => bulk_extinction (grav ins) (K h) (P t) (Z t) i t j) hs) k)).
Proof.
  intros Tk Ee Es Er PL Hc SC E Hg Hri (pr' & Vp & HP) (zr' & Vz & HZ) Zm HK HF.
  assert (NM : not_micro_r o c = true) by (unfold not_micro_r; rewrite Ee; exact Er).
  destruct (radar_leaves Gam e ins o c hs s s1 Tk NM PL (fun h H => or_intror (SC h H)) Hc E)
    as (q & pr & tr & zr & s0 & atm & FF & El & Hq & Hp & Ht & Hz & Ea & Ha & RD & HC & L1).
  red in Hp, Vp. rewrite Hp in Vp. injection Vp as <-.
  red in Hz, Vz. rewrite Hz in Vz. injection Vz as <-.
  destruct L1 as (_ & _ & _ & _ & A5 & _). rewrite Es, Ee in A5.
  eexists. split; [exact A5|]. intros i t k Hcell.
  set (X := fun i t j => total_of (fun h => bulk_extinction (grav ins) (K h) (P t) (Z t) i t j) hs).
  rewrite (hyd_T_below e false _ _ (fun i t j => XF (X i t j))).
  - rewrite (hyd_T_real e true false _ _ Z X); [reflexivity|exact HZ|reflexivity|exact Hcell].
  - intros j Hj. unfold hyd_of. rewrite Ee.
    rewrite <- (Rplus_0_l (X i t j)). unfold X.
    rewrite (fold_add_real (fun h => fst (FF h)) (fun h => bulk_extinction (grav ins) (K h) (P t) (Z t) i t j)
               i t j hs zeros3 0); [reflexivity|reflexivity|].
    intros h Hh. specialize (HC h Hh). unfold rcon in HC. rewrite Ee in HC. unfold bulk_con in HC.
    match type of HC with bind ?X _ = _ => destruct X as [[l1 [[ar re] fl]]|] eqn:EA; [|discriminate HC] end.
    cbn [bind] in HC.
    match type of HC with bind ?X _ = _ => destruct X as [[l2 [qe qb]]|] eqn:EE; [|discriminate HC] end.
    cbn [bind] in HC. destruct (g3 s (qn c (dims_of e h))); [|discriminate HC]. cbn [bind] in HC. injection HC as HC.
    destruct Hcell as (H1 & H2 & H3).
    assert (Hcell : cell e i t j) by (repeat split; lia).
    destruct (HK h Hh) as (B1 & B2 & B3 & B4 & B5 & B6).
    destruct (bulk_cell_value _ _ _ _ _ _ _ _ _ _ _ _ _ _ _ _ _ _ _ _ _ _ _ _ B5 Hri B1 Hg B6 B3 B4 HP HZ EA EE
              i t j Hcell Hj (Zm t j H2 Hj)) as [HA HE]; [apply B2; split; lia|].
    rewrite <- HC. cbn [fst]. unfold lift2. rewrite HA. unfold bulk_extinction.
    destruct HE as [[-> _]|(Fl & _ & _ & ST)].
    + destruct (bd_present (K h) i t j); cbn [xmul]; f_equal; ring.
    + rewrite (HF h i t j Hh ST Hcell) in Fl. discriminate Fl.
Qed.

Lemma od_up_mono Z A k k' n :
  (forall j, (S j < n)%nat -> Z j <= Z (S j)) -> (forall j, (S j < n)%nat -> 0 <= A j) ->
  (k <= k')%nat -> (k' < n)%nat -> 0 <= od_up Z A k <= od_up Z A k'.
Proof.
  intros HZ HA Hk Hn. unfold od_up.
  assert (T : forall j, (S j < n)%nat -> 0 <= (Z (S j) - Z j) * A j).
  { intros j Hj. apply Rmult_le_pos; [specialize (HZ j Hj); lra|apply HA; exact Hj]. }
  split.
  - assert (Lk : (k < n)%nat) by lia. clear Hk Hn. induction k as [|k IH]; simpl; [lra|].
    specialize (IH ltac:(lia)). specialize (T k Lk). lra.
  - induction Hk as [|m Hm IH]; [lra|]. simpl. specialize (IH ltac:(lia)). specialize (T m ltac:(lia)). lra.
Qed.
Lemma two_way_mono a b : a <= b -> two_way b <= two_way a.
Proof.
  intro H. unfold two_way. destruct (Rle_lt_or_eq_dec _ _ H) as [L| ->]; [|lra].
  left. apply exp_increasing. lra.
Qed.
Lemma total_of_nonneg f hs : (forall h, In h hs -> 0 <= f h) -> 0 <= total_of f hs.
Proof.
  unfold total_of. induction hs as [|h hs IH]; intro H; simpl; [lra|].
  assert (0 <= f h) by (apply H; left; reflexivity).
  assert (0 <= fold_right Rplus 0 (map f hs)) by (apply IH; intros; apply H; right; assumption). lra.
Qed.

Lemma bulk_extinction_nonneg g d P Z i t k :
  0 < g -> 0 < bd_density d -> 0 < bd_radius d t k -> Z k < Z (S k) -> 0 <= bd_mass d i t k -> 0 <= bd_ext d t k ->
  0 <= bulk_extinction g d P Z i t k.
Proof.
  intros Hg B1 B3 HZ N1 N2. unfold bulk_extinction. destruct (bd_present d i t k); [|lra].
  apply Rmult_le_pos; [exact N2|]. unfold projected_area, layer_water.
  apply div_nonneg.
  - apply Rmult_le_pos; [lra|]. apply div_nonneg; [|lra]. apply div_nonneg; [|exact Hg].
    apply Rmult_le_pos; [exact N1|apply Rabs_pos].
  - apply Rmult_lt_0_compat; [lra|]. apply div_pos; [exact B3|]. apply pow_lt; lra.
Qed.

(** The bulk method from the surface never amplifies. *)
Lemma bulk_from_surface e ins o c hs s s1 (K : string -> bulk_class_data) P T Q Z :
  radar_tables_ok e c -> r_emp o = false -> r_sfc o = true -> r_rad o || c = true -> plain hs ->
  classes_of e (r_hyds o) hs -> (forall h, In h hs -> self_contained e h) ->
  calc_radar_moments Gam e ins o c s = (Ok tt, s1) ->
  0 < grav ins -> 0 < rho_ice ins -> 0 < r_d ins -> atmosphere e s P T Q Z ->
  (forall t k, (t < ntm e)%nat -> (S k < nht e)%nat -> Z t k < Z t (S k)) ->
  (forall h, In h hs -> bulk_data e ins c (r_mie o) s h (K h)) ->
  (forall h i t k, In h hs -> size_table e h -> cell e i t k -> bd_present (K h) i t k = true) ->
  (forall h i t k, In h hs -> cell e i t k -> 0 <= bd_mass (K h) i t k /\ 0 <= bd_ext (K h) t k) ->
  exists TH TA, real3 e s1 (hyd_ext_name c) TH /\ real2 e s1 "atm_ext" TA
    /\ (forall i t k, cell e i t k -> 0 < TH i t k <= 1 /\ 0 < TA t k <= 1)
    /\ (forall i t, cell e i t 0 -> TH i t 0%nat = 1 /\ TA t 0%nat = 1)
    /\ (forall i t k k', cell e i t k -> cell e i t k' -> (k <= k')%nat ->
          TH i t k' <= TH i t k /\ TA t k' <= TA t k).
Proof.
  intros Tk Ee Es Er PL Hc SC E Hg Hri Hr AT Zm HK HF HN.
  assert (PR : pressures e s (fun t k => 100 * P t k)).
  { destruct AT as (pa & ta & qa & za & Vp & _ & _ & _ & AT). exists pa. split; [exact Vp|]. intros; apply AT; assumption. }
  assert (HT : heights e s Z).
  { destruct AT as (pa & ta & qa & za & _ & _ & _ & Vz & AT). exists za. split; [exact Vz|]. intros; apply AT; assumption. }
  pose proof (bulk_leaves e ins o c hs s s1 K _ Z Tk Ee Es Er PL Hc SC E Hg Hri PR HT Zm HK HF) as RH.
  assert (NM : not_micro_r o c = true) by (unfold not_micro_r; rewrite Ee; exact Er).
  destruct (radar_leaves Gam e ins o c hs s s1 Tk NM PL (fun h H => or_intror (SC h H)) Hc E)
    as (q & pr & tr & zr & s0 & atm & FF & El & Hq & Hp & Ht & Hz & Ea & Ha & RD & HC & L1).
  destruct (atm_attenuation_real _ _ _ _ _ _ _ _ _ Hr AT Ea Ha) as (A & HA).
  destruct L1 as (_ & _ & _ & _ & _ & A6 & _). rewrite Es in A6.
  destruct HT as (za & Vz & HZ). red in Hz, Vz. rewrite Hz in Vz. injection Vz as <-.
  eexists. exists (fun t k => two_way_dB (path true (nht e) (km (Z t)) (A t) k)).
  split; [exact RH|]. split.
  { eexists. split; [exact A6|]. intros t k Hpt. apply atm_T_real; auto. intros. apply HA. assumption. }
  assert (Zm' : forall t, (t < ntm e)%nat -> forall j, (S j < nht e)%nat -> Z t j <= Z t (S j)).
  { intros t L j Hj. left. apply Zm; assumption. }
  assert (Y2 : forall t (L : (t < ntm e)%nat), _) by
    (intros t L; exact (trans_profile true (nht e) (Z t) (A t) (Zm' t L) (fun j Hj => proj2 (HA t j (conj L Hj))))).
  cbn beta zeta in Y2.
  assert (Y1 : forall i t k k', (i < nsub e)%nat -> (t < ntm e)%nat -> (k <= k')%nat -> (k' < nht e)%nat ->
    let A := fun j => total_of (fun h => bulk_extinction (grav ins) (K h) (fun k => 100 * P t k) (Z t) i t j) hs in
    0 <= od_up (Z t) A k <= od_up (Z t) A k').
  { intros i t k k' L1 L2 L3 L4. apply od_up_mono with (n := nht e); auto.
    intros j Hj. apply total_of_nonneg. intros h Hh.
    assert (Hcj : cell e i t j) by (repeat split; lia).
    destruct (HK h Hh) as (B1 & B2 & _). destruct (HN h i t j Hh Hcj) as [N1 N2].
    apply bulk_extinction_nonneg; auto. apply B2. split; lia. }
  cbv zeta in Y1.
  cbn beta. split; [|split].
  - intros i t k (L1 & L2 & L3). split; [|apply (Y2 t L2); exact L3].
    split; [apply exp_pos|]. specialize (Y1 i t k k L1 L2 (le_n _) L3).
    replace 1 with (two_way 0) by (unfold two_way; rewrite Rmult_0_r; apply exp_0).
    apply two_way_mono. lra.
  - intros i t (L1 & L2 & L3). split; [|apply (Y2 t L2); [exact L3|reflexivity]].
    unfold od_up, two_way. simpl. rewrite Rmult_0_r. apply exp_0.
  - intros i t k k' (L1 & L2 & L3) (_ & _ & L4) N. split; [|apply (Y2 t L2); assumption].
    apply two_way_mono. apply (Y1 i t k k' L1 L2 N L4).
Qed.
End Call.
