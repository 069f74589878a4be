(** The radar microphysics method: values, totals, order, repetition,
    schedule, and where it fails. *)
From Coq Require Import Permutation.
From Verif Require Import Mom_Base Mom_Spec Mom_Facts Xr_Facts Sched_Model Atm_Model Psd_Model Lidar_Model Lidar_Spec
  Lidar_Od Lidar_Loop Lidar_Api Lidar_Corol Psd_Spec Radar_Model Radar_Spec Radar_Total Radar_Att Radar_Loop Radar_Api
  Radar_Corol Micro_Spec Micro_Loop Micro_Char Micro_Psd Micro_Cell Micro_Lidar Micro_Rloop Micro_Rcall Micro_Rcell.
From Verif Require Gen_Spec Strat_Refuted.
Local Open Scope R_scope.

Lemma from_cl_in h hs : In h (from_cl hs) -> In h hs.
Proof.
  induction hs as [|x hs IH]; intro H; [exact H|]. cbn [from_cl] in H.
  destruct (existsb _ hs); [right; auto|exact H].
Qed.
Lemma existsb_cl hs : existsb (String.eqb "cl") hs = true <-> In "cl"%string hs.
Proof.
  rewrite existsb_exists. split; [intros (x & I & E); apply String.eqb_eq in E; subst x; exact I|].
  intro I. exists "cl"%string. split; [exact I|reflexivity].
Qed.
Lemma from_cl_cut pre post : ~ In "cl"%string post -> from_cl (pre ++ "cl"%string :: post) = "cl"%string :: post.
Proof.
  intro N. induction pre as [|x pre IH]; cbn [app from_cl].
  - destruct (existsb _ post) eqn:E; [apply existsb_cl in E; tauto|reflexivity].
  - destruct (existsb _ (pre ++ _)) eqn:E; [exact IH|].
    assert (existsb (String.eqb "cl") (pre ++ "cl"%string :: post) = true); [|congruence].
    apply existsb_cl. apply in_or_app. right. left. reflexivity.
Qed.
Lemma from_cl_none hs : ~ In "cl"%string hs -> from_cl hs = hs.
Proof.
  destruct hs as [|x hs]; intro N; [reflexivity|]. cbn [from_cl].
  destruct (existsb _ hs) eqn:E; [|reflexivity]. apply existsb_cl in E. exfalso. apply N. right. exact E.
Qed.

Section Call.
Variables (Gam : R -> R) (e : menv) (ins : inst) (o : ropts) (hs : list string) (s s1 : dset).
Hypotheses (TO : rmicro_tables_ok e) (Ee : r_emp o = false) (Er : r_rad o = false)
  (Hc : classes_of e (r_hyds o) hs) (PL : plain hs) (HG : forall h, In h hs -> gamma_class e h)
  (Hkw : 0 < k_w ins) (E : calc_radar_moments Gam e ins o false s = (Ok tt, s1)).

Lemma linear_pos r : 0 <= r -> linear (dBZ r) = r. Proof. intro H. apply linear_dBZ. exact H. Qed.

Lemma rm_value h tab D B A w x i t k q n r :
  In h hs -> class_table e ins (r_mie o) h tab -> particle_table tab D B A ->
  (forall b, In b B -> 0 < b) -> (2 <= length D)%nat -> cell e i t k ->
  holds_particles e s h i t k q n r -> gamma_known Gam (class_shape e (r_kw o) h n) ->
  class_speed e h w -> air_factor e s h t k x ->
  let mu := class_shape e (r_kw o) h n in
  exists lam n0, carries r q n mu lam n0 /\
    let nd := gamma_psd n0 lam mu in let V := map (fun d => w d * x) D in
    0 < population D B nd /\
    value s1 (out "Ze" h false) i t k = dBZ (reflectivity ins (population D B nd)) /\
    value s1 (out "Vd" h false) i t k = XF (mean_of D V B nd) /\
    (r_width o = true -> value s1 (out "sigma_d" h false) i t k = XF (spread_of D V B nd)).
Proof.
  intros Hh CT ST HB HD C HP HK HS HA mu.
  destruct (rmicro_leaves Gam e ins o hs TO Ee Er Hc PL HG s s1 E) as (_ & zr & lut & Cs & _ & Hl & (L1 & _) & _).
  destruct (L1 h Hh) as (R0 & R1 & R2 & R3).
  destruct (robs_value Gam e ins (r_mie o) (r_sched o) (r_kw o) lut h s (Cs h) i t k q n r D B A w x) as (lam & n0 & Hcar & HM & HV); auto.
  { intros tab' Ht. rewrite (rtable_ok e ins (r_mie o) h lut tab' tab Hl Ht CT). exact ST. }
  exists lam, n0. split; [exact Hcar|]. split; [exact HM|]. split; [|split].
  - rewrite R1, HV. reflexivity.
  - rewrite (value_var _ _ _ _ _ _ R2), HV. reflexivity.
  - intro Wd. rewrite Wd in R3. rewrite (value_var _ _ _ _ _ _ R3), HV. reflexivity.
Qed.

Lemma rm_missing h i t k : In h hs -> cell e i t k -> holds_none s h i t k ->
  value s1 (out "Ze" h false) i t k = XNaN.
Proof.
  intros Hh C HN.
  destruct (rmicro_leaves Gam e ins o hs TO Ee Er Hc PL HG s s1 E) as (_ & zr & lut & Cs & _ & Hl & (L1 & _) & _).
  destruct (L1 h Hh) as (R0 & R1 & _).
  destruct (robs_empty Gam e ins _ _ _ lut h s (Cs h) i t k (HG h Hh) R0 (proj1 (proj2 C)) Hkw HN) as (ob & (_ & _ & _ & _ & S5) & HV).
  rewrite R1, HV. exact S5.
Qed.

Lemma rm_speed h tab D B A w x i t k q n r lo hi :
  In h hs -> class_table e ins (r_mie o) h tab -> particle_table tab D B A ->
  (forall b, In b B -> 0 < b) -> (2 <= length D)%nat -> cell e i t k ->
  holds_particles e s h i t k q n r -> gamma_known Gam (class_shape e (r_kw o) h n) ->
  class_speed e h w -> air_factor e s h t k x -> (forall d, In d D -> lo <= w d * x <= hi) ->
  exists v, value s1 (out "Vd" h false) i t k = XF v /\ lo <= v <= hi /\
    (r_width o = true -> exists g, value s1 (out "sigma_d" h false) i t k = XF g /\ 0 <= g <= hi - lo).
Proof.
  intros Hh CT ST HB HD C HP HK HS HA HV.
  destruct (rm_value h tab D B A w x i t k q n r Hh CT ST HB HD C HP HK HS HA) as (lam & n0 & Hcar & HM & _ & V1 & V2).
  destruct ST as (_ & LB & _ & Inc). set (mu := class_shape e (r_kw o) h n) in *.
  set (nd := gamma_psd n0 lam mu) in *. set (V := map (fun d => w d * x) D) in *.
  assert (Nd : forall d, 0 < d -> 0 <= nd d).
  { intros d _. left. apply gamma_psd_pos. apply Hcar. }
  assert (LV : length V = length D) by (unfold V; apply map_length).
  assert (HB0 : forall b, In b B -> 0 <= b) by (intros b Hb; left; auto).
  assert (RV : forall v, In v V -> lo <= v <= hi).
  { intros v Hv. unfold V in Hv. apply in_map_iff in Hv as (d & <- & Hd). auto. }
  pose proof (mean_range D V B nd lo hi LV LB Inc HB0 Nd HM RV) as RM.
  exists (mean_of D V B nd). split; [exact V1|]. split; [exact RM|].
  intro Wd. exists (spread_of D V B nd). split; [exact (V2 Wd)|].
  unfold spread_of. split; [apply sqrt_pos|]. set (m := mean_of D V B nd) in *.
  assert (Hw : 0 <= hi - lo) by lra.
  rewrite <- (sqrt_Rsqr (hi - lo) Hw). apply sqrt_le_1_alt.
  assert (LW : length (map (fun v => (v - m) ^ 2) V) = length D) by (rewrite map_length; exact LV).
  refine (proj2 (mean_range D (map (fun v => (v - m) ^ 2) V) B nd 0 (Rsqr (hi - lo)) LW LB Inc HB0 Nd HM _)).
  intros u Hu. apply in_map_iff in Hu as (v & <- & Hv). split; [apply pow2_ge_0|].
  specialize (RV v Hv). unfold Rsqr. 
  replace ((v - m) ^ 2) with ((v - m) * (v - m)) by ring.
  assert (Hab : Rabs (v - m) <= hi - lo) by (apply Rabs_le; lra).
  rewrite <- (Rabs_pos_eq ((v - m) * (v - m))) by (pose proof (Rle_0_sqr (v - m)) as Hq; exact Hq). rewrite Rabs_mult.
  apply Rmult_le_compat; auto using Rabs_pos.
Qed.

(** What one class adds to a cell. *)
Lemma rm_det (lut : string * bool) h (C : list (nat -> nat -> obs)) i t k : In h hs -> cell e i t k -> radar_lut (r_mie o) (rad_family e) = Ok lut ->
  robs Gam e ins (r_mie o) (r_sched o) (r_kw o) lut h s = Ok C -> 0 < wavelen ins ->
  determined Gam e ins o s h i t k ->
  exists m v, 0 <= m /\ nan_to_num (pt ob_md C i t k) = XF m /\ nan_to_num (pt ob_vn C i t k) = XF (m * v) /\
    fillna 0 (pt ob_ze C i t k) = XF (reflectivity ins m) /\ linear (to_dBZ (pt ob_ze C i t k)) = reflectivity ins m /\
    (0 < m -> pt ob_vd C i t k = XF v) /\
    (forall q n r, holds_particles e s h i t k q n r -> 0 < m).
Proof.
  intros Hh Cl Hl R0 Hw [HN|(q & n & r & tab & D & B & A & w & x & HP & CT & ST & HB & HD & HK & HS & HA)].
  - destruct (robs_empty Gam e ins _ _ _ lut h s C i t k (HG h Hh) R0 (proj1 (proj2 Cl)) Hkw HN) as (ob & (S1 & S2 & S3 & S4 & S5) & HV).
    assert (R00 : reflectivity ins 0 = 0) by (unfold reflectivity, Rdiv; ring).
    exists 0, 0. rewrite !HV, S1, S2, S4, S5, R00. split; [lra|]. split; [reflexivity|].
    split; [apply (f_equal XF); ring|]. split; [reflexivity|]. split; [reflexivity|]. split; [lra|].
    intros q n r (Vq & _ & _ & hq & _). exfalso. unfold holds_none in HN. rewrite Vq in HN.
    apply xltb_fin_f in HN. lra.
  - destruct (robs_value Gam e ins (r_mie o) (r_sched o) (r_kw o) lut h s C i t k q n r D B A w x) as (lam & n0 & Hcar & HM & HV); auto.
    { intros tab' Ht. rewrite (rtable_ok e ins (r_mie o) h lut tab' tab Hl Ht CT). exact ST. }
    set (nd := gamma_psd n0 lam (class_shape e (r_kw o) h n)) in *. set (V := map (fun d => w d * x) D) in *.
    exists (population D B nd), (mean_of D V B nd). rewrite !HV. cbn [ob_md ob_vn ob_ze ob_vd nan_to_num].
    split; [lra|]. split; [reflexivity|]. split.
    { apply (f_equal XF). unfold mean_of. field. lra. }
    assert (P : 0 <= reflectivity ins (population D B nd)).
    { unfold reflectivity. pose proof PI_RGT_0.
      assert (0 < k_w ins * PI ^ 5) by (apply Rmult_lt_0_compat; [exact Hkw|apply pow_lt; lra]).
      apply Rmult_le_pos; [|left; apply Rinv_0_lt_compat; apply pow_lt; lra].
      apply Rmult_le_pos; [|left; apply Rinv_0_lt_compat; lra].
      apply Rmult_le_pos; [lra|]. apply pow_le. lra. }
    split; [reflexivity|]. split; [cbn [to_dBZ]; apply linear_dBZ; exact P|]. auto.
Qed.

Lemma reflectivity_lin m : reflectivity ins m = reflectivity ins 1 * m.
Proof. unfold reflectivity, Rdiv. ring. Qed.
Lemma reflectivity_1 : 0 < wavelen ins -> 0 < reflectivity ins 1.
Proof.
  intro Hw. unfold reflectivity. pose proof PI_RGT_0.
  assert (0 < k_w ins * PI ^ 5) by (apply Rmult_lt_0_compat; [exact Hkw|apply pow_lt; lra]).
  apply Rdiv_lt_0_compat; [|apply pow_lt; lra]. apply Rdiv_lt_0_compat; [|assumption].
  rewrite Rmult_1_l. apply pow_lt. exact Hw.
Qed.
Lemma sum_over_ext {T} (l : list T) f g : (forall x, In x l -> f x = g x) -> sum_over l f = sum_over l g.
Proof.
  induction l as [|a l IH]; intro H; [reflexivity|]. unfold sum_over in *. cbn [fold_right].
  rewrite H, IH; auto; [intros; apply H; right; assumption|left; reflexivity].
Qed.
Lemma sum_over_scale {T} (l : list T) c f : sum_over l (fun x => c * f x) = c * sum_over l f.
Proof. unfold sum_over. induction l as [|a l IH]; cbn [fold_right]; [ring|]. rewrite IH. ring. Qed.
Lemma choose_list {T} (P : string -> T -> Prop) (d : T) : forall l, (forall h, In h l -> exists m, P h m) ->
  exists f, forall h, In h l -> P h (f h).
Proof.
  induction l as [|h l IH]; intro H; [exists (fun _ => d); intros h []|].
  destruct (H h (or_introl eq_refl)) as (m & Hm). destruct IH as (f & Hf); [intros; apply H; right; assumption|].
  exists (fun x => if String.eqb x h then m else f x). intros x I.
  destruct (String.eqb_spec x h) as [->|N]; [exact Hm|]. destruct I as [->|I]; [congruence|auto].
Qed.

(** The total velocity. *)
Lemma rm_total_velocity i t k : cell e i t k -> 0 < wavelen ins ->
  (forall h, In h (from_cl hs) -> determined Gam e ins o s h i t k) ->
  (exists h q n r, In h (from_cl hs) /\ holds_particles e s h i t k q n r) ->
  0 < sum_over (from_cl hs) (fun h => linear (value s1 (out "Ze" h false) i t k)) /\
  value s1 (out "Vd" "tot" false) i t k
  = XF (sum_over (from_cl hs) (fun h => linear (value s1 (out "Ze" h false) i t k) * speed_of (value s1 (out "Vd" h false) i t k))
        / sum_over (from_cl hs) (fun h => linear (value s1 (out "Ze" h false) i t k))).
Proof.
  intros Cl Hw HD (h0 & q0 & n0 & r0 & Ih0 & HP0).
  destruct (rmicro_leaves Gam e ins o hs TO Ee Er Hc PL HG s s1 E) as (_ & zr & lut & Cs & _ & Hl & (L1 & L2 & _) & _).
  assert (X : exists f : string -> R * R, forall h, In h (from_cl hs) ->
     0 <= fst (f h) /\ nan_to_num (pt ob_md (Cs h) i t k) = XF (fst (f h)) /\
     nan_to_num (pt ob_vn (Cs h) i t k) = XF (fst (f h) * snd (f h)) /\
     linear (value s1 (out "Ze" h false) i t k) = reflectivity ins 1 * fst (f h) /\
     fst (f h) * speed_of (value s1 (out "Vd" h false) i t k) = fst (f h) * snd (f h) /\
     (forall q n r, holds_particles e s h i t k q n r -> 0 < fst (f h))).
  { apply (choose_list (fun h (p : R * R) =>
      0 <= fst p /\ nan_to_num (pt ob_md (Cs h) i t k) = XF (fst p) /\
      nan_to_num (pt ob_vn (Cs h) i t k) = XF (fst p * snd p) /\
      linear (value s1 (out "Ze" h false) i t k) = reflectivity ins 1 * fst p /\
      fst p * speed_of (value s1 (out "Vd" h false) i t k) = fst p * snd p /\
      (forall q n r, holds_particles e s h i t k q n r -> 0 < fst p)) (0, 0)). intros h Hf. pose proof (from_cl_in h hs Hf) as Hh.
    destruct (L1 h Hh) as (R0 & R1 & R2 & _).
    destruct (rm_det lut h (Cs h) i t k Hh Cl Hl R0 Hw (HD h Hf)) as (m & v & A1 & A2 & A3 & A4 & A5 & A6 & A7).
    exists (m, v). cbn [fst snd]. do 3 (split; [assumption|]). split.
    - rewrite R1, A5. apply reflectivity_lin.
    - split; [|assumption]. rewrite (value_var _ _ _ _ _ _ R2).
      destruct (Rlt_dec 0 m) as [P|P]; [rewrite (A6 P); reflexivity|].
      assert (m = 0) as -> by lra. ring. }
  destruct X as (f & Hf).
  pose proof (reflectivity_1 Hw) as P1.
  assert (S1 : sum_over (from_cl hs) (fun h => linear (value s1 (out "Ze" h false) i t k))
             = reflectivity ins 1 * sum_over (from_cl hs) (fun h => fst (f h))).
  { rewrite <- sum_over_scale. apply sum_over_ext. intros h Hh. apply Hf. exact Hh. }
  assert (S2 : sum_over (from_cl hs) (fun h => linear (value s1 (out "Ze" h false) i t k) * speed_of (value s1 (out "Vd" h false) i t k))
             = reflectivity ins 1 * sum_over (from_cl hs) (fun h => fst (f h) * snd (f h))).
  { rewrite <- sum_over_scale. apply sum_over_ext. intros h Hh. destruct (Hf h Hh) as (_ & _ & _ & -> & Q & _).
    rewrite Rmult_assoc, Q. reflexivity. }
  assert (P : 0 < sum_over (from_cl hs) (fun h => fst (f h))).
  { assert (G : forall l, (forall h, In h l -> 0 <= fst (f h)) -> (exists h, In h l /\ 0 < fst (f h)) -> 0 < sum_over l (fun h => fst (f h))).
    { induction l as [|a l IH]; intros HA HE; [destruct HE as (? & [] & _)|]. unfold sum_over. cbn [fold_right].
      fold (sum_over l (fun h => fst (f h))).
      assert (0 <= sum_over l (fun h => fst (f h))) by (apply sum_over_nonneg; intros; apply HA; right; assumption).
      pose proof (HA a (or_introl eq_refl)). destruct HE as (h & [<-|I] & Ph); [lra|].
      assert (0 < sum_over l (fun h => fst (f h))); [|lra]. apply IH; [intros; apply HA; right; assumption|eauto]. }
    apply G; [intros h Hh; apply Hf; exact Hh|]. exists h0. split; [exact Ih0|]. destruct (Hf h0 Ih0) as (_ & _ & _ & _ & _ & Q). eauto. }
  split; [rewrite S1; apply Rmult_lt_0_compat; assumption|].
  rewrite L2.
  rewrite (xsum_real (from_cl hs) (fun h => nan_to_num (pt ob_vn (Cs h) i t k)) (fun h => fst (f h) * snd (f h))) by (intros h Hh; apply Hf; exact Hh).
  rewrite (xsum_real (from_cl hs) (fun h => nan_to_num (pt ob_md (Cs h) i t k)) (fun h => fst (f h))) by (intros h Hh; apply Hf; exact Hh).
  rewrite xdiv_fin by lra. rewrite S1, S2. apply (f_equal XF). field. split; lra.
Qed.

(** The total reflectivity. *)
Lemma rm_total_Ze i t k : cell e i t k -> 0 < wavelen ins -> (forall h, In h hs -> determined Gam e ins o s h i t k) ->
  value s1 (out "Ze" "tot" false) i t k
  = to_dBZ (xadd (Ze_before s i t k) (XF (sum_over hs (fun h => linear (value s1 (out "Ze" h false) i t k))))).
Proof.
  intros Cl Hw HD.
  destruct (rmicro_leaves Gam e ins o hs TO Ee Er Hc PL HG s s1 E) as (_ & zr & lut & Cs & _ & Hl & (L1 & _ & _ & L4) & _).
  rewrite L4, to_dBZ_total. do 2 f_equal. apply xsum_real. intros h Hh.
  destruct (L1 h Hh) as (R0 & R1 & _).
  destruct (rm_det lut h (Cs h) i t k Hh Cl Hl R0 Hw (HD h Hh)) as (m & v & A1 & A2 & A3 & A4 & A5 & A6 & A7).
  rewrite R1, A4, A5. reflexivity.
Qed.

(** The attenuation by hydrometeors is that of the last class. *)
Lemma rm_last_extinction pre h tab D B A Z w : hs = pre ++ [h] -> heights e s Z ->
  class_table e ins (r_mie o) h tab -> particle_table tab D B A -> (forall b, In b B -> 0 < b) -> (2 <= length D)%nat ->
  class_speed e h w -> (forall t k, point e t k -> exists x, air_factor e s h t k x) ->
  (forall i t k, cell e i t k -> holds_none s h i t k \/
     exists q n r, holds_particles e s h i t k q n r /\ gamma_known Gam (class_shape e (r_kw o) h n)) ->
  exists X : nat -> nat -> nat -> R,
    (forall i t k, cell e i t k -> (holds_none s h i t k -> X i t k = 0) /\
       forall q n r, holds_particles e s h i t k q n r -> 
         exists lam n0, carries r q n (class_shape e (r_kw o) h n) lam n0 /\
           X i t k = population D A (gamma_psd n0 lam (class_shape e (r_kw o) h n))) /\
    forall i t k, cell e i t k ->
      value s1 (hyd_ext_name false) i t k = XF (two_way (path (r_sfc o) (nht e) (Z t) (X i t) k)).
Proof.
  intros Eh (za & Vz & HZ) CT ST HB HD HS HA Hcell.
  destruct (rmicro_leaves Gam e ins o hs TO Ee Er Hc PL HG s s1 E) as (_ & zr & lut & Cs & Hz & Hl & (L1 & _ & L3 & _) & _).
  assert (Hh : In h hs) by (rewrite Eh; apply in_or_app; right; left; reflexivity).
  destruct (L1 h Hh) as (R0 & _). specialize (L3 pre h Eh).
  red in Hz, Vz. rewrite Hz in Vz. injection Vz as <-.
  set (Y := map3 nan_to_num (pt ob_ext (Cs h))) in *.
  assert (HY : forall i t k, cell e i t k -> (holds_none s h i t k -> Y i t k = XF 0) /\
       (forall q n r, holds_particles e s h i t k q n r -> gamma_known Gam (class_shape e (r_kw o) h n) ->
         exists lam n0, carries r q n (class_shape e (r_kw o) h n) lam n0 /\
           Y i t k = XF (population D A (gamma_psd n0 lam (class_shape e (r_kw o) h n))))).
  { intros i t k Cl. split.
    - intro HN. destruct (robs_empty Gam e ins _ _ _ lut h s (Cs h) i t k (HG h Hh) R0 (proj1 (proj2 Cl)) Hkw HN) as (ob & (_ & _ & S3 & _) & HV).
      unfold Y, map3. rewrite HV. exact S3.
    - intros q n r HP HK. destruct (HA t k) as (x & Hx); [split; apply Cl|].
      destruct (robs_value Gam e ins (r_mie o) (r_sched o) (r_kw o) lut h s (Cs h) i t k q n r D B A w x) as (lam & n0 & Hcar & HM & HV); auto.
      { intros tab' Ht. rewrite (rtable_ok e ins (r_mie o) h lut tab' tab Hl Ht CT). exact ST. }
      exists lam, n0. split; [exact Hcar|]. unfold Y, map3. rewrite HV. reflexivity. }
  exists (fun i t k => speed_of (Y i t k)).
  assert (YF : forall i t k, cell e i t k -> Y i t k = XF (speed_of (Y i t k))).
  { intros i t k Cl. destruct (HY i t k Cl) as [Y1 Y2]. destruct (Hcell i t k Cl) as [HN|(q & n & r & HP & HK)].
    - rewrite (Y1 HN). reflexivity.
    - destruct (Y2 q n r HP HK) as (lam & n0 & _ & ->). reflexivity. }
  split.
  - intros i t k Cl. destruct (HY i t k Cl) as [Y1 Y2]. split; [intro HN; rewrite (Y1 HN); reflexivity|].
    intros q n r HP. destruct (Hcell i t k Cl) as [HN|(q' & n' & r' & HP' & HK)].
    + exfalso. destruct HP as (Vq & _ & _ & hq & _). unfold holds_none in HN. rewrite Vq in HN. apply xltb_fin_f in HN. lra.
    + assert (n' = n) as -> by (destruct HP as (_ & V1 & _), HP' as (_ & V2 & _); congruence).
      destruct (Y2 q n r HP HK) as (lam & n0 & Hcar & ->). exists lam, n0. auto.
  - intros i t k Cl. rewrite (value_var _ _ _ _ _ _ L3).
    rewrite (hyd_T_real e (r_sfc o) false (fun t k => z_met e (zr t k)) Y Z (fun i t k => speed_of (Y i t k)) i t k HZ YF Cl). reflexivity.
Qed.

(** NSSL. *)
Lemma rm_nssl : mcphys e = "nssl"%string -> forall h, In h hs -> h = "cl"%string.
Proof.
  intros N h Hh.
  destruct (rmicro_leaves Gam e ins o hs TO Ee Er Hc PL HG s s1 E) as (_ & zr & lut & Cs & Hz & Hl & (L1 & _) & _).
  destruct (L1 h Hh) as (R0 & _). destruct (String.eqb_spec h "cl"%string) as [Q|Q]; [exact Q|]. exfalso.
  refine (robs_nssl Gam e ins _ _ _ lut h s _ _ Q R0). unfold is_nssl. rewrite N. reflexivity.
Qed.
End Call.

(** *** Two calls *)
Lemma rm_two Gam e ins o o' hs hs' s t s1 t1 :
  rmicro_tables_ok e -> r_emp o = false -> r_rad o = false -> classes_of e (r_hyds o) hs ->
  r_emp o' = false -> r_rad o' = false -> classes_of e (r_hyds o') hs' ->
  r_mie o' = r_mie o -> r_kw o' = r_kw o -> r_sched o' = r_sched o -> r_width o' = r_width o ->
  plain hs -> plain hs' -> (forall h, In h hs -> gamma_class e h) -> (forall h, In h hs' -> gamma_class e h) ->
  agree (rinp e) s t ->
  calc_radar_moments Gam e ins o false s = (Ok tt, s1) -> calc_radar_moments Gam e ins o' false t = (Ok tt, t1) ->
  exists C, (forall h, In h hs -> In h hs' -> forall f i t k, In f ["Ze"; "Vd"; "sigma_d"]%string ->
       value t1 (out f h false) i t k = value s1 (out f h false) i t k) /\
    (forall u v hs2, (u = s1 /\ v = s /\ hs2 = hs) \/ (u = t1 /\ v = t /\ hs2 = hs' /\ incl hs' hs) ->
      forall i t k, value u (out "Ze" "tot" false) i t k
        = to_dBZ (xadd (Ze_before v i t k) (xsum (map (fun h => fillna 0 (C h i t k)) hs2)))) /\
    (forall h, In h hs -> forall i t k, value s1 (out "Ze" h false) i t k = to_dBZ (C h i t k)) /\
    (incl hs' hs -> from_cl hs' = from_cl hs -> forall i j k, value t1 (out "Vd" "tot" false) i j k = value s1 (out "Vd" "tot" false) i j k).
Proof.
  intros TO Ee Er Hc Ee' Er' Hc' Em Ek Es Ew PL PL' HG HG' Ag E E'.
  destruct (rmicro_leaves Gam e ins o hs TO Ee Er Hc PL HG s s1 E) as (_ & zr & lut & C & _ & Hl & (L1 & L2 & _ & L4) & _).
  destruct (rmicro_leaves Gam e ins o' hs' TO Ee' Er' Hc' PL' HG' t t1 E') as (_ & zr' & lut' & C' & _ & Hl' & (M1 & M2 & _ & M4) & _).
  rewrite Em in Hl'. assert (lut' = lut) as -> by congruence.
  rewrite Em, Ek, Es, Ew in M1.
  assert (EC : forall h, In h hs -> In h hs' -> C' h = C h).
  { intros h H1 H2. destruct (L1 h H1) as (R & _). destruct (M1 h H2) as (R' & _).
    apply (robs_dep _ _ _ _ _ _ _ _ _ _ _ Ag) in R. congruence. }
  exists (fun h => pt ob_ze (C h)). split; [|split; [|split]].
  - intros h H1 H2 f i j k Hf. destruct (L1 h H1) as (_ & R1 & R2 & R3). destruct (M1 h H2) as (_ & R1' & R2' & R3').
    rewrite (EC h H1 H2) in *. simpl in Hf. destruct Hf as [<-|[<-|[<-|[]]]].
    + rewrite R1, R1'. reflexivity.
    + rewrite (value_var _ _ _ _ _ _ R2), (value_var _ _ _ _ _ _ R2'). reflexivity.
    + rewrite (value_var _ _ _ _ _ _ R3), (value_var _ _ _ _ _ _ R3'). reflexivity.
  - intros u v hs2 [(-> & -> & ->)|(-> & -> & -> & Hi)] i j k.
    + rewrite L4, to_dBZ_total. reflexivity.
    + rewrite M4, to_dBZ_total. do 3 f_equal. apply map_ext_in. intros h Hh. rewrite (EC h (Hi h Hh) Hh). reflexivity.
  - intros h Hh i j k. destruct (L1 h Hh) as (_ & R1 & _). apply R1.
  - intros Hi Hf i j k. rewrite L2, M2, Hf. f_equal; f_equal; apply map_ext_in; intros h Hh.
    + rewrite EC; auto using from_cl_in. rewrite <- Hf in Hh. apply from_cl_in. exact Hh.
    + rewrite EC; auto using from_cl_in. rewrite <- Hf in Hh. apply from_cl_in. exact Hh.
Qed.

Lemma rm_order Gam e ins o hs1 hs2 s s1 s2 :
  rmicro_tables_ok e -> r_emp o = false -> r_rad o = false -> plain hs1 -> Permutation hs1 hs2 ->
  (forall h, In h hs1 -> gamma_class e h) ->
  calc_radar_moments Gam e ins (radar_hyds o hs1) false s = (Ok tt, s1) ->
  calc_radar_moments Gam e ins (radar_hyds o hs2) false s = (Ok tt, s2) ->
  (forall f h i t k, In f ["Ze"; "Vd"; "sigma_d"]%string -> In h hs1 ->
     value s2 (out f h false) i t k = value s1 (out f h false) i t k) /\
  (forall i t k, value s2 (out "Ze" "tot" false) i t k = value s1 (out "Ze" "tot" false) i t k).
Proof.
  intros TO Ee Er PL P HG E1 E2.
  assert (PL2 : plain hs2).
  { destruct PL as (ND & NT & NA). split; [|split].
    - apply (Permutation_NoDup P ND).
    - intro I. apply NT. apply (Permutation_in _ (Permutation_sym P) I).
    - intro I. apply NA. apply (Permutation_in _ (Permutation_sym P) I). }
  assert (I21 : incl hs2 hs1) by (intros h Hh; apply (Permutation_in _ (Permutation_sym P) Hh)).
  destruct (rm_two Gam e ins (radar_hyds o hs1) (radar_hyds o hs2) hs1 hs2 s s s1 s2) as (C & K1 & K2 & _); auto; try reflexivity.
  { intros x _. reflexivity. }
  split.
  - intros f h i t k Hf Hh. apply K1; auto. apply (Permutation_in _ P Hh).
  - intros i t k. rewrite (K2 s1 s hs1) by auto. rewrite (K2 s2 s hs2) by auto. do 2 f_equal.
    apply xsum_perm. apply Permutation_map. apply Permutation_sym. exact P.
Qed.

Lemma rm_repeat Gam e ins o hs s s1 s2 :
  rmicro_tables_ok e -> r_emp o = false -> r_rad o = false -> classes_of e (r_hyds o) hs -> plain hs ->
  (forall h, In h hs -> gamma_class e h) -> 0 < k_w ins -> 0 < wavelen ins ->
  calc_radar_moments Gam e ins o false s = (Ok tt, s1) -> calc_radar_moments Gam e ins o false s1 = (Ok tt, s2) ->
  (forall f h i t k, In f ["Ze"; "Vd"; "sigma_d"]%string -> In h hs ->
     value s2 (out f h false) i t k = value s1 (out f h false) i t k) /\
  (forall i t k, value s2 (out "Vd" "tot" false) i t k = value s1 (out "Vd" "tot" false) i t k) /\
  (forall i t k, cell e i t k -> (forall h, In h hs -> determined Gam e ins o s h i t k) ->
     value s2 (out "Ze" "tot" false) i t k
     = to_dBZ (xadd (value s1 (out "Ze" "tot" false) i t k)
                    (XF (sum_over hs (fun h => linear (value s1 (out "Ze" h false) i t k)))))).
Proof.
  intros TO Ee Er Hc PL HG Hk Hw E1 E2.
  destruct (rmicro_leaves Gam e ins o hs TO Ee Er Hc PL HG s s1 E1) as (Hne & zr & lut & Cs & _ & Hl & (L1 & _ & _ & L4) & Ag).
  destruct (rm_two Gam e ins o o hs hs s s1 s1 s2) as (C & K1 & K2 & K3 & K4); auto.
  split; [intros; apply K1; auto|]. split; [apply K4; auto; apply incl_refl|].
  intros i t k Cl HD.
  assert (Hb : has s1 (out "Ze" "tot" false) = true).
  { destruct (radar_inv Gam e ins o false hs s s1 Hc E1)
    as (q & pr & tr & zr' & s0 & atm & sm & sd & zt & he & ae & El & Hq & Hp & Ht & Hz & Ea & Hatm & Em & Ed & Hzt & Hhe & Hae & ->).
    eapply has_var3. apply upd_same. }
  destruct (rmicro_leaves Gam e ins o hs TO Ee Er Hc PL HG s1 s2 E2) as (_ & zr2 & lut2 & Cs2 & _ & Hl2 & (M1 & _ & _ & M4) & _).
  assert (lut2 = lut) as -> by congruence.
  rewrite M4, to_dBZ_total. unfold Ze_before. rewrite Hb. do 2 f_equal. apply xsum_real. intros h Hh.
  destruct (L1 h Hh) as (R0 & R1 & _). destruct (M1 h Hh) as (R0' & _).
  apply (robs_dep _ _ _ _ _ _ _ _ _ _ _ Ag) in R0 as R0''. assert (Cs2 h = Cs h) as -> by congruence.
  destruct (rm_det Gam e ins o hs s HG Hk lut h (Cs h) i t k Hh Cl Hl R0 Hw (HD h Hh)) as (m & v & A1 & A2 & A3 & A4 & A5 & A6 & A7).
  rewrite R1, A4, A5. reflexivity.
Qed.

(** *** Schedules *)
Lemma radar_class_sched Gam e ins mie width kw lut sch sch' h l s : tt_order sch (ntm e) = tt_order sch' (ntm e) ->
  radar_class Gam e ins mie width sch kw lut h l s = radar_class Gam e ins mie width sch' kw lut h l s.
Proof. intro H. unfold radar_class. rewrite H. reflexivity. Qed.
Lemma radar_classes_sched Gam e ins mie width kw lut sch sch' : tt_order sch (ntm e) = tt_order sch' (ntm e) ->
  forall hs l s, radar_classes Gam e ins mie width sch kw lut hs l s = radar_classes Gam e ins mie width sch' kw lut hs l s.
Proof.
  intros H hs. induction hs as [|h hs IH]; intros l s; [reflexivity|]. cbn [radar_classes].
  unfold lbind. rewrite (radar_class_sched _ _ _ _ _ _ _ sch sch' h l s H).
  destruct (radar_class _ _ _ _ _ _ _ _ _ _ s) as [[l'|x] s']; [apply IH|reflexivity].
Qed.
Lemma sigma_sched Gam e ins mie kw lut p3 corr sch sch' : tt_order sch (ntm e) = tt_order sch' (ntm e) ->
  forall hs acc s, sigma_loop Gam e ins mie sch kw lut p3 corr hs acc s = sigma_loop Gam e ins mie sch' kw lut p3 corr hs acc s.
Proof.
  intros H hs. induction hs as [|h hs IH]; intros acc s; [reflexivity|]. cbn [sigma_loop]. cbv zeta. rewrite H.
  repeat first [apply IH | apply lbind_ext; intros ? ?].
Qed.
Lemma lbind_ext2 {A B} (m m' : L A) (f f' : A -> L B) s : m s = m' s -> (forall a s, f a s = f' a s) ->
  lbind m f s = lbind m' f' s.
Proof. intros H1 H2. unfold lbind. rewrite H1. destruct (m' s) as [[a|x] s']; auto. Qed.
Lemma rm_sched Gam e ins o c sch s : Gen_Spec.good_sched (r_sched o) -> Gen_Spec.good_sched sch ->
  calc_radar_moments Gam e ins (rwith_sched o sch) c s = calc_radar_moments Gam e ins o c s.
Proof.
  intros H1 H2. unfold calc_radar_moments.
  assert (Ht : tt_order sch (ntm e) = tt_order (r_sched o) (ntm e)).
  { rewrite !Strat_Refuted.columns_once by assumption. reflexivity. }
  apply lbind_ext; intros hs' s'. destruct (negb (String.eqb (lower (i_class ins)) "radar")); [reflexivity|].
  apply lbind_ext; intros q s''. destruct (negb q); [reflexivity|]. cbv zeta.
  do 5 (apply lbind_ext; intros ? ?).
  apply lbind_ext2; [|reflexivity].
  cbn [rwith_sched r_emp r_rad r_sfc r_mie r_width r_sched r_kw]. destruct (r_emp o); [reflexivity|].
  destruct (r_rad o || c); [reflexivity|]. unfold calc_radar_micro.
  do 2 (apply lbind_ext; intros ? ?).
  apply lbind_ext2; [apply radar_classes_sched; exact Ht|]. intros l sl.
  do 2 (apply lbind_ext; intros ? ?).
  apply lbind_ext2; [|reflexivity].
  destruct (r_width o); [|reflexivity]. destruct hs'; [reflexivity|]. destruct (v_corr l); [|reflexivity].
  apply sigma_sched. exact Ht.
Qed.

(** The classes before the last leave no trace in the attenuation. *)
Lemma rm_ext_last_only Gam e ins o pre h s s1 s2 :
  rmicro_tables_ok e -> r_emp o = false -> r_rad o = false -> plain (pre ++ [h]) ->
  (forall x, In x (pre ++ [h]) -> gamma_class e x) ->
  calc_radar_moments Gam e ins (radar_hyds o (pre ++ [h])) false s = (Ok tt, s1) ->
  calc_radar_moments Gam e ins (radar_hyds o [h]) false s = (Ok tt, s2) ->
  forall i t k, value s1 (hyd_ext_name false) i t k = value s2 (hyd_ext_name false) i t k.
Proof.
  intros TO Ee Er PL HG E1 E2.
  assert (PL2 : plain [h]).
  { destruct PL as (ND & NT & NA). rewrite in_app_iff in NT, NA. split; [repeat constructor; intros []|].
    split; tauto. }
  assert (HG2 : forall x, In x [h] -> gamma_class e x) by (intros x Hx; apply HG; apply in_or_app; right; exact Hx).
  destruct (rmicro_leaves Gam e ins (radar_hyds o (pre ++ [h])) (pre ++ [h]) TO Ee Er eq_refl PL HG s s1 E1) as (_ & zr & lut & C & Hz & Hl & (L1 & _ & L3 & _) & _).
  destruct (rmicro_leaves Gam e ins (radar_hyds o [h]) [h] TO Ee Er eq_refl PL2 HG2 s s2 E2) as (_ & zr' & lut' & C' & Hz' & Hl' & (M1 & _ & M3 & _) & _).
  cbn [r_mie radar_hyds r_sched r_kw r_sfc] in *. assert (lut' = lut) as -> by congruence.
  assert (zr' = zr) as -> by (unfold var2 in *; congruence).
  destruct (L1 h) as (R & _); [apply in_or_app; right; left; reflexivity|]. destruct (M1 h) as (R' & _); [left; reflexivity|].
  assert (C' h = C h) as E3 by congruence.
  specialize (L3 pre h eq_refl). specialize (M3 [] h eq_refl). rewrite E3 in M3.
  intros i t k. rewrite (value_var _ _ _ _ _ _ L3), (value_var _ _ _ _ _ _ M3). reflexivity.
Qed.
