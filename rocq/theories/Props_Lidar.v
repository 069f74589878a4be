(** C21-C25, C34, C35: lidar moments.  Statements use the vocabulary of
    Mom_Spec.v and Lidar_Spec.v only. *)
From Verif Require Import Mom_Base Mom_Spec Mom_Facts Sched_Model Psd_Model Lidar_Model Lidar_Spec
  Lidar_Od Lidar_Ldr Lidar_Loop Lidar_Api Lidar_Perm Lidar_Corol Lidar_Witness.
Local Open Scope R_scope.

(** C21: the stored optical depth is the sum over the layers between the
    instrument and the level; nothing else is written. *)
Theorem C21_optical_depth : forall e c z h sfc s Z A,
  (forall t k, point e t k -> z t k = XF (Z t k)) ->
  (exists q, var3 s (qn c h) q) -> real3 e s (out "alpha_p" h c) A ->
  exists s', accumulate_OD e c z h sfc s = (Ok tt, s')
    /\ unchanged_except [out "OD" h c] s s'
    /\ real3 e s' (out "OD" h c)
         (fun i t k => if sfc then od_up (Z t) (A i t) k else od_down (nht e) (Z t) (A i t) k).
Proof. exact accumulate_OD_real. Qed.
Print Assumptions C21_optical_depth.

(** ... it is 0 at the instrument and does not decrease away from it. *)
Theorem C21_optical_depth_monotone : forall e c z h sfc s Z A,
  (forall t k, point e t k -> z t k = XF (Z t k)) ->
  (exists q, var3 s (qn c h) q) -> real3 e s (out "alpha_p" h c) A ->
  (forall t k, (t < ntm e)%nat -> (S k < nht e)%nat -> Z t k <= Z t (S k)) ->
  (forall i t k, cell e i t k -> 0 <= A i t k) ->
  exists s' od, accumulate_OD e c z h sfc s = (Ok tt, s') /\ real3 e s' (out "OD" h c) od /\
    (forall i t k, cell e i t k -> (if sfc then k = 0%nat else S k = nht e) -> od i t k = 0) /\
    (forall i t k k', cell e i t k -> cell e i t k' -> (if sfc then k <= k' else k' <= k)%nat ->
       0 <= od i t k <= od i t k').
Proof. exact od_monotone. Qed.
Print Assumptions C21_optical_depth_monotone.

Example C21_witness : forall sfc, exists s', accumulate_OD (w_env "CESM" w_lam) false w_z "cl" sfc w_res = (Ok tt, s') /\
  value s' "sub_col_OD_cl_strat" 0 0 1 = XF (1/10) /\
  value s' "sub_col_OD_cl_strat" 1 0 2 = XF (if sfc then 2/10 else 0).
Proof. exact w_od. Qed.

(** C22, C23: totals over stratiform and convective parts, a missing part
    counting as 0, and the attenuated total backscatter. *)
Theorem C22_C23_totals : forall e eta s Bs Bc As Ac Os Oc BM T,
  num3 e s (out "beta_p" "tot" false) Bs -> (p_conv e = true -> num3 e s (out "beta_p" "tot" true) Bc) ->
  num3 e s (out "alpha_p" "tot" false) As -> (p_conv e = true -> num3 e s (out "alpha_p" "tot" true) Ac) ->
  num3 e s (out "OD" "tot" false) Os -> (p_conv e = true -> num3 e s (out "OD" "tot" true) Oc) ->
  real2 e s "sigma_180_vol" BM -> real2 e s "tau" T ->
  exists s', calc_total_alpha_beta e eta s = (Ok tt, s')
    /\ unchanged_except ["sub_col_beta_p_tot"; "sub_col_alpha_p_tot"; "sub_col_OD_tot"; "sub_col_beta_att_tot"]%string s s'
    /\ let tot S C i t k := if p_conv e then C i t k + S i t k else S i t k : R in
       real3 e s' "sub_col_beta_p_tot" (tot Bs Bc) /\
       real3 e s' "sub_col_alpha_p_tot" (tot As Ac) /\
       real3 e s' "sub_col_OD_tot" (tot Os Oc) /\
       real3 e s' "sub_col_beta_att_tot"
         (fun i t k => (BM t k + tot Bs Bc i t k) * T t k * exp (-2 * eta * tot Os Oc i t k)).
Proof. exact total_alpha_beta_run. Qed.
Print Assumptions C22_C23_totals.

(** ... hence it never exceeds the unattenuated one, equals it (times the
    molecular transmittance) where the optical depth is 0, and decreases
    with optical depth. *)
Theorem C22_attenuation_bounds : forall eta bm b tau od,
  0 <= eta -> 0 <= bm -> 0 <= b -> 0 <= tau <= 1 -> 0 <= od ->
  0 <= attenuated eta bm b tau od <= (bm + b) * tau /\ (bm + b) * tau <= bm + b.
Proof. exact attenuated_bounds. Qed.
Print Assumptions C22_attenuation_bounds.
Theorem C22_no_attenuation_at_0 : forall eta bm b tau, attenuated eta bm b tau 0 = (bm + b) * tau.
Proof. exact attenuated_od0. Qed.
Print Assumptions C22_no_attenuation_at_0.
Theorem C22_attenuation_decreasing : forall eta bm b tau od od',
  0 <= eta -> 0 <= bm + b -> 0 <= tau -> od <= od' ->
  attenuated eta bm b tau od' <= attenuated eta bm b tau od.
Proof. exact attenuated_mono. Qed.
Print Assumptions C22_attenuation_decreasing.

Example C22_C23_witness : exists s', calc_total_alpha_beta (w_env "CESM" w_lam) 1 w_res = (Ok tt, s') /\
  value s' "sub_col_beta_p_tot" 0 0 1 = XF (4/10000) /\
  value s' "sub_col_beta_att_tot" 0 0 0 = XF (401/1000000 * (9/10)).
Proof. exact w_totals. Qed.

(** C24: the depolarisation ratios are the backscatter-weighted means of the
    model's per-class ratios, NaN where there is no backscatter; C25: the
    mask.  [ldr_arg] is the caller's table. *)
Theorem C24_weighted_mean_partial : forall e ext sfc ldr_arg hso hs h0 hr b0 od B w s,
  classes_of e hso hs -> hyds e = h0 :: hr -> var3 s (out "beta_p" h0 false) b0 ->
  (forall c h, In c (cloud_types e) -> In h hs -> num3 e s (out "beta_p" h c) (B c h)) ->
  (forall h, In h hs -> assoc (ldr_hyd e) h = Some (w h)) ->
  var3 s "sub_col_OD_tot" od ->
  exists s', calc_LDR_and_ext e ext sfc ldr_arg hso s = (Ok tt, s')
    /\ (forall c, In c (cloud_types e) -> exists l, var3 s' (ldr_name c) l /\ forall i t k, cell e i t k ->
          l i t k = if Rlt_dec 0 (ldr_den [c] hs B i t k)
                    then XF (ldr_num [c] hs B w i t k / ldr_den [c] hs B i t k) else XNaN)
    /\ (exists l, var3 s' "sub_col_LDR_tot" l /\ forall i t k, cell e i t k ->
          l i t k = if Rlt_dec 0 (ldr_den (cloud_types e) hs B i t k)
                    then XF (ldr_num (cloud_types e) hs B w i t k / ldr_den (cloud_types e) hs B i t k)
                    else XNaN).
Proof. exact ldr_weighted. Qed.
Print Assumptions C24_weighted_mean_partial.
(** ... so it lies between the ratios of the classes that backscatter. *)
Theorem C24_mean_bounds_partial : forall cls hs B w i t k lo hi,
  (forall c h, In c cls -> In h hs -> 0 <= B c h i t k) ->
  (forall c h, In c cls -> In h hs -> 0 < B c h i t k -> lo <= w h <= hi) ->
  0 < ldr_den cls hs B i t k ->
  lo <= ldr_num cls hs B w i t k / ldr_den cls hs B i t k <= hi.
Proof. exact ldr_mean_bounds. Qed.
Print Assumptions C24_mean_bounds_partial.
(** The caller's table is not used: it never changes the outcome, and with a
    table giving 1/2 to every class the result need not be 1/2. *)
Theorem C24_caller_table_ignored : forall e ext sfc a1 a2 hso s,
  calc_LDR_and_ext e ext sfc a1 hso s = calc_LDR_and_ext e ext sfc a2 hso s.
Proof. exact ldr_arg_ignored. Qed.
Print Assumptions C24_caller_table_ignored.
Theorem C24_caller_table_refuted : exists e s s' r,
  calc_LDR_and_ext e 4 true (Some [("cl", 1/2); ("ci", 1/2)]%string) (Some ["cl"; "ci"]%string) s = (Ok tt, s') /\
  value s' "sub_col_LDR_tot" 0 0 0 = XF r /\ r < 1/2.
Proof. exact w_ldr_refuted. Qed.
Print Assumptions C24_caller_table_refuted.

Theorem C25_extinction_mask : forall e ext sfc ldr_arg hso hs h0 hr b0 od B w s,
  classes_of e hso hs -> hyds e = h0 :: hr -> var3 s (out "beta_p" h0 false) b0 ->
  (forall c h, In c (cloud_types e) -> In h hs -> num3 e s (out "beta_p" h c) (B c h)) ->
  (forall h, In h hs -> assoc (ldr_hyd e) h = Some (w h)) ->
  var3 s "sub_col_OD_tot" od ->
  exists s', calc_LDR_and_ext e ext sfc ldr_arg hso s = (Ok tt, s')
    /\ unchanged_except (map ldr_name (cloud_types e) ++ ["sub_col_LDR_tot"; "ext_mask"]%string) s s'
    /\ exists m, var3 s' "ext_mask" m /\ forall i t k, cell e i t k -> exists v,
          m i t k = XF v /\
          (exceeds (od i t k) ext -> v = 2) /\
          (~ exceeds (od i t k) ext ->
             (forall k', beyond sfc (nht e) k k' -> exceeds (od i t k') ext -> v = 1) /\
             ((forall k', beyond sfc (nht e) k k' -> ~ exceeds (od i t k') ext) -> v = 0)).
Proof. exact ext_mask_exact. Qed.
Print Assumptions C25_extinction_mask.
Example C24_C25_witness : exists s',
  calc_LDR_and_ext (w_env "CESM" w_lam) 4 true None (Some ["cl"; "ci"]%string) w_res = (Ok tt, s') /\
  value s' "sub_col_LDR_tot" 0 0 0 = XF (27/100) /\
  value s' "ext_mask" 0 0 0 = XF 0 /\ value s' "ext_mask" 0 0 1 = XF 1 /\ value s' "ext_mask" 0 0 2 = XF 2.
Proof. exact w_ldr. Qed.

(** C34 (lidar): after a successful empirical or bulk call the totals are the
    sums of the class fields, whatever the classes. *)
Theorem C34_lidar_totals_are_sums : forall Gam e ins o c hs s s',
  classes_of e (o_hyds o) hs -> o_emp o || o_rad o || c = true -> NoDup hs -> ~ In "tot"%string hs ->
  calc_lidar_moments Gam e ins o c s = (Ok tt, s') ->
  (forall f h, In f ["alpha_p"; "beta_p"; "OD"]%string -> In h hs -> exists a, var3 s' (out f h c) a) /\
  forall f i t k, In f ["alpha_p"; "beta_p"; "OD"]%string ->
    value s' (out f "tot" c) i t k = xsum (map (fun h => fillna 0 (value s' (out f h c) i t k)) hs).
Proof. exact moments_totals. Qed.
Print Assumptions C34_lidar_totals_are_sums.

(** Listing the classes in another order gives the same data: always for the
    empirical method, for the bulk method when each class is self-contained. *)
Theorem C34_lidar_class_order_partial : forall Gam e ins o c hs1 hs2 s s1,
  tables_ok e c -> o_emp o || o_rad o || c = true -> Permutation hs1 hs2 -> ~ In "tot"%string hs1 ->
  (forall h, In h hs1 -> o_emp o = true \/ self_contained e h) ->
  calc_lidar_moments Gam e ins (with_hyds o hs1) c s = (Ok tt, s1) ->
  exists s2, calc_lidar_moments Gam e ins (with_hyds o hs2) c s = (Ok tt, s2) /\ same_data s1 s2.
Proof. exact moments_perm. Qed.
Print Assumptions C34_lidar_class_order_partial.
(** In general it does not: the bulk method with the CESM tables and rain
    without size-distribution fields works for [cl; pl], fails for [pl; cl]. *)
Theorem C34_lidar_class_order_refuted : forall Gam, exists e ins o s,
  tables_ok e false /\
  fst (calc_lidar_moments Gam e ins (with_hyds o ["cl"; "pl"]%string) false s) = Ok tt /\
  fst (calc_lidar_moments Gam e ins (with_hyds o ["pl"; "cl"]%string) false s) = Raise UnboundLocalError.
Proof. exact w_order_refuted. Qed.
Print Assumptions C34_lidar_class_order_refuted.
Example C34_witness : forall Gam emp, let e := w_env "CESM" w_lam in
  tables_ok e false /\ (forall h, In h ["ci"; "cl"]%string -> self_contained e h) /\
  fst (calc_lidar_moments Gam e w_ins (with_hyds (w_opts emp) ["ci"; "cl"]%string) false w_ds) = Ok tt.
Proof. exact w_order. Qed.

(** C35 (lidar, empirical and bulk methods): repeating the call any number
    of times changes nothing. *)
Theorem C35_lidar_repeat_partial : forall Gam e ins o c hs s s1 n,
  tables_ok e c -> classes_of e (o_hyds o) hs -> o_emp o || o_rad o || c = true ->
  calc_lidar_moments Gam e ins o c s = (Ok tt, s1) ->
  let again s := snd (calc_lidar_moments Gam e ins o c s) in
  fst (calc_lidar_moments Gam e ins o c (Nat.iter n again s1)) = Ok tt /\
  forall x, assoc (dvars (Nat.iter n again s1)) x = assoc (dvars s1) x.
Proof. exact moments_repeat. Qed.
Print Assumptions C35_lidar_repeat_partial.
