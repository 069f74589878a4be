(** The spectrum of one cell computed by the radar microphysics method. *)
From Verif Require Import Mom_Base Mom_Spec Mom_Facts Xr_Facts Sched_Model Atm_Model Psd_Model Lidar_Model Lidar_Spec
  Lidar_Od Lidar_Loop Lidar_Api Psd_Spec Psd_Int Psd_Facts Radar_Model Radar_Spec Radar_Total Radar_Api
  Micro_Spec Micro_Loop Micro_Char Micro_Psd Micro_Cell Micro_Rloop.
Local Open Scope R_scope.

(** *** Integrals *)
Lemma length_products V : forall B, length V = length B -> length (products V B) = length B.
Proof. induction V as [|v V IH]; intros [|b B] H; simpl in *; try lia. rewrite IH; lia. Qed.
Lemma zmul_products V : forall B n D, length V = length D -> length B = length D ->
  zmul (map XF V) (zmul (map XF B) (map (fun d => XF (n d)) D)) = map XF (times (products V B) n D).
Proof.
  induction V as [|v V IH]; intros [|b B] n [|d D] H1 H2; try discriminate; [reflexivity|].
  cbn [map zmul times products xmul]. rewrite IH by (simpl in *; lia).
  f_equal. apply (f_equal XF). ring.
Qed.
Lemma in_products V : forall B p, In p (products V B) -> exists v b, In v V /\ In b B /\ p = v * b.
Proof.
  induction V as [|v V IH]; intros [|b B] p H; simpl in *; try tauto.
  destruct H as [<-|H]; [exists v, b; auto|]. destruct (IH B p H) as (v' & b' & H1 & H2 & H3). exists v', b'. auto.
Qed.
Lemma trapezoid_mono D : forall x F G, increasing_from x D -> Forall2 Rle F G -> trapezoid D F <= trapezoid D G.
Proof.
  induction D as [|d0 D IH]; intros x F G Hi H; [simpl; lra|].
  destruct D as [|d1 D]; [destruct F, G; simpl; lra|].
  inversion H as [|f0 g0 F' G' H0 H1]; subst; [simpl; lra|].
  inversion H1 as [|f1 g1 F'' G'' H2 H3]; subst; [simpl; lra|].
  change (trapezoid (d0 :: d1 :: D) (f0 :: f1 :: F'')) with ((d1 - d0) * (f0 + f1) / 2 + trapezoid (d1 :: D) (f1 :: F'')).
  change (trapezoid (d0 :: d1 :: D) (g0 :: g1 :: G'')) with ((d1 - d0) * (g0 + g1) / 2 + trapezoid (d1 :: D) (g1 :: G'')).
  destruct Hi as [_ Hi]. specialize (IH d0 _ _ Hi H1). destruct Hi as [Hd _].
  assert ((d1 - d0) * (f0 + f1) <= (d1 - d0) * (g0 + g1)) by (apply Rmult_le_compat_l; lra). lra.
Qed.
Lemma trapezoid_scale c D : forall F, trapezoid D (map (Rmult c) F) = c * trapezoid D F.
Proof.
  induction D as [|d0 D IH]; intro F; [simpl; ring|].
  destruct D as [|d1 D]; [destruct F; simpl; ring|]. destruct F as [|f0 [|f1 F]]; try (simpl; ring).
  change (trapezoid (d0 :: d1 :: D) (map (Rmult c) (f0 :: f1 :: F)))
    with ((d1 - d0) * (c * f0 + c * f1) / 2 + trapezoid (d1 :: D) (map (Rmult c) (f1 :: F))).
  rewrite IH. change (trapezoid (d0 :: d1 :: D) (f0 :: f1 :: F)) with ((d1 - d0) * (f0 + f1) / 2 + trapezoid (d1 :: D) (f1 :: F)).
  field.
Qed.
Lemma population_bound D V B n lo hi : length V = length D -> length B = length D -> increasing_from 0 D ->
  (forall b, In b B -> 0 <= b) -> (forall d, 0 < d -> 0 <= n d) -> (forall v, In v V -> lo <= v <= hi) ->
  lo * population D B n <= population D (products V B) n <= hi * population D B n.
Proof.
  intros L1 L2 Hi HB Hn HV. pose proof (inc_pos 0 D (Rle_refl 0) Hi) as Pd.
  unfold population. rewrite <- !trapezoid_scale.
  assert (P : Forall2 Rle (map (Rmult lo) (times B n D)) (times (products V B) n D) /\
              Forall2 Rle (times (products V B) n D) (map (Rmult hi) (times B n D))).
  { clear Hi. revert V B L1 L2 HB HV. induction D as [|d D IH]; intros [|v V] [|b B] L1 L2 HB HV; try discriminate.
    - split; constructor.
    - cbn [times products map].
      assert (0 <= b * n d) by (apply Rmult_le_pos; [apply HB; left; reflexivity|apply Hn, Pd; left; reflexivity]).
      destruct (HV v (or_introl eq_refl)) as [V1 V2].
      destruct (IH (fun x Hx => Pd x (or_intror Hx)) V B) as [I1 I2].
      + simpl in L1; lia.
      + simpl in L2; lia.
      + intros; apply HB; right; assumption.
      + intros; apply HV; right; assumption.
      + split; constructor; auto.
        * replace (v * b * n d) with (v * (b * n d)) by ring. apply Rmult_le_compat_r; assumption.
        * replace (v * b * n d) with (v * (b * n d)) by ring. apply Rmult_le_compat_r; assumption. }
  split; eapply trapezoid_mono; eauto; apply P.
Qed.
Lemma population_pos D B n : length B = length D -> (2 <= length D)%nat -> increasing_from 0 D ->
  (forall b, In b B -> 0 < b) -> (forall d, 0 < d -> 0 < n d) -> 0 < population D B n.
Proof.
  intros L Ln Hi HB Hn. pose proof (inc_pos 0 D (Rle_refl 0) Hi) as Pd.
  destruct D as [|d0 [|d1 D]]; try (simpl in Ln; lia). destruct B as [|b0 [|b1 B]]; try discriminate.
  unfold population. cbn [times].
  change (trapezoid (d0 :: d1 :: D) (b0 * n d0 :: b1 * n d1 :: times B n D))
    with ((d1 - d0) * (b0 * n d0 + b1 * n d1) / 2 + trapezoid (d1 :: D) (times (b1 :: B) n (d1 :: D))).
  destruct Hi as (_ & Hi). pose proof Hi as (H1 & _).
  assert (P0 : 0 < b0 * n d0) by (apply Rmult_lt_0_compat; [apply HB|apply Hn, Pd]; simpl; auto).
  assert (P1 : 0 < b1 * n d1) by (apply Rmult_lt_0_compat; [apply HB|apply Hn, Pd]; simpl; auto).
  assert (0 < (d1 - d0) * (b0 * n d0 + b1 * n d1)) by (apply Rmult_lt_0_compat; lra).
  assert (0 <= trapezoid (d1 :: D) (times (b1 :: B) n (d1 :: D))); [|lra].
  apply (trapezoid_nonneg _ d0 _ Hi). intros f Hf. apply in_times in Hf as (x & d & Hx & Hd & ->).
  apply Rmult_le_pos; left; [apply HB; right; exact Hx|apply Hn, Pd; right; exact Hd].
Qed.

Lemma mean_range D V B n lo hi : length V = length D -> length B = length D -> increasing_from 0 D ->
  (forall b, In b B -> 0 <= b) -> (forall d, 0 < d -> 0 <= n d) -> 0 < population D B n ->
  (forall v, In v V -> lo <= v <= hi) -> lo <= mean_of D V B n <= hi.
Proof.
  intros L1 L2 Hi HB Hn HM HV. destruct (population_bound D V B n lo hi L1 L2 Hi HB Hn HV) as [P1 P2].
  unfold mean_of. split.
  - apply (Rmult_le_reg_r (population D B n)); [exact HM|].
    replace (population D (products V B) n / population D B n * population D B n) with (population D (products V B) n) by (field; lra).
    exact P1.
  - apply (Rmult_le_reg_r (population D B n)); [exact HM|].
    replace (population D (products V B) n / population D B n * population D B n) with (population D (products V B) n) by (field; lra).
    exact P2.
Qed.

(** *** One spectrum *)
Lemma ze_scale_real ins m : 0 < k_w ins -> ze_scale ins (XF m) = XF (reflectivity ins m).
Proof.
  intro Hk. unfold ze_scale. cbn [xmul]. pose proof PI_RGT_0.
  assert (0 < k_w ins * PI ^ 5) by (apply Rmult_lt_0_compat; [exact Hk|apply pow_lt; lra]).
  rewrite xdiv_fin by lra. reflexivity.
Qed.
Lemma spectrum_real ins D A B V n : length A = length D -> length B = length D -> length V = length D ->
  increasing_from 0 D -> (forall b, In b B -> 0 <= b) -> (forall d, 0 < d -> 0 <= n d) -> 0 < population D B n -> 0 < k_w ins ->
  spectrum ins (map XF D) (map XF A) (map XF B) (map XF V) (map (fun d => XF (n d)) D) true
  = {| ob_vn := XF (population D (products V B) n); ob_md := XF (population D B n); ob_ext := XF (population D A n);
       ob_ze := XF (reflectivity ins (population D B n)); ob_vd := XF (mean_of D V B n); ob_sg := XF (spread_of D V B n) |}.
Proof.
  intros LA LB LV Hi HB Hn HM Hk. unfold spectrum. cbv zeta.
  rewrite (population_real D A n LA), (population_real D B n LB), (zmul_products V B n D LV LB).
  assert (LP : length (products V B) = length D) by (rewrite length_products; lia).
  rewrite (trapz_real D (times (products V B) n D)) by (apply length_times; exact LP).
  fold (population D (products V B) n).
  rewrite (xdiv_fin (population D (products V B) n) (population D B n)) by lra. fold (mean_of D V B n).
  set (m := mean_of D V B n).
  assert (EV : map (fun x => xsq (xsub x (XF m))) (map XF V) = map XF (map (fun v => (v - m) ^ 2) V)).
  { rewrite !map_map. apply map_ext. intro v. unfold xsq, xsub. cbn [xopp xadd xmul]. apply (f_equal XF). ring. }
  rewrite EV. set (W := map (fun v => (v - m) ^ 2) V).
  assert (LW : length W = length D) by (unfold W; rewrite map_length; exact LV).
  rewrite (zmul_products W B n D LW LB), (trapz_real D (times (products W B) n D))
    by (apply length_times; rewrite length_products; lia).
  fold (population D (products W B) n). rewrite (xdiv_fin (population D (products W B) n) (population D B n)) by lra.
  fold (mean_of D W B n). rewrite ze_scale_real by exact Hk.
  assert (P : 0 <= mean_of D W B n).
  { unfold mean_of. apply Rmult_le_pos; [|left; apply Rinv_0_lt_compat; exact HM].
    apply population_nonneg; auto. intros x Hx. apply in_products in Hx as (v & b & Hv & Hb & ->).
    apply Rmult_le_pos; [|apply HB; exact Hb]. unfold W in Hv. apply in_map_iff in Hv as (u & <- & _). apply pow2_ge_0. }
  unfold xsqrt. destruct (Rlt_dec (mean_of D W B n) 0); [lra|]. reflexivity.
Qed.

(** Nothing there. *)
Definition silent (o : obs) : Prop :=
  nan_to_num (ob_vn o) = XF 0 /\ nan_to_num (ob_md o) = XF 0 /\ nan_to_num (ob_ext o) = XF 0 /\
  fillna 0 (ob_ze o) = XF 0 /\ to_dBZ (ob_ze o) = XNaN.
Lemma dBZ_0 : dBZ 0 = XNaN.
Proof. unfold dBZ. destruct (Rlt_dec 0 0); [lra|reflexivity]. Qed.
Lemma silent0 : silent obs0.
Proof. unfold silent, obs0. cbn. rewrite dBZ_0. auto. Qed.
Lemma ze_scale_0 ins : 0 < k_w ins -> ze_scale ins (XF 0) = XF 0.
Proof. intro H. rewrite ze_scale_real by exact H. unfold reflectivity. apply (f_equal XF). unfold Rdiv. ring. Qed.
Lemma ze_scale_nan ins : ze_scale ins XNaN = XNaN. Proof. reflexivity. Qed.
Lemma silent_spectrum ins diam alpha beta v nd p : 0 < k_w ins -> (forall x, In x nd -> x = XNaN) ->
  silent (spectrum ins diam alpha beta v nd p).
Proof.
  intros Hk Hn. unfold silent, spectrum. cbv zeta. cbn [ob_vn ob_md ob_ext ob_ze].
  destruct p.
  - destruct (trapz_nan diam (zmul alpha nd) (zmul_nan alpha nd Hn)) as [E1|E1];
    destruct (trapz_nan diam (zmul beta nd) (zmul_nan beta nd Hn)) as [E2|E2];
    destruct (trapz_nan diam (zmul v (zmul beta nd)) (zmul_nan v _ (zmul_nan beta nd Hn))) as [E3|E3];
    rewrite E1, E2, E3, ?ze_scale_0, ?ze_scale_nan by exact Hk; cbn; rewrite ?dBZ_0; auto.
  - rewrite ze_scale_0 by exact Hk. cbn. rewrite dBZ_0. auto.
Qed.

(** *** One cell *)
Section C.
Variables (Gam : R -> R) (e : menv) (ins : inst) (mie : bool) (sch : sched) (kw : psd_kw) (lut : string * bool).

Lemma robs_cell h s C i t k : gamma_class e h -> robs Gam e ins mie sch kw lut h s = Ok C -> (t < ntm e)%nat ->
  exists q n rh fl diam beta alpha vel ra,
    var3 s (qn false h) q /\ var3 s (nn false h) n /\ varb s (fn false h) fl /\ var2 s "rho_a" ra /\
    bind (dict (rho_hyd e) h) (fun r => match r with
     | RConst x => Ok (fun _ _ => XF x) | RVar => do v <- dict (var_density e) h; g2 s v end) = Ok rh /\
    micro_table ins lut mie h = Ok (diam, beta, alpha) /\ class_velocity e h diam = Ok (Some vel) /\
    (is_nssl e = true -> h = "cl"%string) /\
    let n0 := n03 Gam e kw q n rh h in let lam := lam3 Gam e kw q n rh h in
    let nd := if String.eqb h "cl" then psd_curve (n0 i t k) (lam i t k) (mu_cell e kw h false (n i t k)) diam
              else exp_curve (n0 i t k) (lam i t k) diam in
    forall f, pt f C i t k =
      f (if all_zero_level e (weighted fl n) t k || (String.eqb h "cl" && all_nan_level e n0 t k) then obs0
         else spectrum ins diam alpha beta (scale_v (rhoa_corr e h ra t k) vel) nd (String.eqb h "cl" || fl i t k)).
Proof.
  intros G H Ht. unfold robs in H.
  apply res_bind_ok in H as (ft & Hf & H). apply res_bind_ok in H as (fl & Hfl & H).
  apply res_bind_ok in H as (n & Hn & H). apply res_bind_ok in H as (tab & Htab & H).
  apply res_bind_ok in H as (v & Hv & H). apply res_bind_ok in H as (ra & Hra & H).
  apply res_bind_ok in H as (order & Ho & H). apply res_bind_ok in H as (cols0 & Hc & Hs).
  apply (gamma_fit3 Gam e kw h s ft G) in Hf. apply fit3_inv in Hf as (q & n' & rh & Hq & Hn' & Hr & ->).
  apply g3_ok in Hn. assert (n' = n) as -> by (unfold var3 in *; congruence).
  destruct tab as [[diam beta] alpha]. cbn [fst] in Hv.
  apply order_ok in Ho. subst order. apply stack_ok in Hs as (-> & Hlen & _).
  pose proof (gamma_not_p3 e h G) as NP.
  assert (Vs : exists vel, v = Some vel).
  { unfold class_velocity in Hv. rewrite NP in Hv. destruct (is_nssl e).
    - apply res_bind_ok in Hv as ([x|] & _ & Hv); [injection Hv as <-; eauto|discriminate].
    - apply res_bind_ok in Hv as (vel & _ & Hv). injection Hv as <-. eauto. }
  destruct Vs as (vel & ->).
  exists q, n, rh, fl, diam, beta, alpha, vel, ra.
  do 2 (split; [assumption|]). split; [apply gb_ok; exact Hfl|]. split; [apply g2_ok; exact Hra|].
  do 3 (split; [assumption|]).
  cbv zeta. destruct (String.eqb_spec h "cl"%string) as [Eh|Nh].
  - split; [auto|]. apply run_cols_nth in Hc as [_ Hc]. destruct (Hc t Ht) as (c & E1 & E2). cbn [Nat.add] in E1.
    unfold liquid_column in E1. injection E1 as <-. intro f. unfold pt, of_cols. rewrite E2. cbn [andb orb]. reflexivity.
  - apply run_cols_nth in Hc as [_ Hc]. destruct (Hc t Ht) as (c & E1 & E2). cbn [Nat.add] in E1.
    unfold other_column in E1. destruct (is_nssl e); [discriminate|]. rewrite NP in E1. injection E1 as <-.
    split; [discriminate|]. intro f. unfold pt, of_cols. rewrite E2. cbn [andb orb]. rewrite orb_false_r. reflexivity.
Qed.

Lemma speed_real h diam vel w D : (is_nssl e = true -> h = "cl"%string) -> is_p3ci e h = false ->
  class_velocity e h diam = Ok (Some vel) -> diam = map XF D -> (forall d, In d D -> 0 < d) -> class_speed e h w ->
  vel = map (fun d => XF (w d)) D.
Proof.
  intros Hn NP E -> Pd HS. unfold class_velocity, is_nssl in *.
  destruct HS as [[Em Ew]|[Em (a & b & Ha & Hb & Ew)]].
  - rewrite Em in E. cbn in E. apply res_bind_ok in E as ([x|] & _ & E); [|discriminate]. injection E as <-.
    unfold nssl_cl_velocity. rewrite map_map. apply map_ext_in. intros d Hd.
    rewrite xpow_fin by auto. cbn [xmul]. rewrite Ew. reflexivity.
  - apply String.eqb_neq in Em. rewrite Em, NP in E. unfold power_velocity, dict in E. rewrite Ha, Hb in E. cbn [bind] in E.
    injection E as <-. rewrite map_map. apply map_ext_in. intros d Hd.
    rewrite xpow_fin by auto. cbn [xmul xopp]. rewrite Ew. reflexivity.
Qed.
Lemma corr_real h s ra t k x : var2 s "rho_a" ra -> air_factor e s h t k x -> rhoa_corr e h ra t k = XF x.
Proof.
  intros Hv [(r0 & r1 & g & Hr & Hg & Eg & P0 & P1 & ->)|[[Hr|Hr] ->]]; unfold rhoa_corr; rewrite Hr; try reflexivity.
  unfold var2 in *. assert (g = ra) as -> by congruence. rewrite Eg. rewrite xdiv_fin by lra.
  rewrite xpow_fin by (apply Rdiv_lt_0_compat; assumption). reflexivity.
Qed.

Lemma gamma_psd_pos n0 lam mu d : 0 < n0 -> 0 < gamma_psd n0 lam mu d.
Proof.
  intro H. unfold gamma_psd. apply Rmult_lt_0_compat; [|apply exp_pos].
  apply Rmult_lt_0_compat; [exact H|]. unfold Rpower. apply exp_pos.
Qed.

Lemma robs_value h s C i t k q n r D B A w x :
  gamma_class e h -> robs Gam e ins mie sch kw lut h s = Ok C -> cell e i t k ->
  holds_particles e s h i t k q n r ->
  (forall tab, micro_table ins lut mie h = Ok tab -> particle_table tab D B A) ->
  (forall b, In b B -> 0 < b) -> (2 <= length D)%nat -> 0 < k_w ins ->
  gamma_known Gam (class_shape e kw h n) -> class_speed e h w -> air_factor e s h t k x ->
  let mu := class_shape e kw h n in
  exists lam n0, carries r q n mu lam n0 /\
    let nd := gamma_psd n0 lam mu in let V := map (fun d => w d * x) D in
    0 < population D B nd /\
    forall f, pt f C i t k =
      f {| ob_vn := XF (population D (products V B) nd); ob_md := XF (population D B nd); ob_ext := XF (population D A nd);
           ob_ze := XF (reflectivity ins (population D B nd)); ob_vd := XF (mean_of D V B nd); ob_sg := XF (spread_of D V B nd) |}.
Proof.
  intros G H (Hi & Ht & Hk) (Vq & Vn & Dn & hq & hn & hr & fl0 & Hf0 & Hp) HT HB HD Hkw [g1 g4] HS HA mu.
  destruct (robs_cell h s C i t k G H Ht) as (qa & na & rh & fl & diam & beta & alpha & vel & ra & Eq & En & Ef & Era & Er & Etab & Evel & Hns & EC).
  destruct (fit_moments Gam r n q mu hr hn hq g1 g4) as (lam & n0 & L1 & L2 & L3 & L4 & L5).
  assert (P0 : 0 < n0).
  { pose proof (gamma_value_pos _ _ g1) as p1. fold mu in p1. rewrite (n0_fin Gam n lam mu L2 p1) in L3. injection L3 as <-.
    apply Rdiv_lt_0_compat; [|exact p1]. apply Rmult_lt_0_compat; [lra|]. unfold Rpower. apply exp_pos. }
  exists lam, n0. split; [repeat split; assumption|]. cbv zeta.
  assert (fl0 = fl) as -> by (unfold varb in *; congruence).
  unfold value in Vq, Vn. rewrite Eq in Vq. rewrite En in Vn.
  destruct (HT _ Etab) as (ET & LB & LA & Inc). injection ET as -> -> ->.
  pose proof (inc_pos 0 D (Rle_refl 0) Inc) as Pd.
  assert (PP : 0 < population D B (gamma_psd n0 lam mu)).
  { apply population_pos; auto. intros d Hd. apply gamma_psd_pos. exact P0. }
  split; [exact PP|]. intro f. rewrite EC. clear EC. cbv zeta.
  assert (Z1 : all_zero_level e (weighted fl na) t k = false).
  { eapply (fun G => present_level G e); [exact Gam|exact Hi|exact Hp|]. exists n. split; [exact Vn|lra]. }
  assert (L1' : lam3 Gam e kw qa na rh h i t k = XF lam).
  { unfold lam3. rewrite Vq, Vn, (density_rho e h s rh t k r Er Dn), mu_cell_real by lra. exact L1. }
  assert (L3' : n03 Gam e kw qa na rh h i t k = XF n0).
  { unfold n03. rewrite L1', Vn, mu_cell_real by lra. exact L3. }
  assert (Z2 : all_nan_level e (n03 Gam e kw qa na rh h) t k = false).
  { unfold all_nan_level. destruct (forallb _ _) eqn:Q; [|reflexivity]. exfalso. rewrite forallb_forall in Q.
    specialize (Q i). rewrite in_seq in Q. specialize (Q ltac:(lia)). rewrite L3' in Q. discriminate. }
  rewrite Z1, Z2, andb_false_r, L1', L3', Hp, orb_true_r. cbn [orb].
  rewrite (corr_real h s ra t k x Era HA), (speed_real h _ vel w D Hns (gamma_not_p3 e h G) Evel eq_refl Pd HS).
  assert (En' : (if String.eqb h "cl" then psd_curve (XF n0) (XF lam) (mu_cell e kw h false (na i t k)) (map XF D)
                 else exp_curve (XF n0) (XF lam) (map XF D)) = map (fun d => XF (gamma_psd n0 lam mu d)) D).
  { destruct (String.eqb h "cl") eqn:Eh.
    - rewrite Vn, mu_cell_real by lra. apply psd_curve_real. exact Pd.
    - rewrite exp_curve_real. apply map_ext_in. intros d Hd.
      assert (mu = 0) as -> by (unfold mu, class_shape; rewrite Eh; reflexivity).
      rewrite exp_is_gamma by (apply Pd; exact Hd). reflexivity. }
  rewrite En'.
  assert (EV : scale_v (XF x) (map (fun d => XF (w d)) D) = map XF (map (fun d => w d * x) D)).
  { unfold scale_v. rewrite !map_map. reflexivity. }
  rewrite EV, (spectrum_real ins D A B (map (fun d => w d * x) D) (gamma_psd n0 lam mu)); auto.
  - rewrite map_length. reflexivity.
  - intros b Hb. left. auto.
  - intros d Hd. left. apply gamma_psd_pos. exact P0.
Qed.

Lemma robs_empty h s C i t k : gamma_class e h -> robs Gam e ins mie sch kw lut h s = Ok C -> (t < ntm e)%nat ->
  0 < k_w ins -> holds_none s h i t k -> exists o, silent o /\ forall f, pt f C i t k = f o.
Proof.
  intros G H Ht Hk Vq.
  destruct (robs_cell h s C i t k G H Ht) as (qa & na & rh & fl & diam & beta & alpha & vel & ra & Eq & En & Ef & Era & Er & Etab & Evel & Hns & EC).
  unfold holds_none, value in Vq. rewrite Eq in Vq. cbv zeta in EC.
  assert (El : lam3 Gam e kw qa na rh h i t k = XNaN) by (unfold lam3; apply lambda_nan; exact Vq).
  rewrite El in EC. eexists. split; [|exact EC].
  destruct (all_zero_level e _ t k || _); [apply silent0|]. apply silent_spectrum; [exact Hk|].
  intros v Hv. destruct (String.eqb h "cl"); [eapply psd_curve_nan; exact Hv|eapply exp_curve_nan; exact Hv].
Qed.

Lemma robs_nssl h s C : is_nssl e = true -> h <> "cl"%string -> robs Gam e ins mie sch kw lut h s = Ok C -> False.
Proof.
  intros N Nh H.
  assert (G : gamma_class e h).
  { right. unfold is_nssl in N. apply String.eqb_eq in N. rewrite N. discriminate. }
  assert (Ht : (0 < ntm e)%nat).
  { unfold robs in H. repeat (apply res_bind_ok in H as (? & _ & H)). apply stack_ok in H. lia. }
  destruct (robs_cell h s C 0 0 0 G H Ht) as (? & ? & ? & ? & ? & ? & ? & ? & ? & _ & _ & _ & _ & _ & _ & _ & Q & _).
  apply Nh, Q, N.
Qed.
End C.

Lemma rtable_ok e ins mie h lut tab tab' : radar_lut mie (rad_family e) = Ok lut -> micro_table ins lut mie h = Ok tab ->
  class_table e ins mie h tab' -> tab = tab'.
Proof.
  unfold radar_lut. intros Hl Ht HC. destruct mie; [|apply (table_ok e ins false h lut tab tab' Hl Ht HC)].
  destruct HC as (st & Hs & ->). unfold micro_table, dict in Ht.
  destruct (memb h ice_classes); rewrite Hs in Ht; injection Ht as <-; reflexivity.
Qed.
