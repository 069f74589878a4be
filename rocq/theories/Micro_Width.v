(** The radar microphysics method on any classes: values of the ice of the P3
    scheme, total mean velocity and total spectral width. *)
From Verif Require Import Mom_Base Mom_Spec Mom_Facts Xr_Facts Sched_Model Atm_Model Psd_Model Lidar_Model Lidar_Spec
  Lidar_Od Lidar_Loop Lidar_Api Lidar_Corol Mom_Writes Psd_Spec Psd_Int Psd_Facts Radar_Model Radar_Spec Radar_Total Radar_Att Radar_Loop Radar_Api
  Radar_Corol Micro_Spec Micro_Loop Micro_Char Micro_Psd Micro_Cell Micro_Any Micro_P3_Spec Micro_P3 Micro_Rloop Micro_Rcall Micro_Rcell
  Micro_Radar Micro_Rany Micro_Rany2 Micro_Width_Spec.
Local Open Scope R_scope.

Lemma width_real D B V n m : length B = length D -> length V = length D ->
  trapz (map XF D) (zmul (map (fun x => xsq (xsub x (XF m))) (map XF V)) (zmul (map XF B) (map (fun d => XF (n d)) D)))
  = XF (population D (products (map (fun v => (v - m) ^ 2) V) B) n).
Proof.
  intros LB LV.
  assert (EV : map (fun x => xsq (xsub x (XF m))) (map XF V) = map XF (map (fun v => (v - m) ^ 2) V)).
  { rewrite !map_map. apply map_ext. intro v. unfold xsq, xsub. cbn [xopp xadd xmul]. apply (f_equal XF). ring. }
  rewrite EV. set (W := map (fun v => (v - m) ^ 2) V).
  assert (LW : length W = length D) by (unfold W; rewrite map_length; exact LV).
  rewrite (zmul_products W B n D LW LB), (trapz_real D (times (products W B) n D))
    by (apply length_times; rewrite length_products; lia).
  reflexivity.
Qed.
Lemma spectrum_absent ins diam alpha beta v nd : 0 < k_w ins -> silent (spectrum ins diam alpha beta v nd false).
Proof.
  intro Hk. unfold silent, spectrum. cbv zeta. cbn [ob_vn ob_md ob_ext ob_ze].
  rewrite ze_scale_0 by exact Hk. cbn. rewrite dBZ_0. auto.
Qed.

Lemma air_factor_unique e s h t k x y : air_factor e s h t k x -> air_factor e s h t k y -> x = y.
Proof.
  intros [(r0 & ra & g & A1 & A2 & A3 & _ & _ & ->)|[A ->]] [(r1 & rb & g' & B1 & B2 & B3 & _ & _ & ->)|[B ->]].
  - unfold var2 in *. assert (r1 = r0) as -> by congruence. assert (g' = g) as -> by congruence.
    assert (rb = ra) as -> by congruence. reflexivity.
  - destruct B; congruence.
  - destruct A; congruence.
  - reflexivity.
Qed.

Section C.
Variables (Gam : R -> R) (e : menv) (ins : inst) (mie : bool) (sch : sched) (kw : psd_kw) (lut : string * bool).
Notation gr := (grobs Gam e ins mie sch kw lut).
Notation gs := (gsig Gam e ins mie sch kw lut).

Lemma grobs_gamma h s : is_p3ci e h = false -> gr h s = robs Gam e ins mie sch kw lut h s.
Proof. intro P. unfold grobs, kw_of. rewrite P. reflexivity. Qed.

(** *** Gamma classes in the second pass *)
Lemma gsig_cell corr vd h s S i t k : gamma_class e h -> is_nssl e = false -> gs corr vd h s = Ok S -> (t < ntm e)%nat ->
  exists q n rh fl diam beta alpha vel,
    var3 s (qn false h) q /\ var3 s (nn false h) n /\ varb s (fn false h) fl /\
    bind (dict (rho_hyd e) h) (fun r => match r with
     | RConst x => Ok (fun _ _ => XF x) | RVar => do v <- dict (var_density e) h; g2 s v end) = Ok rh /\
    micro_table ins lut mie h = Ok (diam, beta, alpha) /\ class_velocity e h diam = Ok (Some vel) /\
    let n0 := n03 Gam e kw q n rh h in let lam := lam3 Gam e kw q n rh h in
    let nd := if String.eqb h "cl" then psd_curve (n0 i t k) (lam i t k) (mu_cell e kw h false (n i t k)) diam
              else exp_curve (n0 i t k) (lam i t k) diam in
    pts S i t k =
      if all_zero_level e (weighted fl n) t k || (negb (String.eqb h "cl") && all_nan_level e n0 t k) then XF 0
      else if String.eqb h "cl" || fl i t k then
        trapz diam (zmul (map (fun x => xsq (xsub x (vd i t k))) (scale_v (corr t k) vel)) (zmul beta nd))
      else XF 0.
Proof.
  intros G Ns H Ht. unfold gsig in H. pose proof (gamma_not_p3 e h G) as NP.
  unfold kw_of in H. rewrite NP in H. cbn [bind] in H.
  apply res_bind_ok in H as (ft & Hf & H). apply res_bind_ok in H as (tab & Htab & H).
  apply res_bind_ok in H as (v & Hv & H). apply res_bind_ok in H as (fl & Hfl & H).
  apply res_bind_ok in H as (n & Hn & H).
  apply res_bind_ok in H as (order & Ho & H). apply res_bind_ok in H as (cols0 & Hc & Hs).
  apply (gamma_fit3 Gam e kw h s ft G) in Hf. apply fit3_inv in Hf as (q & n' & rh & Hq & Hn' & Hr & ->).
  apply g3_ok in Hn. assert (n' = n) as -> by (unfold var3 in *; congruence).
  destruct tab as [[diam beta] alpha]. cbn [fst] in Hv, Hc.
  apply order_ok in Ho. subst order. apply stack_ok in Hs as (-> & Hlen & _).
  assert (Vs : exists vel, v = Some vel).
  { unfold class_velocity in Hv. rewrite NP, Ns in Hv. apply res_bind_ok in Hv as (vel & _ & Hv). injection Hv as <-. eauto. }
  destruct Vs as (vel & ->).
  exists q, n, rh, fl, diam, beta, alpha, vel.
  do 2 (split; [assumption|]). split; [apply gb_ok; exact Hfl|]. do 3 (split; [assumption|]).
  cbv zeta. destruct (String.eqb_spec h "cl"%string) as [->|Nh].
  - apply run_cols_nth in Hc as [_ Hc]. destruct (Hc t Ht) as (c & E1 & E2). cbn [Nat.add] in E1.
    unfold sigma_liquid in E1. unfold micro_table in Htab. change (memb "cl" ice_classes) with false in Htab. cbv iota in Htab.
    destruct (dict (mie_table ins) "cl") as [tb|]; [|discriminate Htab]. cbn [bind] in Htab, E1. injection Htab as <- <- <-.
    unfold class_velocity in Hv. rewrite NP, Ns in Hv. apply res_bind_ok in Hv as (vel' & Hp & Hv). injection Hv as ->.
    rewrite Hp in E1. cbn [bind] in E1.
    match type of E1 with (if ?b then _ else _) = _ => destruct b; [discriminate E1|] end. injection E1 as <-.
    unfold pts, of_cols. rewrite E2. cbn [andb orb negb]. rewrite orb_false_r. reflexivity.
  - apply run_cols_nth in Hc as [_ Hc]. destruct (Hc t Ht) as (c & E1 & E2). cbn [Nat.add] in E1.
    unfold sigma_other in E1. rewrite Ns, NP in E1. injection E1 as <-.
    unfold pts, of_cols. rewrite E2. cbn [andb orb negb]. reflexivity.
Qed.

Lemma products_nonneg D B W n : increasing_from 0 D -> (forall b, In b B -> 0 < b) -> (forall d, 0 < d -> 0 <= n d) ->
  (forall v, In v W -> 0 <= v) -> 0 <= population D (products W B) n.
Proof.
  intros Inc HB Hn HW. apply population_nonneg; auto. intros x Hx. apply in_products in Hx as (v & b & Hv & Hb & ->).
  apply Rmult_le_pos; [auto|left; auto].
Qed.
(** What the two passes give for a class that puts [c] in the cell. *)
Definition gives (c : option particles) (C : list (nat -> nat -> obs)) (i t k : nat) : Prop :=
  match c with
  | None => silent {| ob_vn := pt ob_vn C i t k; ob_md := pt ob_md C i t k; ob_ext := pt ob_ext C i t k;
                      ob_ze := pt ob_ze C i t k; ob_vd := pt ob_vd C i t k; ob_sg := pt ob_sg C i t k |}
  | Some p => 0 < population (pa_D p) (pa_B p) (pa_n p) /\
      (forall W, (forall v, In v W -> 0 <= v) -> 0 <= population (pa_D p) (products W (pa_B p)) (pa_n p)) /\
      forall f, pt f C i t k =
        f {| ob_vn := XF (population (pa_D p) (products (pa_V p) (pa_B p)) (pa_n p));
             ob_md := XF (population (pa_D p) (pa_B p) (pa_n p)); ob_ext := XF (population (pa_D p) (pa_A p) (pa_n p));
             ob_ze := XF (reflectivity ins (population (pa_D p) (pa_B p) (pa_n p)));
             ob_vd := XF (mean_of (pa_D p) (pa_V p) (pa_B p) (pa_n p)); ob_sg := XF (spread_of (pa_D p) (pa_V p) (pa_B p) (pa_n p)) |}
  end.
Definition spreads (c : option particles) (m : R) (S : list (nat -> nat -> xr)) (i t k : nat) : Prop :=
  nan_to_num (pts S i t k)
  = XF (match c with None => 0
        | Some p => population (pa_D p) (products (map (fun v => (v - m) ^ 2) (pa_V p)) (pa_B p)) (pa_n p) end).
End C.

Section One.
Variables (Gam : R -> R) (e : menv) (ins : inst) (o : ropts) (lut : string * bool) (s : dset).
Hypotheses (Hkw : 0 < k_w ins) (Hl : radar_lut (r_mie o) (rad_family e) = Ok lut).
Notation gr := (grobs Gam e ins (r_mie o) (r_sched o) (r_kw o) lut).
Notation gs := (gsig Gam e ins (r_mie o) (r_sched o) (r_kw o) lut).

(** The parameters of the distribution of a cell. *)
Lemma cell_fit h i t k q n r : holds_particles e s h i t k q n r -> gamma_known Gam (class_shape e (r_kw o) h n) ->
  exists lam n0, carries r q n (class_shape e (r_kw o) h n) lam n0 /\
    forall qa na rh, var3 s (qn false h) qa -> var3 s (nn false h) na ->
      bind (dict (rho_hyd e) h) (fun r => match r with
       | RConst x => Ok (fun _ _ => XF x) | RVar => do v <- dict (var_density e) h; g2 s v end) = Ok rh ->
      na i t k = XF n /\ lam3 Gam e (r_kw o) qa na rh h i t k = XF lam /\ n03 Gam e (r_kw o) qa na rh h i t k = XF n0.
Proof.
  intros (Vq & Vn & Dn & hq & hn & hr & fl0 & Hf0 & Hp) [g1 g4].
  set (mu := class_shape e (r_kw o) h n) in *.
  destruct (fit_moments Gam r n q mu hr hn hq g1 g4) as (lam & n0 & L1 & L2 & L3 & L4 & L5).
  assert (P0 : 0 < n0).
  { pose proof (gamma_value_pos _ _ g1) as p1. fold mu in p1. rewrite (n0_fin Gam n lam mu L2 p1) in L3. injection L3 as <-.
    apply Rdiv_lt_0_compat; [|exact p1]. apply Rmult_lt_0_compat; [lra|]. unfold Rpower. apply exp_pos. }
  exists lam, n0. split; [repeat split; assumption|]. intros qa na rh Eq En Er.
  unfold value in Vq, Vn. rewrite Eq in Vq. rewrite En in Vn. split; [exact Vn|].
  assert (L1' : lam3 Gam e (r_kw o) qa na rh h i t k = XF lam).
  { unfold lam3. rewrite Vq, Vn, (density_rho e h s rh t k r Er Dn), mu_cell_real by lra. exact L1. }
  split; [exact L1'|]. unfold n03. rewrite L1', Vn, mu_cell_real by lra. exact L3.
Qed.
Lemma not_nan_level (a : arr3) i t k x : (i < nsub e)%nat -> a i t k = XF x -> all_nan_level e a t k = false.
Proof.
  intros Hi Ha. unfold all_nan_level. destruct (forallb _ _) eqn:Q; [|reflexivity]. exfalso. rewrite forallb_forall in Q.
  specialize (Q i). rewrite in_seq in Q. specialize (Q ltac:(lia)). rewrite Ha in Q. discriminate.
Qed.
Lemma curve_real h n n0 lam D : 0 <= n -> (forall d, In d D -> 0 < d) ->
  (if String.eqb h "cl" then psd_curve (XF n0) (XF lam) (mu_cell e (r_kw o) h false (XF n)) (map XF D)
   else exp_curve (XF n0) (XF lam) (map XF D))
  = map (fun d => XF (gamma_psd n0 lam (class_shape e (r_kw o) h n) d)) D.
Proof.
  intros Hn Pd. destruct (String.eqb h "cl") eqn:Eh.
  - rewrite mu_cell_real by exact Hn. apply psd_curve_real. exact Pd.
  - rewrite exp_curve_real. apply map_ext_in. intros d Hd.
    assert (class_shape e (r_kw o) h n = 0) as -> by (unfold class_shape; rewrite Eh; reflexivity).
    rewrite exp_is_gamma by (apply Pd; exact Hd). reflexivity.
Qed.
Lemma scale_real (x : R) (w : R -> R) D : scale_v (XF x) (map (fun d => XF (w d)) D) = map XF (map (fun d => w d * x) D).
Proof. unfold scale_v. rewrite !map_map. reflexivity. Qed.

Lemma gamma_one_class h C i t k : cell e i t k -> is_p3ci e h = false -> gamma_class e h ->
  determined Gam e ins o s h i t k -> gr h s = Ok C ->
  exists c, (match c with None => holds_none s h i t k | Some p => gamma_seen Gam e ins o s h i t k p end) /\
    gives ins c C i t k /\
    (forall corr vd S x m, is_nssl e = false -> gs corr vd h s = Ok S -> air_factor e s h t k x -> corr t k = XF x -> vd i t k = XF m ->
       spreads c m S i t k).
Proof.
  intros Cl NP G [HN|(q & n & r & tab & D & B & A & w & x & HP & CT & ST & HB & HD & HK & HS & HA)] R0.
  - rewrite (grobs_gamma _ _ _ _ _ _ _ _ _ NP) in R0. exists None. split; [exact HN|]. split.
    + destruct (robs_empty Gam e ins _ _ _ lut h s C i t k G R0 (proj1 (proj2 Cl)) Hkw HN) as (ob & Sl & HV).
      unfold gives. rewrite !HV. destruct ob; exact Sl.
    + intros corr vd S x m Ns E Hx Ex Em.
      destruct (gsig_cell Gam e ins _ _ _ lut corr vd h s S i t k G Ns E (proj1 (proj2 Cl)))
        as (qa & na & rh & fl & diam & beta & alpha & vel & Eq & En & Ef & Er & Etab & Evel & EC).
      unfold spreads. rewrite EC. clear EC. cbv zeta.
      unfold holds_none, value in HN. rewrite Eq in HN.
      assert (El : lam3 Gam e (r_kw o) qa na rh h i t k = XNaN) by (unfold lam3; apply lambda_nan; exact HN).
      rewrite El. destruct (all_zero_level e _ t k || _); [reflexivity|]. destruct (String.eqb h "cl" || _); [|reflexivity].
      match goal with |- nan_to_num (trapz ?d (zmul ?a (zmul ?b ?nd))) = _ =>
        assert (Z : forall v, In v (zmul a (zmul b nd)) -> v = XNaN);
        [|destruct (trapz_nan d (zmul a (zmul b nd)) Z) as [-> | ->]; reflexivity] end.
      apply zmul_nan, zmul_nan. intros v Hv. destruct (String.eqb h "cl"); [eapply psd_curve_nan; exact Hv|eapply exp_curve_nan; exact Hv].
  - pose proof R0 as R1. rewrite (grobs_gamma _ _ _ _ _ _ _ _ _ NP) in R1.
    destruct (cell_fit h i t k q n r HP HK) as (lam & n0 & Hcar & HF).
    pose proof HP as (Vq & Vn & Dn & hq & hn & hr & fl0 & Hf0 & Hp). destruct Cl as (Hi & Ht & Hk).
    set (mu := class_shape e (r_kw o) h n) in *. pose proof (proj1 (proj2 Hcar)) as P0.
    destruct ST as (ET & LB & LA & Inc). pose proof (inc_pos 0 D (Rle_refl 0) Inc) as Pd.
    assert (PP : 0 < population D B (gamma_psd n0 lam mu)).
    { apply population_pos; auto. intros d Hd. apply gamma_psd_pos. exact P0. }
    assert (Z1 : forall na, var3 s (nn false h) na -> all_zero_level e (weighted fl0 na) t k = false).
    { intros na En. eapply (fun G => present_level G e); [exact Gam|exact Hi|exact Hp|]. exists n.
      unfold value in Vn. rewrite En in Vn. split; [exact Vn|lra]. }
    exists (Some {| pa_D := D; pa_B := B; pa_A := A; pa_V := map (fun d => w d * x) D; pa_n := gamma_psd n0 lam mu |}).
    split; [|split].
    + exists q, n, r, tab, w, x, lam, n0. cbn [pa_D pa_B pa_A pa_V pa_n]. unfold particle_table. repeat (split; [assumption||tauto|]). split; reflexivity.
    + unfold gives. cbn [pa_D pa_B pa_A pa_V pa_n]. split; [exact PP|].
      split; [intro; apply products_nonneg; auto; intros d Hd; left; apply gamma_psd_pos; exact P0|].
      destruct (robs_cell Gam e ins _ _ _ lut h s C i t k G R1 Ht) as (qa & na & rh & fl & diam & beta & alpha & vel & ra & Eq & En & Ef & Era & Er & Etab & Evel & Hns & EC).
      assert (fl = fl0) as -> by (unfold varb in *; congruence).
      pose proof (rtable_ok e ins (r_mie o) h lut _ tab Hl Etab CT) as Q. rewrite ET in Q. injection Q as -> -> ->.
      destruct (HF qa na rh Eq En Er) as (Nn & L1 & L3).
      intro f. rewrite EC. clear EC. cbv zeta. rewrite (Z1 na En), L1, L3, Nn, Hp, orb_true_r. cbn [orb].
      rewrite (not_nan_level _ i t k n0 Hi L3), andb_false_r, (curve_real h n n0 lam D) by (lra || exact Pd).
      rewrite (corr_real e h s ra t k x Era HA), (speed_real e h _ vel w D Hns NP Evel eq_refl Pd HS), scale_real.
      fold mu. rewrite (spectrum_real ins D A B (map (fun d => w d * x) D) (gamma_psd n0 lam mu)); auto.
      * rewrite map_length. reflexivity.
      * intros b Hb. left. auto.
      * intros d Hd. left. apply gamma_psd_pos. exact P0.
    + intros corr vd S x' m Ns E Hx Ex Em.
      destruct (gsig_cell Gam e ins _ _ _ lut corr vd h s S i t k G Ns E Ht)
        as (qa & na & rh & fl & diam & beta & alpha & vel & Eq & En & Ef & Er & Etab & Evel & EC).
      assert (fl = fl0) as -> by (unfold varb in *; congruence).
      pose proof (rtable_ok e ins (r_mie o) h lut _ tab Hl Etab CT) as Q. rewrite ET in Q. injection Q as -> -> ->.
      destruct (HF qa na rh Eq En Er) as (Nn & L1 & L3).
      unfold spreads. rewrite EC. clear EC. cbv zeta. cbn [pa_D pa_B pa_A pa_V pa_n].
      rewrite (Z1 na En), L1, L3, Nn, Hp, orb_true_r. cbn [orb].
      rewrite (not_nan_level _ i t k n0 Hi L3), andb_false_r, (curve_real h n n0 lam D) by (lra || exact Pd).
      rewrite (speed_real e h _ vel w D ltac:(congruence) NP Evel eq_refl Pd HS), Ex, scale_real, Em.
      assert (x' = x) as ->.
      { exact (air_factor_unique e s h t k x' x Hx HA). }
      fold mu. rewrite (width_real D B (map (fun d => w d * x) D) (gamma_psd n0 lam mu) m LB) by (rewrite map_length; reflexivity).
      reflexivity.
Qed.

(** The ice of the P3 scheme. *)
Lemma p3_spectrum C i t k : mcphys e = "P3"%string -> cell e i t k -> gr "ci" s = Ok C ->
  (forall p, p3_seen e ins o s i t k p -> (forall b, In b (pa_B p) -> 0 < b) -> (2 <= length (pa_D p))%nat -> gives ins (Some p) C i t k) /\
  (p3_absent s i t k -> gives ins None C i t k).
Proof.
  intros P (Hi & Ht & Hk) H.
  assert (PC : is_p3ci e "ci" = true) by (unfold is_p3ci; rewrite P; reflexivity).
  assert (Ns : is_nssl e = false) by (unfold is_nssl; rewrite P; reflexivity).
  unfold grobs in H. apply res_bind_ok in H as (w & Hw & H).
  unfold kw_of in Hw. rewrite PC in Hw. apply res_bind_ok in Hw as (fr & Hfr & Hw). apply res_bind_ok in Hw as (rr & Hrr & Hw).
  injection Hw as <-.
  apply res_bind_ok in H as (ft & Hf & H). apply res_bind_ok in H as (fl & Hfl & H).
  apply res_bind_ok in H as (nb & Hnb & H). apply res_bind_ok in H as (tab' & Htab & H).
  apply res_bind_ok in H as (v & Hv & H). apply res_bind_ok in H as (ra & Hra & H).
  apply res_bind_ok in H as (order & Ho & H). apply res_bind_ok in H as (cols0 & Hc & Hs).
  apply order_ok in Ho. subst order. apply stack_ok in Hs as (-> & Hlen & _).
  cbn [String.eqb Ascii.eqb Bool.eqb] in Hc.
  apply run_cols_nth in Hc as [_ Hc]. destruct (Hc t Ht) as (c & E1 & E2). cbn [Nat.add] in E1.
  destruct (p3_fit Gam e (r_kw o) s ft P Hf) as (ni & n1' & ln' & l & mn' & m & G1 & G2 & G3 & G4 & G5 & G6 & ->).
  destruct tab' as [[diam beta] alpha]. unfold other_column in E1. rewrite PC, Ns in E1. injection E1 as <-.
  apply g3_ok in Hnb. apply gb_ok in Hfl. apply g2_ok in Hra.
  assert (EP : forall (f : obs -> xr), pt f cols0 i t k = f (if all_zero_level e (weighted fl nb) t k then obs0
    else spectrum ins diam (if r_mie o then alpha else p3_curve ins {| kw_fr := fr; kw_rr := rr |} "alpha_p" diam t k)
           (if r_mie o then beta else p3_curve ins {| kw_fr := fr; kw_rr := rr |} "beta_p" diam t k)
           (scale_v (rhoa_corr e "ci" ra t k) (p3_velocity ins {| kw_fr := fr; kw_rr := rr |} diam t k))
           (psd_curve (xmul (ni t k) (n1' t k)) (l t k) (m t k) diam) (fl i t k))).
  { intro f. unfold pt, of_cols. rewrite E2. reflexivity. }
  split.
  - intros [D B A V nd]. unfold p3_seen, gives. cbn [pa_D pa_B pa_A pa_V pa_n].
    intros (n0 & lam & mu & W & x & (n2 & fl' & Vn & Nn & Vf & Fl) & (tab & CT & HS) &
            (n & n1 & L & ln & M & mn & Hn & Hn1 & En0 & HLf & HLa & Hll & HMf & HMa & Hm) & P0 & HW & HA & -> & ->) HB HD.
    unfold field_of in G3, G5. rewrite HLf, HLa in G3. rewrite HMf, HMa in G5. injection G3 as <-. injection G5 as <-.
    pose proof (holds2_g2 _ _ _ _ _ _ Hn G1) as V1. pose proof (holds2_g2 _ _ _ _ _ _ Hn1 G2) as V2.
    pose proof (holds2_g2 _ _ _ _ _ _ Hll G4) as V3. pose proof (holds2_g2 _ _ _ _ _ _ Hm G6) as V4.
    pose proof (rtable_ok e ins (r_mie o) "ci" lut _ tab Hl Htab CT) as Q. subst tab.
    assert (K : diam = map XF D /\ increasing_from 0 D /\ length B = length D /\ length A = length D /\
       (if r_mie o then beta else p3_curve ins {| kw_fr := fr; kw_rr := rr |} "beta_p" diam t k) = map XF B /\
       (if r_mie o then alpha else p3_curve ins {| kw_fr := fr; kw_rr := rr |} "alpha_p" diam t k) = map XF A).
    { destruct (r_mie o).
      - destruct HS as (ET & LB & LA & Inc). injection ET as -> -> ->. auto 10.
      - destruct HS as (ET & Inc & (f1 & r1 & F1 & R1 & TB) & (f2 & r2 & F2 & R2 & TA)). cbn [fst] in ET. subst diam.
        split; [reflexivity|]. split; [exact Inc|]. split; [exact (Forall2_len _ _ _ TB)|]. split; [exact (Forall2_len _ _ _ TA)|].
        unfold p3_curve. cbn [kw_fr kw_rr]. split.
        + rewrite (holds2_g2 _ _ _ _ _ _ F1 Hfr), (holds2_g2 _ _ _ _ _ _ R1 Hrr). apply tabulated_map, TB.
        + rewrite (holds2_g2 _ _ _ _ _ _ F2 Hfr), (holds2_g2 _ _ _ _ _ _ R2 Hrr). apply tabulated_map, TA. }
    destruct K as (-> & Inc & LB & LA & KB & KA). pose proof (inc_pos 0 D (Rle_refl 0) Inc) as Pd.
    assert (PP : 0 < population D B (gamma_psd n0 lam mu)).
    { apply population_pos; auto. intros d Hd. apply gamma_psd_pos. exact P0. }
    split; [exact PP|].
    split; [intro; apply products_nonneg; auto; intros d Hd; left; apply gamma_psd_pos; exact P0|].
    intro f. rewrite EP, KB, KA, V1, V2, V3, V4. cbn [xmul]. rewrite <- En0.
    assert (fl' = fl) as -> by (unfold varb in *; congruence).
    assert (Z : all_zero_level e (weighted fl nb) t k = false).
    { eapply (fun G => present_level G e); [exact Gam|exact Hi|exact Fl|]. exists n2. split; [|exact Nn].
      unfold value in Vn. red in Hnb. rewrite Hnb in Vn. exact Vn. }
    rewrite Z, Fl, psd_curve_real by exact Pd. rewrite (corr_real e "ci" s ra t k x Hra HA).
    destruct HW as (f3 & r3 & F3 & R3 & TW).
    assert (EV : scale_v (XF x) (p3_velocity ins {| kw_fr := fr; kw_rr := rr |} (map XF D) t k) = map XF (map (fun w => - w * x) W)).
    { unfold p3_velocity, p3_curve. cbn [kw_fr kw_rr].
      rewrite (holds2_g2 _ _ _ _ _ _ F3 Hfr), (holds2_g2 _ _ _ _ _ _ R3 Hrr), (tabulated_map ins "vt" f3 r3 D W TW).
      unfold scale_v. rewrite !map_map. reflexivity. }
    rewrite EV. rewrite (spectrum_real ins D A B (map (fun w => - w * x) W) (gamma_psd n0 lam mu)); auto.
    + rewrite map_length. exact (Forall2_len _ _ _ TW).
    + intros b Hb. left. auto.
    + intros d Hd. left. apply gamma_psd_pos. exact P0.
  - intros (fl' & Vf & Fl). assert (fl' = fl) as -> by (unfold varb in *; congruence).
    unfold gives. rewrite !EP. destruct (all_zero_level e (weighted fl nb) t k); [apply silent0|]. rewrite Fl.
    match goal with |- context [ob_vn ?x] => assert (SS : silent x) by (apply spectrum_absent; exact Hkw); revert SS; generalize x end.
    intros ob SS. destruct ob. exact SS.
Qed.
Lemma p3_width corr vd S i t k x m : mcphys e = "P3"%string -> cell e i t k -> gs corr vd "ci" s = Ok S ->
  air_factor e s "ci" t k x -> corr t k = XF x -> vd i t k = XF m ->
  (forall p, p3_seen e ins o s i t k p -> spreads (Some p) m S i t k) /\
  (p3_absent s i t k -> spreads None m S i t k).
Proof.
  intros P (Hi & Ht & Hk) H Hx Ex Em.
  assert (PC : is_p3ci e "ci" = true) by (unfold is_p3ci; rewrite P; reflexivity).
  assert (Ns : is_nssl e = false) by (unfold is_nssl; rewrite P; reflexivity).
  unfold gsig in H. apply res_bind_ok in H as (w & Hw & H).
  unfold kw_of in Hw. rewrite PC in Hw. apply res_bind_ok in Hw as (fr & Hfr & Hw). apply res_bind_ok in Hw as (rr & Hrr & Hw).
  injection Hw as <-.
  apply res_bind_ok in H as (ft & Hf & H). apply res_bind_ok in H as (tab' & Htab & H).
  apply res_bind_ok in H as (v & Hv & H). apply res_bind_ok in H as (fl & Hfl & H).
  apply res_bind_ok in H as (nb & Hnb & H).
  apply res_bind_ok in H as (order & Ho & H). apply res_bind_ok in H as (cols0 & Hc & Hs).
  apply order_ok in Ho. subst order. apply stack_ok in Hs as (-> & Hlen & _).
  cbn [String.eqb Ascii.eqb Bool.eqb] in Hc.
  apply run_cols_nth in Hc as [_ Hc]. destruct (Hc t Ht) as (c & E1 & E2). cbn [Nat.add] in E1.
  destruct (p3_fit Gam e (r_kw o) s ft P Hf) as (ni & n1' & ln' & l & mn' & m' & G1 & G2 & G3 & G4 & G5 & G6 & ->).
  destruct tab' as [[diam beta] alpha]. unfold sigma_other in E1. rewrite PC, Ns in E1. injection E1 as <-.
  apply g3_ok in Hnb. apply gb_ok in Hfl. unfold spreads, pts, of_cols. rewrite E2.
  split.
  - intros [D B A V nd]. unfold p3_seen. cbn [pa_D pa_B pa_A pa_V pa_n].
    intros (n0 & lam & mu & W & x1 & (n2 & fl' & Vn & Nn & Vf & Fl) & (tab & CT & HS) &
            (n & n1 & L & ln & M & mn & Hn & Hn1 & En0 & HLf & HLa & Hll & HMf & HMa & Hm) & P0 & HW & HA & -> & ->).
    rewrite (air_factor_unique e s "ci" t k x x1 Hx HA) in Ex.
    unfold field_of in G3, G5. rewrite HLf, HLa in G3. rewrite HMf, HMa in G5. injection G3 as <-. injection G5 as <-.
    pose proof (holds2_g2 _ _ _ _ _ _ Hn G1) as V1. pose proof (holds2_g2 _ _ _ _ _ _ Hn1 G2) as V2.
    pose proof (holds2_g2 _ _ _ _ _ _ Hll G4) as V3. pose proof (holds2_g2 _ _ _ _ _ _ Hm G6) as V4.
    pose proof (rtable_ok e ins (r_mie o) "ci" lut _ tab Hl Htab CT) as Q. subst tab.
    assert (K : diam = map XF D /\ increasing_from 0 D /\ length B = length D /\
       (if r_mie o then beta else p3_curve ins {| kw_fr := fr; kw_rr := rr |} "beta_p" diam t k) = map XF B).
    { destruct (r_mie o).
      - destruct HS as (ET & LB & LA & Inc). injection ET as -> -> ->. auto 10.
      - destruct HS as (ET & Inc & (f1 & r1 & F1 & R1 & TB) & (f2 & r2 & F2 & R2 & TA)). cbn [fst] in ET. subst diam.
        split; [reflexivity|]. split; [exact Inc|]. split; [exact (Forall2_len _ _ _ TB)|].
        unfold p3_curve. cbn [kw_fr kw_rr].
        rewrite (holds2_g2 _ _ _ _ _ _ F1 Hfr), (holds2_g2 _ _ _ _ _ _ R1 Hrr). apply tabulated_map, TB. }
    destruct K as (-> & Inc & LB & KB). pose proof (inc_pos 0 D (Rle_refl 0) Inc) as Pd.
    rewrite KB, V1, V2, V3, V4. cbn [xmul]. rewrite <- En0.
    assert (fl' = fl) as -> by (unfold varb in *; congruence).
    assert (Z : all_zero_level e (weighted fl nb) t k = false).
    { eapply (fun G => present_level G e); [exact Gam|exact Hi|exact Fl|]. exists n2. split; [|exact Nn].
      unfold value in Vn. red in Hnb. rewrite Hnb in Vn. exact Vn. }
    cbn [isnan]. rewrite Z, Fl, psd_curve_real by exact Pd. cbn [orb]. rewrite Ex, Em.
    destruct HW as (f3 & r3 & F3 & R3 & TW).
    assert (EV : scale_v (XF x1) (p3_velocity ins {| kw_fr := fr; kw_rr := rr |} (map XF D) t k) = map XF (map (fun w => - w * x1) W)).
    { unfold p3_velocity, p3_curve. cbn [kw_fr kw_rr].
      rewrite (holds2_g2 _ _ _ _ _ _ F3 Hfr), (holds2_g2 _ _ _ _ _ _ R3 Hrr), (tabulated_map ins "vt" f3 r3 D W TW).
      unfold scale_v. rewrite !map_map. reflexivity. }
    rewrite EV, (width_real D B (map (fun w => - w * x1) W) (gamma_psd n0 lam mu) m LB)
      by (rewrite map_length; exact (Forall2_len _ _ _ TW)).
    reflexivity.
  - intros (fl' & Vf & Fl). assert (fl' = fl) as -> by (unfold varb in *; congruence). rewrite Fl.
    destruct (all_zero_level e (weighted fl nb) t k || _); reflexivity.
Qed.

(** Any class. *)
Lemma one_class h C i t k : cell e i t k -> class_known Gam e ins o s h i t k -> gr h s = Ok C ->
  exists c, class_seen Gam e ins o s h i t k c /\ gives ins c C i t k /\
    (forall corr vd S x m, is_nssl e = false -> gs corr vd h s = Ok S -> air_factor e s h t k x -> corr t k = XF x -> vd i t k = XF m ->
       spreads c m S i t k).
Proof.
  intros Cl HK HC. unfold class_known, class_seen in *. fold (is_p3ci e h) in *. destruct (is_p3ci e h) eqn:P.
  - assert (h = "ci"%string /\ mcphys e = "P3"%string) as [-> PM].
    { unfold is_p3ci in P. apply andb_prop in P as [P1 P2]. apply String.eqb_eq in P1, P2. auto. }
    destruct (p3_spectrum C i t k PM Cl HC) as [K1 K2].
    destruct HK as [HN|(p & HP & HB & HD)].
    + exists None. split; [exact HN|]. split; [exact (K2 HN)|]. intros corr vd S x m _ E Hx Ex Em.
      apply (p3_width corr vd S i t k x m PM Cl E Hx Ex Em). exact HN.
    + exists (Some p). split; [exact HP|]. split; [exact (K1 p HP HB HD)|]. intros corr vd S x m _ E Hx Ex Em.
      apply (p3_width corr vd S i t k x m PM Cl E Hx Ex Em). exact HP.
  - destruct HK as [G HK]. destruct (gamma_one_class h C i t k Cl P G HK HC) as (c & K1 & K2 & K3).
    exists c. auto.
Qed.
End One.
