(** The molecular transmittance a lidar call leaves in the dataset. *)
From Verif Require Import Mom_Base Mom_Spec Mom_Facts Sched_Model Psd_Model Atm_Model Atm_Spec Atm_Facts Atm_Prof
  Lidar_Model Lidar_Spec Lidar_Od Lidar_Api Lidar_Perm Mom_Writes Lidar_Witness.
Local Open Scope R_scope.

Lemma tau_not_lidar_name c : ~ lidar_name c "tau".
Proof. intros [(f & h & E)|H]; [discriminate E|]. simpl in H. intuition discriminate. Qed.

Lemma set_hyd_classes e a hs : set_hyd_types e a = Ok hs -> classes_of e a hs.
Proof.
  unfold set_hyd_types, classes_of. destruct a; [congruence|]. destruct (hyds e) eqn:E; [discriminate|].
  intro H; injection H as <-. split; congruence.
Qed.
Lemma moments_tau Gam e ins o c s s' P T Z :
  no_pole (wavelen ins) -> atmosphere e s P T Z ->
  calc_lidar_moments Gam e ins o c s = (Ok tt, s') ->
  exists B, (forall t k, point e t k -> 0 <= B t k /\ (1 < 41 * (wavelen ins * wavelen ins) -> 0 < B t k)) /\
   real2 e s' "tau" (fun t k => exp (-2 * molecular_depth true (nht e) (Z t) (B t) k)).
Proof.
  intros L A E. pose proof E as E'. unfold calc_lidar_moments in E'.
  apply rd_bind_inv in E' as (hs & Hs & _). apply set_hyd_classes in Hs.
  destruct (moments_inv Gam e ins o c hs s s' Hs E)
    as (q & pr & tr & zr & s0 & bm & tau & sm & b & od & _ & _ & _ & _ & _ & Ea & _ & _ & Em & _ & _ & ->).
  destruct (theory_run e (wavelen ins) true s P T Z L A)
    as (s0' & B & V & S & S1 & N & K & Er & _ & _ & _ & _ & _ & _ & M & _ & Ht).
  rewrite Ea in Er. injection Er as <-.
  exists B. split.
  { intros t k Q. split; [apply (mo_pos _ _ _ _ _ _ _ _ _ (M t k Q))|apply (mo_strict _ _ _ _ _ _ _ _ _ (M t k Q))]. }
  destruct Ht as (g & Hg & Vg). exists g. split; [|exact Vg].
  unfold var2. rewrite upd_other by discriminate.
  erewrite writes_run; [exact Hg| |exact Em|apply (tau_not_lidar_name c)].
  unfold method_of. destruct (o_emp o); [apply writes_lemp|]. destruct (o_rad o || c)%bool eqn:R; [apply writes_lbulk|].
  apply Bool.orb_false_elim in R as [_ ->]. apply writes_lmicro.
Qed.

(** *** Theorems *)
Lemma transmittance e lam sfc s P T Z : no_pole lam -> atmosphere e s P T Z ->
  exists s' tau, calc_theory_beta_m e lam sfc s = (Ok tt, s') /\ real2 e s' "tau" tau /\
   (forall t k, point e t k -> 0 < tau t k <= 1) /\
   (forall t, tau t (first_level sfc (nht e)) = 1) /\
   (forall t k k', point e t k -> point e t k' -> farther sfc k k' -> tau t k' <= tau t k) /\
   (1 < 41 * (lam * lam) -> forall t k k', point e t k -> point e t k' -> farther sfc k k' -> k <> k' -> tau t k' < tau t k).
Proof.
  intros L A. destruct (theory_run e lam sfc s P T Z L A)
    as (s' & B & V & S & S1 & N & K & Er & _ & _ & _ & _ & _ & _ & M & _ & Ht).
  destruct A as (_ & _ & _ & _ & _ & ZZ).
  assert (LD : forall t j, (t < ntm e)%nat -> (Datatypes.S j < nht e)%nat -> 0 <= layer_depth (Z t) (B t) j).
  { intros t j H1 H2. 
    assert (HB : forall k, (k < nht e)%nat -> 0 <= B t k) by (intros k Hk; apply (mo_pos _ _ _ _ _ _ _ _ _ (M t k (conj H1 Hk)))).
    apply layer_nonneg; [apply ZZ; split; assumption|apply HB; lia|apply HB; lia]. }
  exists s', (fun t k => exp (-2 * molecular_depth sfc (nht e) (Z t) (B t) k)).
  split; [exact Er|]. split; [exact Ht|]. split; [|split; [|split]].
  - intros t k (H1 & H2). split; [apply exp_pos|]. rewrite <- exp_0.
    assert (Q := depth_nonneg sfc (nht e) (Z t) (B t) k H2 (fun j => LD t j H1)).
    destruct (Rle_lt_or_eq_dec _ _ Q) as [Q'|Q']; [left; apply exp_increasing; lra|right; f_equal; lra].
  - intro t. rewrite depth_first. rewrite Rmult_0_r. apply exp_0.
  - intros t k k' (H1 & H2) (_ & H3) F.
    assert (Q := depth_mono sfc (nht e) (Z t) (B t) k k' H2 H3 F (fun j => LD t j H1)).
    destruct (Rle_lt_or_eq_dec _ _ Q) as [Q'|Q']; [left; apply exp_increasing; lra|right; f_equal; lra].
  - intros Vis t k k' (H1 & H2) (_ & H3) F N'.
    apply exp_increasing. assert (molecular_depth sfc (nht e) (Z t) (B t) k < molecular_depth sfc (nht e) (Z t) (B t) k'); [|lra].
    apply depth_strict; auto. intros j Hj.
    assert (HB : forall k, (k < nht e)%nat -> 0 < B t k) by (intros i Hi; apply (mo_strict _ _ _ _ _ _ _ _ _ (M t i (conj H1 Hi))); exact Vis).
    apply layer_pos; [apply ZZ; split; assumption|apply HB; lia|apply HB; lia].
Qed.

Lemma optical_depth e lam sfc s P T Z : no_pole lam -> atmosphere e s P T Z ->
  exists s' B, calc_theory_beta_m e lam sfc s = (Ok tt, s') /\ real2 e s' "beta" B /\
   (forall t k, point e t k -> 0 <= B t k) /\
   real2 e s' "u_atm" (fun t k => molecular_depth sfc (nht e) (Z t) (B t) k) /\
   real2 e s' "tau" (fun t k => exp (-2 * molecular_depth sfc (nht e) (Z t) (B t) k)).
Proof.
  intros L A. destruct (theory_run e lam sfc s P T Z L A)
    as (s' & B & V & S & S1 & N & K & Er & HB & _ & _ & _ & _ & _ & M & Hu & Ht).
  exists s', B. repeat split; auto. intros t k Q. apply (mo_pos _ _ _ _ _ _ _ _ _ (M t k Q)).
Qed.

Lemma directions e lam s P T Z : no_pole lam -> atmosphere e s P T Z ->
  exists s1 s2 up down c, calc_theory_beta_m e lam true s = (Ok tt, s1) /\ calc_theory_beta_m e lam false s = (Ok tt, s2) /\
   real2 e s1 "tau" up /\ real2 e s2 "tau" down /\
   forall t k, point e t k -> up t k * down t k = c t.
Proof.
  intros L A.
  destruct (theory_run e lam true s P T Z L A) as (s1 & B & V & S & S1 & N & K & Er & _ & _ & _ & _ & _ & _ & M & _ & Ht).
  destruct (theory_run e lam false s P T Z L A) as (s2 & B' & V' & S' & S1' & N' & K' & Er' & _ & _ & _ & _ & _ & _ & M' & _ & Ht').
  exists s1, s2. do 2 eexists. exists (fun t => exp (-2 * sumR (layer_depth (Z t) (B t)) (nht e - 1))).
  split; [exact Er|]. split; [exact Er'|]. split; [exact Ht|]. split; [exact Ht'|].
  intros t k (H1 & H2). cbv beta.
  assert (EB : forall j, (j < nht e)%nat -> B' t j = B t j).
  { intros j Hj. pose proof (mo_beta _ _ _ _ _ _ _ _ _ (M t j (conj H1 Hj))) as Q1.
    pose proof (mo_beta _ _ _ _ _ _ _ _ _ (M' t j (conj H1 Hj))) as Q2. rewrite Q1 in Q2. congruence. }
  assert (ED : molecular_depth false (nht e) (Z t) (B' t) k = molecular_depth false (nht e) (Z t) (B t) k).
  { unfold molecular_depth. apply sumR_ext. intros j Hj. unfold layer_depth. rewrite !EB by lia. reflexivity. }
  rewrite ED, <- exp_plus. f_equal. rewrite <- (depth_sum (nht e) (Z t) (B t) k H2). ring.
Qed.

Lemma consistent e lam sfc s P T Z : no_pole lam -> atmosphere e s P T Z ->
  exists s' B V S S1 N K, calc_theory_beta_m e lam sfc s = (Ok tt, s') /\
   real2 e s' "beta" B /\ real2 e s' "sigma_180_vol" V /\ real2 e s' "sigma" S /\ real2 e s' "sigma_180" S1 /\
   real2 e s' "N_s" N /\ real2 e s' "kappa" K /\
   forall t k, point e t k -> 0 < N t k /\ B t k = S t k * N t k /\ V t k = S1 t k * N t k /\
     V t k = B t k * (7629/10000 * (1 + 932/1000)) / (4 * PI) /\
     K t k * air_density (P t k) (T t k) = 10000 * B t k.
Proof.
  intros L A. destruct (theory_run e lam sfc s P T Z L A)
    as (s' & B & V & S & S1 & N & K & Er & H1 & H2 & H3 & H4 & H5 & H6 & M & _ & _).
  exists s', B, V, S, S1, N, K. do 7 (split; [assumption|]). intros t k Q. destruct (M t k Q).
  do 3 (split; [assumption|]). split; [|assumption].
  pose proof PI_RGT_0. rewrite <- mo_ratio. field. lra.
Qed.

Lemma lidar_direction Gam e ins o c s s' P T Z :
  no_pole (wavelen ins) -> 1 < 41 * (wavelen ins * wavelen ins) -> atmosphere e s P T Z ->
  calc_lidar_moments Gam e ins o c s = (Ok tt, s') ->
  exists tau, real2 e s' "tau" tau /\ (forall t, tau t 0%nat = 1) /\
   forall t k, point e t (S k) -> tau t (S k) < tau t k.
Proof.
  intros L Vis A E. destruct (moments_tau Gam e ins o c s s' P T Z L A E) as (B & HB & Ht).
  eexists. split; [exact Ht|]. split; [intro t; cbn; rewrite Rmult_0_r; apply exp_0|].
  intros t k (H1 & H2). destruct A as (_ & _ & _ & _ & _ & ZZ).
  apply exp_increasing. assert (molecular_depth true (nht e) (Z t) (B t) k < molecular_depth true (nht e) (Z t) (B t) (S k)); [|lra].
  apply depth_strict; simpl; auto; try lia. intros j Hj.
  assert (HB' : forall k, (k < nht e)%nat -> 0 < B t k) by (intros i Hi; apply (HB t i (conj H1 Hi)); exact Vis).
  apply layer_pos; [apply ZZ; split; assumption|apply HB'; lia|apply HB'; lia].
Qed.

(** *** A concrete atmosphere *)
Lemma w_atmosphere fam l : atmosphere (w_env fam l) w_ds (fun _ _ => 900) (fun _ _ => 280 - 27315/100) (fun _ k => 100 * INR (S k)).
Proof.
  split; [exists (fun _ _ => XF 900); split; [reflexivity|intros; reflexivity]|].
  split; [exists (fun _ _ => XF 280); split; [reflexivity|intros; reflexivity]|].
  split; [exists w_z; split; [reflexivity|intros; reflexivity]|].
  split; [intros; lra|]. split; [intros; lra|].
  intros t k _. rewrite (S_INR (S k)). lra.
Qed.
Lemma w_no_pole : no_pole (wavelen w_ins) /\ 1 < 41 * (wavelen w_ins * wavelen w_ins).
Proof. cbn [wavelen w_ins]. unfold no_pole. repeat split; try lra; nra. Qed.
(** Looking down from above the model top. *)
Definition w_down : lopts := {|
  o_sfc := false; o_hyds := Some ["cl"; "ci"]%string; o_sched := Serial; o_eta := 1; o_mie := false;
  o_rad := true; o_emp := true; o_kw := {| k_disp := None; k_lo := 2; k_hi := 15 |} |}.
Lemma w_down_runs Gam : exists s', calc_lidar_moments Gam (w_env "CESM" w_lam) w_ins w_down false w_ds = (Ok tt, s').
Proof. exists (snd (calc_lidar_moments Gam (w_env "CESM" w_lam) w_ins w_down false w_ds)). reflexivity. Qed.
Lemma down_refuted Gam : exists e ins o s s' tau, no_pole (wavelen ins) /\ o_sfc o = false /\
  calc_lidar_moments Gam e ins o false s = (Ok tt, s') /\ real2 e s' "tau" tau /\
  (2 <= nht e)%nat /\ (1 <= ntm e)%nat /\ tau 0%nat (first_level (o_sfc o) (nht e)) <> 1.
Proof.
  destruct (w_down_runs Gam) as (s' & E).
  destruct (lidar_direction Gam _ _ _ _ _ _ _ _ _ (proj1 w_no_pole) (proj2 w_no_pole) (w_atmosphere "CESM" w_lam) E)
    as (tau & Ht & T0 & TS).
  exists (w_env "CESM" w_lam), w_ins, w_down, w_ds, s', tau.
  split; [apply w_no_pole|]. split; [reflexivity|]. split; [exact E|]. split; [exact Ht|]. split; [cbn; lia|]. split; [cbn; lia|].
  cbn [o_sfc w_down first_level nht w_env Nat.sub].
  pose proof (TS 0%nat 0%nat ltac:(cbn; split; cbn; lia)). pose proof (TS 0%nat 1%nat ltac:(cbn; split; cbn; lia)).
  specialize (T0 0%nat). lra.
Qed.
