(** C47, C67-C69: molecular scattering.  Vocabulary in Mom_Spec and Atm_Spec. *)
From Verif Require Import Mom_Base Mom_Spec Sched_Model Psd_Model Atm_Model Atm_Spec Atm_Values Lidar_Model Lidar_Witness Atm_Lidar.
Local Open Scope R_scope.

(** C47: the optical depth is the trapezoidal integral of the extinction
    from the chosen end, and the transmittance its exponential ... *)
Theorem C47_optical_depth : forall e lam sfc s P T Z, no_pole lam -> atmosphere e s P T Z ->
  exists s' B, calc_theory_beta_m e lam sfc s = (Ok tt, s') /\ real2 e s' "beta" B /\
   (forall t k, point e t k -> 0 <= B t k) /\
   real2 e s' "u_atm" (fun t k => molecular_depth sfc (nht e) (Z t) (B t) k) /\
   real2 e s' "tau" (fun t k => exp (-2 * molecular_depth sfc (nht e) (Z t) (B t) k)).
Proof. exact optical_depth. Qed.
Print Assumptions C47_optical_depth.
(** ... which is in (0,1], 1 at that end and non-increasing away from it
    (strictly decreasing for wavelengths above 0.157 micron). *)
Theorem C47_transmittance : forall e lam sfc s P T Z, no_pole lam -> atmosphere e s P T Z ->
  exists s' tau, calc_theory_beta_m e lam sfc s = (Ok tt, s') /\ real2 e s' "tau" tau /\
   (forall t k, point e t k -> 0 < tau t k <= 1) /\
   (forall t, tau t (first_level sfc (nht e)) = 1) /\
   (forall t k k', point e t k -> point e t k' -> farther sfc k k' -> tau t k' <= tau t k) /\
   (1 < 41 * (lam * lam) -> forall t k k', point e t k -> point e t k' -> farther sfc k k' -> k <> k' -> tau t k' < tau t k).
Proof. exact transmittance. Qed.
Print Assumptions C47_transmittance.
(** The two directions split the transmittance of the whole column. *)
Theorem C47_directions : forall e lam s P T Z, no_pole lam -> atmosphere e s P T Z ->
  exists s1 s2 up down c, calc_theory_beta_m e lam true s = (Ok tt, s1) /\ calc_theory_beta_m e lam false s = (Ok tt, s2) /\
   real2 e s1 "tau" up /\ real2 e s2 "tau" down /\
   forall t k, point e t k -> up t k * down t k = c t.
Proof. exact directions. Qed.
Print Assumptions C47_directions.
Example C47_witness : no_pole (532/1000) /\ 1 < 41 * (532/1000 * (532/1000)) /\
  atmosphere (w_env "CESM" w_lam) w_ds (fun _ _ => 900) (fun _ _ => 280 - 27315/100) (fun _ k => 100 * INR (S k)).
Proof. split; [apply w_no_pole|]. split; [apply w_no_pole|]. apply w_atmosphere. Qed.

(** C67: the stored fields agree with each other.  Volume cross-sections are
    cross-sections per molecule times the number density, and backscatter is
    extinction times the normalised phase function at 180 degrees.
    C68: the mass extinction field times the air density is ten thousand
    times the extinction. *)
Theorem C67_C68_consistent_fields : forall e lam sfc s P T Z, no_pole lam -> atmosphere e s P T Z ->
  exists s' B V S S1 N K, calc_theory_beta_m e lam sfc s = (Ok tt, s') /\
   real2 e s' "beta" B /\ real2 e s' "sigma_180_vol" V /\ real2 e s' "sigma" S /\ real2 e s' "sigma_180" S1 /\
   real2 e s' "N_s" N /\ real2 e s' "kappa" K /\
   forall t k, point e t k -> 0 < N t k /\ B t k = S t k * N t k /\ V t k = S1 t k * N t k /\
     V t k = B t k * (7629/10000 * (1 + 932/1000)) / (4 * PI) /\
     K t k * air_density (P t k) (T t k) = 10000 * B t k.
Proof. exact consistent. Qed.
Print Assumptions C67_C68_consistent_fields.
Example C67_C68_witness : no_pole (532/1000) /\
  atmosphere (w_env "CESM" w_lam) w_ds (fun _ _ => 900) (fun _ _ => 280 - 27315/100) (fun _ k => 100 * INR (S k)).
Proof. split; [apply w_no_pole|apply w_atmosphere]. Qed.

(** C137: refractive index, number density and cross-section per molecule are
    those of the published formulas; with C67 this gives all the fields. *)
Theorem C137_molecular_values : forall e lam sfc s P T Z, no_pole lam -> atmosphere e s P T Z ->
  exists s', calc_theory_beta_m e lam sfc s = (Ok tt, s') /\
   unchanged_except ["tau"; "u_atm"; "beta"; "sigma_180_vol"; "sigma_180"; "sigma"; "kappa"; "N_s"; "n_s"]%string s s' /\
   real2 e s' "n_s" (fun t k => 1 + refractivity lam (P t k) (T t k)) /\
   real2 e s' "N_s" (fun t k => molecules (P t k) (T t k)) /\
   real2 e s' "sigma" (fun t k =>
     rayleigh (1 + refractivity lam (P t k) (T t k)) (molecules (P t k) (T t k)) (lam / 10 ^ 6)).
Proof. exact molecular_values. Qed.
Print Assumptions C137_molecular_values.
Example C137_witness : no_pole (532/1000) /\
  atmosphere (w_env "CESM" w_lam) w_ds (fun _ _ => 900) (fun _ _ => 280 - 27315/100) (fun _ k => 100 * INR (S k)) /\
  27 / 10 ^ 5 < refractivity (532/1000) (101325/100) 15 < 28 / 10 ^ 5.
Proof.
  split; [apply w_no_pole|]. split; [apply w_atmosphere|]. unfold refractivity, dispersion_15C. lra.
Qed.

(** C69: a lidar call stores a molecular transmittance that is 1 at the
    lowest level and decreases upwards, whatever end the caller chose for
    the optical depth. *)
Theorem C69_lidar_direction : forall Gam e ins o c s s' P T Z,
  no_pole (wavelen ins) -> 1 < 41 * (wavelen ins * wavelen ins) -> atmosphere e s P T Z ->
  calc_lidar_moments Gam e ins o c s = (Ok tt, s') ->
  exists tau, real2 e s' "tau" tau /\ (forall t, tau t 0%nat = 1) /\
   forall t k, point e t (S k) -> tau t (S k) < tau t k.
Proof. exact lidar_direction. Qed.
Print Assumptions C69_lidar_direction.
Example C69_witness : forall Gam, no_pole (wavelen w_ins) /\ 1 < 41 * (wavelen w_ins * wavelen w_ins) /\
  (exists P T Z, atmosphere (w_env "CESM" w_lam) w_ds P T Z) /\
  exists s', calc_lidar_moments Gam (w_env "CESM" w_lam) w_ins w_down false w_ds = (Ok tt, s').
Proof.
  intro Gam. split; [apply w_no_pole|]. split; [apply w_no_pole|].
  split; [do 3 eexists; apply w_atmosphere|apply w_down_runs].
Qed.
Theorem C69_direction_refuted : forall Gam, exists e ins o s s' tau, no_pole (wavelen ins) /\ o_sfc o = false /\
  calc_lidar_moments Gam e ins o false s = (Ok tt, s') /\ real2 e s' "tau" tau /\
  (2 <= nht e)%nat /\ (1 <= ntm e)%nat /\ tau 0%nat (first_level (o_sfc o) (nht e)) <> 1.
Proof. exact down_refuted. Qed.
Print Assumptions C69_direction_refuted.
