(** C41, C62: particle size distributions.
    Vocabulary: Mom_Spec.v, Psd_Spec.v. *)
From Verif Require Import Mom_Base Mom_Spec Psd_Model Psd_Spec Psd_Facts Lidar_Witness Psd_Witness.
Local Open Scope R_scope.

(** C41: where there is condensate, N(D) = N0 D^mu exp(- lambda D) integrates
    to the number concentration (cm-3 to m-3) and its mass to the mixing
    ratio.  [Gam] only has to be the gamma function at the two points used. *)
Theorem C41_number_and_mass : forall Gam e kw h conv s s',
  calc_mu_lambda Gam e kw h conv s = (Ok tt, s') ->
  forall i t k q n rh mu, value s (qn conv h) i t k = XF q -> value s (nn conv h) i t k = XF n ->
  density_at e s h t k rh -> value s' "mu" i t k = XF mu ->
  0 < q -> 0 < n -> 0 < rh ->
  gamma_value (mu + 1) (Gam (mu + 1)) -> gamma_value (mu + 4) (Gam (mu + 4)) ->
  exists lam n0, value s' "lambda" i t k = XF lam /\ value s' "N_0" i t k = XF n0 /\ 0 < lam /\
    integral_to_infinity (gamma_psd n0 lam mu) (n * 10 ^ 6) /\
    integral_to_infinity (fun D => sphere_mass rh D * gamma_psd n0 lam mu D) q.
Proof. exact psd_identities. Qed.
Print Assumptions C41_number_and_mass.

(** C41: the shape parameter. *)
Theorem C41_shape : forall Gam e kw h conv s s',
  calc_mu_lambda Gam e kw h conv s = (Ok tt, s') ->
  forall i t k n, value s (nn conv h) i t k = XF n ->
  (h = "cl"%string -> conv = false -> varying_shape (k_disp kw) (model_name e) -> k_lo kw <= k_hi kw ->
     exists mu, value s' "mu" i t k = XF mu /\ k_lo kw <= mu <= k_hi kw) /\
  (h = "cl"%string -> conv = false -> fixed_shape (k_disp kw) (model_name e) -> value s' "mu" i t k = XF (1 / (9 / 100))) /\
  (h <> "cl"%string \/ conv = true -> value s' "mu" i t k = XF 0).
Proof. exact psd_mu. Qed.
Print Assumptions C41_shape.

(** C41: no slope without condensate. *)
Theorem C41_no_condensate : forall Gam e kw h conv s s',
  calc_mu_lambda Gam e kw h conv s = (Ok tt, s') ->
  forall i t k, xltb (XF 0) (value s (qn conv h) i t k) = false -> value s' "lambda" i t k = XNaN.
Proof. exact psd_no_mass. Qed.
Print Assumptions C41_no_condensate.

Example C41_witness :
  exists s' lam n0, calc_mu_lambda w_gam w_m w_kw "pl" false w_psd = (Ok tt, s') /\
    density_at w_m w_psd "pl" 0 0 1000 /\
    value s' "mu" 0 0 0 = XF 0 /\ value s' "lambda" 0 0 0 = XF lam /\ value s' "N_0" 0 0 0 = XF n0 /\
    integral_to_infinity (gamma_psd n0 lam 0) 10000 /\
    integral_to_infinity (fun D => sphere_mass 1000 D * gamma_psd n0 lam 0 D) (1/10000).
Proof. exact w_identities. Qed.

(** C62: the number concentration is in cm-3 (C41_number_and_mass), and so is
    that of the relation for the shape parameter, but the code rescales it
    once more: at 500 cm-3 the parameter is not [martin 500], although that
    lies inside the bounds ... *)
Theorem C62_shape_refuted : forall Gam, exists s' mu,
  calc_mu_lambda Gam w_m w_kw "cl" false w_psd = (Ok tt, s') /\
  varying_shape (k_disp w_kw) (model_name w_m) /\ value w_psd (nn false "cl") 0 0 0 = XF 500 /\ 2 <= martin 500 <= 15 /\
  value s' "mu" 0 0 0 = XF mu /\ mu <> martin 500.
Proof. exact w_martin. Qed.
Print Assumptions C62_shape_refuted.
(** ... and it is practically the same for all droplet numbers. *)
Theorem C62_shape_insensitive : forall Gam e kw s s', calc_mu_lambda Gam e kw "cl" false s = (Ok tt, s') ->
  varying_shape (k_disp kw) (model_name e) -> k_lo kw <= 25/2 -> 63/5 <= k_hi kw ->
  forall i t k n, value s (nn false "cl") i t k = XF n -> 0 <= n <= 10000 ->
  exists mu, value s' "mu" i t k = XF mu /\ 25/2 <= mu <= 63/5.
Proof. exact psd_mu_constant. Qed.
Print Assumptions C62_shape_insensitive.
Theorem C62_shape_value : forall Gam e kw s s', calc_mu_lambda Gam e kw "cl" false s = (Ok tt, s') ->
  varying_shape (k_disp kw) (model_name e) -> k_lo kw <= k_hi kw ->
  forall i t k n, value s (nn false "cl") i t k = XF n -> 0 <= n ->
  value s' "mu" i t k = XF (Rmin (k_hi kw) (Rmax (k_lo kw) (martin (n / 10 ^ 6)))).
Proof. exact psd_mu_value. Qed.
Print Assumptions C62_shape_value.
Example C62_witness : forall Gam, (exists s', calc_mu_lambda Gam w_m w_kw "cl" false w_psd = (Ok tt, s')) /\
  varying_shape (k_disp w_kw) (model_name w_m) /\ k_lo w_kw <= 25/2 /\ 63/5 <= k_hi w_kw /\ value w_psd (nn false "cl") 0 0 0 = XF 500.
Proof.
  intro Gam. destruct (w_martin Gam) as (s' & mu & E & D & V & _). split; [exists s'; exact E|].
  split; [exact D|]. split; [cbn; lra|]. split; [cbn; lra|exact V].
Qed.
