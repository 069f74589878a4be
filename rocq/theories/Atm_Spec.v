(** Vocabulary for the molecular scattering fields. *)
From Verif Require Import Mom_Base Mom_Spec.
Local Open Scope R_scope.

(** Optical depth of the layer between levels [k] and [k+1]: trapezoidal
    rule for extinction [B] (m-1) at heights [Z] (m). *)
Definition layer_depth (Z B : nat -> R) (k : nat) : R := (Z (S k) - Z k) * ((B k + B (S k)) / 2).
(** Optical depth between level [k] and the surface ([sfc]) or the top of a
    profile of [n] levels. *)
Definition molecular_depth (sfc : bool) (n : nat) (Z B : nat -> R) (k : nat) : R :=
  if sfc then sumR (layer_depth Z B) k else sumR (fun j => layer_depth Z B (k + j)) (n - 1 - k).

(** The level at which the instrument stands, and the order of levels seen
    from there. *)
Definition first_level (sfc : bool) (n : nat) : nat := if sfc then 0%nat else (n - 1)%nat.
Definition farther (sfc : bool) (k k' : nat) : Prop := if sfc then (k <= k')%nat else (k' <= k)%nat.

(** An atmosphere: pressure [P] in hPa, temperature [T] in C, heights [Z] in
    m after unit conversion; heights increase with the level. *)
Definition atmosphere (e : menv) (s : dset) (P T Z : nat -> nat -> R) : Prop :=
  (exists p, var2 s (p_name e) p /\ forall t k, point e t k -> p_hpa e (p t k) = XF (P t k)) /\
  (exists p, var2 s (t_name e) p /\ forall t k, point e t k -> t_cel e (p t k) = XF (T t k)) /\
  (exists p, var2 s (z_name e) p /\ forall t k, point e t k -> z_met e (p t k) = XF (Z t k)) /\
  (forall t k, point e t k -> 0 < P t k) /\
  (forall t k, point e t k -> - (27315/100) < T t k) /\
  (forall t k, point e t (S k) -> Z t k < Z t (S k)).

(** The dispersion formula of the refractive index has no pole at wavelength
    [lam] (micron). *)
Definition no_pole (lam : R) : Prop :=
  0 < lam /\ (1 / lam) * (1 / lam) <> 146 /\ (1 / lam) * (1 / lam) <> 41.

(** Air density in kg m-3 at [p] hPa and [t] C. *)
Definition air_density (p t : R) : R := p * 100 / (287058/1000 * (t + 27315/100)).

(** Refractive index of air minus one: dispersion formula at wavelength [lam]
    (micron), for 15 C and 1013.25 hPa, scaled to [p] hPa and [t] C. *)
Definition dispersion_15C (lam : R) : R :=
  (64328/10 + 2949810 / (146 - / lam ^ 2) + 25540 / (41 - / lam ^ 2)) / 10 ^ 8.
Definition refractivity (lam p t : R) : R :=
  dispersion_15C lam * (p / (101325/100)) * ((1 + 366/100000 * 15) / (1 + 366/100000 * t)).
(** Molecules per m3: ideal gas. *)
Definition molecules (p t : R) : R := 100 * p * (6022140857 * 10 ^ 14) / (83144598/10000000 * (t + 27315/100)).
(** Rayleigh cross-section (m2) of a molecule for an index [n], a density [d] (m-3)
    and a wavelength in m; depolarisation 0.035. *)
Definition rayleigh (n d wave : R) : R :=
  8 * PI ^ 3 * (n ^ 2 - 1) ^ 2 / (3 * d ^ 2 * wave ^ 4) * ((6 + 3 * (35/1000)) / (6 - 7 * (35/1000))).
