(** Gamma particle size distributions, stated with improper integrals. *)
From Coq Require Import Reals.
From Coquelicot Require Import Coquelicot.
From Verif Require Import Mom_Base Mom_Spec.
Local Open Scope R_scope.

(** [v] is the integral of [f] over (0, oo). *)
Definition integral_to_infinity (f : R -> R) (v : R) : Prop :=
  is_RInt_gen f (at_right 0) (Rbar_locally p_infty) v.

(** [g] is the value at [x] of Euler's gamma function. *)
Definition gamma_value (x g : R) : Prop :=
  integral_to_infinity (fun t => Rpower t (x - 1) * exp (- t)) g.

(** N(D) = N0 D^mu exp(- lambda D), the distribution of psd.py 54-60. *)
Definition gamma_psd (n0 lam mu : R) (D : R) : R := n0 * Rpower D mu * exp (- lam * D).

(** The mass of a sphere of diameter [D] and density [rho]. *)
Definition sphere_mass (rho D : R) : R := PI * rho / 6 * Rpower D 3.

(** The particle density used for a class at a point. *)
Definition density_at (e : menv) (s : dset) (h : string) (t k : nat) (rh : R) : Prop :=
  assoc (rho_hyd e) h = Some (RConst rh) \/
  (assoc (rho_hyd e) h = Some RVar /\
   exists v g, assoc (var_density e) h = Some v /\ var2 s v g /\ g t k = XF rh).

(** The relation of Martin et al. (1994) between the shape parameter and the
    number concentration in cm-3. *)
Definition martin (n : R) : R := 1 / (5714 / 10000000 * n + 2714 / 10000) ^ 2 - 1.

(** Whether the shape parameter follows that relation: what the caller asks
    for, by default for every model but ModelE and DHARMA. *)
Definition varying_shape (asked : option bool) (model : string) : Prop :=
  asked = Some true \/ (asked = None /\ ~ In model ["ModelE"; "DHARMA"]%string).
Definition fixed_shape (asked : option bool) (model : string) : Prop :=
  asked = Some false \/ (asked = None /\ In model ["ModelE"; "DHARMA"]%string).
