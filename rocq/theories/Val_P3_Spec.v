(** Ice of the P3 scheme: what its tables and fields hold, in real numbers. *)
From Verif Require Import Mom_Base Mom_Spec Lidar_Model Lidar_Spec Val_Spec.
Local Open Scope R_scope.

(** The state of the ice of a column: rime fraction, rime density, mass per
    particle, particles per volume. *)
Record p3_state := { ps_fr : nat -> nat -> R; ps_rr : nat -> nat -> R; ps_q1 : nat -> nat -> R; ps_n : nat -> nat -> R }.
Definition p3_fields (e : menv) (s : dset) (x : p3_state) : Prop :=
  real2 e s "Fr" (ps_fr x) /\ real2 e s "rho_r" (ps_rr x) /\ real2 e s "qi_norm" (ps_q1 x) /\
  real2 e s (p3_ni e) (ps_n x).
(** The bulk table [key] gives [V] at the state of the ice. *)
Definition p3_gives (e : menv) (ins : inst) (x : p3_state) (key : string) (V : nat -> nat -> R) : Prop :=
  forall t k, point e t k -> p3_bulk ins key (XF (ps_fr x t k)) (XF (ps_rr x t k)) (XF (ps_q1 x t k)) = XF (V t k).

(** Cross-sectional area (m2 m-3) in each cell.  Without hybrid scattering
    (0) the tabulated area per particle times the number of particles; with
    2 the area of the spheres of equal volume (of solid spheres when Mie
    tables are used); with 1 that of the mass at the tabulated effective
    radius (m), multiplied by the relative density when the model has a
    fluffiness factor. *)
Definition p3_area_name (hyb : nat) (mie : bool) : string :=
  if Nat.eqb hyb 0 then "A_tot_norm" else if mie then "A_tot_Mie_norm" else "A_tot_eq_V_norm".
Definition p3_area (e : menv) (ins : inst) (c mie : bool) (s : dset) (x : p3_state)
    (P Z : nat -> nat -> R) (A : nat -> nat -> nat -> R) : Prop :=
  ((hybrid e = 0%nat \/ hybrid e = 2%nat) /\ exists A1, p3_gives e ins x (p3_area_name (hybrid e) mie) A1 /\
     forall i t k, A i t k = A1 t k * ps_n x t k) \/
  (hybrid e = 1%nat /\ exists Re1 Q, p3_gives e ins x "ri_eff" Re1 /\ real3 e s (qn c "ci") Q /\
     exists Re, (forall t k, point e t k -> 0 < Re t k) /\
     match fluffy e with
     | None => forall t k, Re t k = Re1 t k * 10 ^ 6
     | Some _ => exists Rm, p3_gives e ins x "rho_m_weight" Rm /\
                   forall t k, Re t k = Re1 t k * 10 ^ 6 * (Rm t k / rho_ice ins)
     end /\
     forall i t k, A i t k = projected_area (rho_ice ins) (Re t k) (layer_water (grav ins) (Q i t k) (P t) (Z t) k)).
(** The tables of extinction and backscatter efficiency. *)
Definition p3_ext_name (mie : bool) : string := if mie then "Q_ext_Mie_bulk" else "Q_ext_bulk".
Definition p3_back_name (mie : bool) : string := if mie then "Q_back_Mie_bulk" else "Q_back_bulk".
