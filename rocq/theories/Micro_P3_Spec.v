(** Ice of the P3 scheme in the microphysics methods. *)
From Coq Require Import Reals.
From Verif Require Import Mom_Base Mom_Spec Lidar_Model Lidar_Spec Psd_Spec Micro_Spec.
Local Open Scope R_scope.

(** The field [x] of the dataset holds the number [v] at a point. *)
Definition holds2 (s : dset) (x : string) (t k : nat) (v : R) : Prop := exists a, var2 s x a /\ a t k = XF v.

(** The size distribution stored with the ice: the number of particles times
    the distribution of one particle. *)
Definition p3_distribution (e : menv) (s : dset) (t k : nat) (n0 lam mu : R) : Prop :=
  exists n n1 L ln M mn,
    holds2 s (p3_ni e) t k n /\ holds2 s (p3_n0 e) t k n1 /\ n0 = n * n1 /\
    lam_field e = Some L /\ assoc L "ci" = Some (Some ln) /\ holds2 s ln t k lam /\
    mu_field e = Some M /\ assoc M "ci" = Some (Some mn) /\ holds2 s mn t k mu.

(** The cross-sections of particles of sizes [D]: those of the Mie table, or
    of the table of P3 ice at the rime fraction and density of the point. *)
Definition p3_tabulated (ins : inst) (s : dset) (t k : nat) (key : string) (D X : list R) : Prop :=
  exists fr rr, holds2 s "Fr" t k fr /\ holds2 s "rho_r" t k rr /\
    Forall2 (fun d x => p3_single ins key (XF fr) (XF rr) (XF d) = XF x) D X.
Definition p3_sections (e : menv) (ins : inst) (mie : bool) (s : dset) (t k : nat) (D B A : list R) : Prop :=
  exists tab, class_table e ins mie "ci" tab /\
    if mie then particle_table tab D B A
    else fst (fst tab) = map XF D /\ increasing_from 0 D /\
         p3_tabulated ins s t k "beta_p" D B /\ p3_tabulated ins s t k "alpha_p" D A.

(** The ice occupies the cell, in some number; or it does not. *)
Definition p3_present (s : dset) (i t k : nat) : Prop :=
  exists n fl, value s (nn false "ci") i t k = XF n /\ n <> 0 /\ varb s (fn false "ci") fl /\ fl i t k = true.
Definition p3_absent (s : dset) (i t k : nat) : Prop :=
  exists fl, varb s (fn false "ci") fl /\ fl i t k = false.
