(** Vocabulary for scattering tables. *)
From Coq Require Import Reals.
From Verif Require Export Scat_Model.
Local Open Scope R_scope.

(** The double-Debye permittivity of liquid water (Meissner and Wentz 2004),
    real part and loss, for a frequency in GHz and a temperature in Celsius. *)
Definition debye (f t : R) : R * R :=
  let es := ((370886 / 10) - (82168 / 1000) * t) / ((421854 / 1000) + t) in
  let e1 := (5723 / 1000) + (22379 / 1000000) * t - (71237 / 100000000) * t ^ 2 in
  let ei := (36143 / 10000) + (28841 / 1000000) * t in
  let x := f * ((50478 / 10000) - (70315 / 1000000) * t + (60059 / 100000000) * t ^ 2) / (45 + t) in
  let y := f * ((13652 / 100000) + (14825 / 10000000) * t + (24166 / 100000000) * t ^ 2) / (45 + t) in
  ((es - e1) / (1 + x ^ 2) + (e1 - ei) / (1 + y ^ 2) + ei,
   x * (es - e1) / (1 + x ^ 2) + y * (e1 - ei) / (1 + y ^ 2)).
(** The frequency in GHz of a wavelength in cm. *)
Definition gigahertz (wavelength : R) : R := (299792458 / 10000000) / wavelength.

(** |K|^2 with K = (m^2 - 1) / (m^2 + 2). *)
Definition dielectric_factor (m : cx) : R :=
  let e := cmul m m in
  ((fst e - 1) ^ 2 + snd e ^ 2) / ((fst e + 2) ^ 2 + snd e ^ 2).

(** The cross-section of a sphere. *)
Definition disc (d : R) : R := PI * (d / 2) ^ 2.

(** What PyMieScatt documents about its diameters: [nd] of them, between the
    ends of the range. *)
Definition mie_contract (mie : cx -> R -> R -> nat -> R -> R -> list mie_row) : Prop :=
  forall m w n nd lo hi, length (mie m w n nd lo hi) = nd /\
    forall r, In r (mie m w n nd lo hi) -> lo <= m_d r <= hi.

(** The entry of a table at row [i]. *)
Definition entry (t : table) (n : string) (i : nat) : xr :=
  match assoc t n with Some c => nth i c XNaN | None => XNaN end.
(** A table has the named columns, all of the same length. *)
Definition has_columns (t : table) (ns : list string) (len : nat) : Prop :=
  forall n, In n ns -> exists c, assoc t n = Some c /\ length c = len.

(** The columns of a P3 table given in um2 and in um. *)
Definition p3_scaled_areas : list string :=
  ["beta_p"; "alpha_p"; "A"; "A_tot_norm"; "A_tot_Mie_norm"; "beta_p_eq_VdivA"; "alpha_p_eq_VdivA";
   "A_tot_eq_VdivA_norm"; "beta_p_eq_V"; "alpha_p_eq_V"; "A_tot_eq_V_norm"]%string.
Definition p3_scaled_lengths : list string := ["D_eq_VdivA_sphere"; "D_eq_vol_sphere"]%string.
